(** How far the exhaustive search reaches. *)
From Verif Require Import Closest_model Raster_spec Closest_spec.
From Coq Require Import Lqa.
Local Open Scope Z_scope.

(** Which single pair is found. *)
Lemma reach_spec m p t (L : Q) : (0 <= L)%Q -> (distance2 m (pt_xy p) (pt_xy t) == L * L)%Q ->
  cp_mine (closest_points_between_sets_brute_force m [p] [t]) = Some p <-> (L < 9223372036854775807 # 1)%Q.
Proof.
  intros H0 HL. unfold closest_points_between_sets_brute_force. cbn [foldl cp_d2]. unfold Qlt_bool.
  set (M := (9223372036854775807 # 1)%Q). assert (maxsize2 == M * M)%Q as HM by reflexivity.
  destruct (Qle_bool maxsize2 _) eqn:E; cbn [negb cp_mine].
  - split; [done|]. intros Hlt. apply Qle_bool_iff in E. rewrite HL, HM in E. exfalso. apply (Qle_not_lt _ _ E). nra.
  - split; [|done]. intros _. apply Qnot_le_lt. intros Hle. apply not_true_iff_false in E. apply E. apply Qle_bool_iff.
    rewrite HL, HM. assert (0 <= M)%Q by done. nra.
Qed.
