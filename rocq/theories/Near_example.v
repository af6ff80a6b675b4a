(** Library functions that meet the assumptions on the searches in binary64. *)
From Verif Require Import Base_model Raster_model Raster_spec Analyze_model Closest_model Closest_spec Closest_proof Float_model Float_spec Float_proof
  Slope_model Slope_spec Slope_proof Slope_example Near_model Near_spec Near_proof Near_run_proof.
From Flocq Require Import Core BinarySingleNaN Relative.
From Coq Require Import Reals Lra Psatz Qreals.
Local Open Scope R_scope.

Lemma round_zero : rnd 0 = 0.
Proof. apply round_0, valid_rnd_N. Qed.

Lemma plain_zero : exact_at_zero plain_hypot.
Proof.
  intros a b Fa Fb Va Vb. pose proof (bpow_ge_0 radix2 1000) as HB.
  destruct (fmul_ok a a) as [MA FA]; [rewrite Va, Rmult_0_l, Rabs_R0; done|done|done|].
  destruct (fmul_ok b b) as [MB FB]; [rewrite Vb, Rmult_0_l, Rabs_R0; done|done|done|].
  rewrite Va, Rmult_0_l, round_zero in MA. rewrite Vb, Rmult_0_l, round_zero in MB.
  destruct (fadd_ok (f_mul a a) (f_mul b b)) as [MS FS]; [rewrite MA, MB, Rplus_0_l, Rabs_R0; done|done|done|].
  rewrite MA, MB, Rplus_0_l, round_zero in MS. unfold plain_hypot. destruct (f_add _ _) as [s|s| |s mm e He] eqn:E; try discriminate FS.
  - done.
  - exfalso. unfold B2R in MS. apply eq_0_F2R in MS. destruct s; discriminate MS.
Qed.

(** Compare with every point, then take the rounded root. *)
Definition plain_tree (pts : list xy) (q : xy) : nat * b64 :=
  let i := near0 pts q in
  (i, match pts !! i with
      | Some p => match f_int (pz p q) with Ok f => Bsqrt mode_NE f | Err _ => B754_zero false end
      | None => B754_zero false
      end).

Lemma plain_tree_good : good_tree plain_tree.
Proof.
  intros pts q Hne Hpts Hq. destruct (near0_ok pts q Hne) as (p & Ep & Hmin). exists p. unfold plain_tree. cbn [fst snd]. rewrite Ep.
  split; [done|]. split; [done|]. assert (Hp : usual_cell p) by (apply Hpts; by eapply elem_of_list_lookup_2).
  pose proof (pz_range p q Hp Hq) as HR. destruct (fint_ok (pz p q)) as (f & -> & Ff & Vf); [unfold index_ok; lia|].
  rewrite pz_value, <- Vf. destruct (Bsqrt_correct 53 1024 _ _ mode_NE f) as (Vs & Fs & _). split.
  - destruct f as [s|s| |[] mm e He]; try discriminate Ff; try exact Fs. exfalso.
    assert (Hn : B2R (B754_finite true mm e He : b64) < 0) by (apply F2R_lt_0; reflexivity). rewrite Vf in Hn.
    assert (0 <= IZR (pz p q)) by (apply IZR_le; lia). lra.
  - rewrite Vs. change (round radix2 (SpecFloat.fexp 53 1024) (round_mode mode_NE) (sqrt (B2R f))) with (rnd (sqrt (B2R f))).
    rewrite Vf. destruct (decide (pz p q = 0)%Z) as [->|Nz].
    + rewrite sqrt_0, round_zero, Rminus_0_r, Rabs_R0. pose proof (bpow_ge_0 radix2 (-51)). lra.
    + assert (1 <= sqrt (IZR (pz p q))).
      { rewrite <- sqrt_1. apply sqrt_le_1; [lra|apply IZR_le; lia|apply IZR_le; lia]. }
      eapply Rle_trans; [apply rnd_rel|].
      * rewrite Rabs_pos_eq by lra. apply Rle_trans with 1; [|done]. change 1 with (bpow radix2 0). apply bpow_le. lia.
      * rewrite Rabs_pos_eq by lra. apply Rmult_le_compat_r; [lra|]. apply bpow_le. lia.
Qed.

(** Pixels whose sides differ by the last bit of a float: 1 by 1 + 2^-52. *)
Definition side : b64 := @B754_finite 53 1024 false 4503599627370497 (-52) eq_refl.
Definition slim_map : datamap :=
  DM 9 9 (fun x y => x + y)%Z None (GT 0 1 0 0 0 (4503599627370497 # 4503599627370496)) (fun _ _ _ _ => Ok 0%Q).
Lemma side_value : B2R side = 1 + / 4503599627370496.
Proof.
  unfold side, B2R, F2R; cbn [Fnum Fexp cond_Zopp]. change (bpow radix2 (-52)) with (/ IZR (Z.pow_pos 2 52)).
  change (Z.pow_pos 2 52) with 4503599627370496%Z. lra.
Qed.
Lemma side_usual : usual_size side.
Proof.
  split; [done|]. rewrite side_value, Rabs_pos_eq by lra. split.
  - apply Rle_trans with (bpow radix2 0); [apply bpow_le; lia|simpl; lra].
  - apply Rle_trans with (bpow radix2 1); [simpl; lra|apply bpow_le; lia].
Qed.
Lemma one_usual : usual_size (one false).
Proof.
  split; [done|]. rewrite one_value, Rabs_R1. change 1 with (bpow radix2 0). split; apply bpow_le; lia.
Qed.
Lemma slim_one : Q2R (gt1 (dm_gt slim_map)) = B2R (one false).
Proof. rewrite one_value. unfold Q2R. simpl. lra. Qed.
Lemma slim_side : Q2R (gt5 (dm_gt slim_map)) = B2R side.
Proof. rewrite side_value. unfold Q2R. simpl. lra. Qed.

Definition origin : pte := ((0, 0)%Z, 0%Z).
Definition wide : pte := ((3, 4)%Z, 0%Z).
Definition tall : pte := ((4, 3)%Z, 0%Z).
Lemma slim_choice : exists d, f_find_closest_points plain_hypot (one false) side plain_tree [origin] [wide; tall] = Ok (Some (origin, wide), Some d).
Proof.
  assert (H : match f_find_closest_points plain_hypot (one false) side plain_tree [origin] [wide; tall] with
              | Ok (Some pr, Some _) => Some pr | _ => None end = Some (origin, wide)) by (vm_compute; reflexivity).
  destruct (f_find_closest_points _ _ _ _ _ _) as [[[pr|] [d|]]|]; try discriminate H. injection H as ->. by exists d.
Qed.

(** The float of half an integer. *)
Definition half5 : b64 := @B754_finite 53 1024 false 5629499534213120 (-51) eq_refl.
Lemma half5_value : half_way half5 5.
Proof.
  split; [done|]. split; [|lia]. unfold half5, B2R, F2R; cbn [Fnum Fexp cond_Zopp]. change (bpow radix2 (-51)) with (/ IZR (Z.pow_pos 2 51)).
  change (Z.pow_pos 2 51) with 2251799813685248%Z. lra.
Qed.
Lemma member_choice : f_closestPoint plain_hypot half5 half5 [((0, 0), None); ((2, 4), Some 7); ((3, 3), None); ((2, 2), None)]%Z = Ok (3, 3)%Z.
Proof. vm_compute. reflexivity. Qed.
