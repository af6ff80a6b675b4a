(** The searches in binary64 answer on usual rasters. *)
From Verif Require Import Base_model Raster_model Analyze_model Closest_model Float_model Float_spec Float_proof
  Slope_spec Slope_proof Near_model Near_spec Near_proof Near_run_proof Fsearch_model Fsearch_spec Closest_spec Closest_proof Raster_spec.
From Flocq Require Import Core BinarySingleNaN.
From Coq Require Import Reals Lra Psatz Qreals.
Local Open Scope R_scope.

Lemma dyadic_value (k e : Z) : Q2R (dyadic k e) = F2R (Float radix2 k e).
Proof.
  unfold F2R. cbn [Fnum Fexp]. destruct e as [|p|p]; cbn [dyadic].
  - unfold Q2R, inject_Z. cbn [Qnum Qden bpow]. lra.
  - rewrite bp by lia. unfold Q2R, inject_Z. cbn [Qnum Qden]. rewrite mult_IZR. lra.
  - change (Z.neg p) with (- Z.pos p)%Z. rewrite bpn by lia. unfold Q2R. cbn [Qnum Qden].
    rewrite Pos2Z.inj_pow. done.
Qed.

Lemma square_of (d : b64) : is_finite d = true -> Q2R (f_square d) = B2R d * B2R d.
Proof.
  destruct d as [s|s| |s mm e H]; intros F; try discriminate F; cbn [f_square B2R].
  - rewrite RMicromega.Q2R_0. lra.
  - rewrite Q2R_mult, dyadic_value. destruct s; cbn [cond_Zopp]; [|done].
    change (Z.neg mm) with (- Z.pos mm)%Z. rewrite F2R_Zopp. lra.
Qed.

Lemma calc_any hyp tx ty p : usual_cell p -> exists d, f_distanceCalc hyp tx ty p = Ok d.
Proof.
  intros [H1 H2]. unfold f_distanceCalc.
  destruct (fint_ok p.1) as (f & -> & _); [unfold index_ok; lia|].
  destruct (fint_ok p.2) as (g & -> & _); [unfold index_ok; lia|]. cbn [rbind]. eauto.
Qed.
Lemma member_any hyp tx ty pts : (forall p, p ∈ pts -> usual_cell p.1) -> forall best bd,
  exists p, f_closestPoint_loop hyp tx ty pts best bd = Ok p /\ p ∈ best :: pts.
Proof.
  induction pts as [|a pts IH]; intros Hpts best bd; cbn [f_closestPoint_loop].
  { exists best. split; [done|]. by left. }
  destruct (calc_any hyp tx ty a.1) as [d ->]; [apply Hpts; by left|]. cbn [rbind].
  destruct (Beqb _ _). { exists a. split; [done|]. right. by left. }
  destruct (Bltb _ _).
  - destruct (IH ltac:(intros; apply Hpts; by right) a d) as (p & -> & Hp). exists p. split; [done|]. by right.
  - destruct (IH ltac:(intros; apply Hpts; by right) best bd) as (p & -> & Hp). exists p. split; [done|].
    apply elem_of_cons in Hp as [->|Hp]; [by left|]. right. by right.
Qed.

Section searches.
  Context (hyp : b64 -> b64 -> b64) (kd : list xy -> xy -> nat * b64) (m : datamap) (g1 g5 : b64).
  Hypothesis HL : float_library hyp kd.
  Hypothesis HR : float_raster m g1 g5.

  Lemma usual_in p : in_map m p -> usual_cell p.
  Proof. intros [H1 H2]. pose proof (fr_rows _ _ _ HR). pose proof (fr_cols _ _ _ HR). split; lia. Qed.

  Lemma root_small p q : in_map m p -> in_map m q -> sqrt (Q2R (distance2 m p q)) <= bpow radix2 62.
  Proof.
    intros Hp Hq. pose proof (fr_reach _ _ _ HR p q Hp Hq) as H0.
    rewrite <- (sqrt_square (bpow radix2 62)) by apply bpow_ge_0.
    apply sqrt_le_1; [apply (Near_run_proof.dist_pos m g1 g5); apply HR|pose proof (bpow_ge_0 radix2 62); nra|].
    apply Qlt_Rlt in H0. unfold Q2R in H0 at 2. cbn [Qnum Qden inject_Z] in H0. rewrite <- bpow_plus, bp by lia.
    change (2 ^ (62 + 62))%Z with (2 ^ 124)%Z. lra.
  Qed.

  Lemma square_small d p q : in_map m p -> in_map m q -> near d (sqrt (Q2R (distance2 m p q))) -> (f_square d < maxsize2)%Q.
  Proof.
    intros Hp Hq [F [N1 N2]]. pose proof (root_small p q Hp Hq) as HS. pose proof (sqrt_pos (Q2R (distance2 m p q))) as HP.
    pose proof u_small. apply Rlt_Qlt. rewrite square_of by done. unfold maxsize2, Q2R, inject_Z. cbn [Qnum Qden].
    rewrite mult_IZR. rewrite bp in HS by lia. change (2 ^ 62)%Z with 4611686018427387904%Z in HS.
    assert (0 <= B2R d <= 9223372036854775806) by nra. nra.
  Qed.

  Lemma float_pair us them : (forall p, p ∈ us -> in_map m (pt_xy p)) -> (forall t, t ∈ them -> in_map m (pt_xy t)) ->
    us <> [] -> them <> [] ->
    exists p t d, f_find_closest_points hyp g1 g5 kd us them = Ok (Some (p, t), Some d) /\ p ∈ us /\ t ∈ them /\
      near d (sqrt (Q2R (distance2 m (pt_xy p) (pt_xy t)))).
  Proof.
    intros Hus Hth Nu Nt. pose proof (fl_hypot _ _ HL) as Hh. pose proof (fl_zero _ _ HL) as Hz. pose proof (fl_tree _ _ HL) as Hk.
    pose proof (fr_g1 _ _ _ HR) as E1. pose proof (fr_g5 _ _ _ HR) as E5. pose proof (fr_usual1 _ _ _ HR) as S1. pose proof (fr_usual5 _ _ _ HR) as S5.
    assert (Uu : usual_cells us) by (intros p Hp; by apply usual_in, Hus).
    assert (Ut : usual_cells them) by (intros p Hp; by apply usual_in, Hth).
    unfold f_find_closest_points. destruct (Nat.ltb _ _).
    - destruct us as [|p0 us]; [done|]. destruct them as [|t0 them]; [done|].
      destruct (brute_pair hyp Hh Hz m g1 g5 E1 E5 S1 S5 (p0 :: us) (t0 :: them) p0 t0 Uu Ut) as (p & t & d & E & Hp & Ht & N & _); [by left|by left| |].
      { apply (fr_reach _ _ _ HR); [apply Hus|apply Hth]; by left. }
      exists p, t, d. done.
    - destruct (tree_pair hyp Hh Hz kd Hk m g1 g5 E1 E5 S1 S5 us them Uu Ut Nu Nt) as (p & t & d & E & Hp & Ht & N & _).
      exists p, t, d. done.
  Qed.

  Lemma float_sound : sound_searches (float_searches hyp g1 g5 kd) m.
  Proof.
    pose proof (fl_hypot _ _ HL) as Hh. pose proof (fl_zero _ _ HL) as Hz. pose proof (fl_tree _ _ HL) as Hk.
    split.
    - intros us them Hus Hth Hne _. cbn [s_map float_searches].
      destruct (distance_map hyp Hh Hz kd Hk us them) as (d & E & H1 & H2).
      { intros p Hp. by apply usual_in, Hus. } { intros p Hp. by apply usual_in, Hth. } { done. }
      exists d. split; [done|]. split; [|done]. intros p Hp. destruct (H1 p Hp) as (t & Et & Ht & _). eauto.
    - intros us. cbn [s_map float_searches]. unfold f_find_closest_point_by_distance_map. destruct (Nat.ltb _ _).
      + left. unfold f_closest_point_by_distance_brute_force. generalize (∅ : gmap pte pte).
        induction us as [|p us IH]; intros d; cbn [foldM rbind]; [done|]. cbn [fst]. apply IH.
      + right. done.
    - intros us them Hus Hth Nu Nt _. cbn [s_pair float_searches].
      destruct (float_pair us them Hus Hth Nu Nt) as (p & t & d & -> & Hp & Ht & N). cbn [rbind fst snd option_map].
      exists p, t, (f_square d). split; [done|]. split; [done|]. split; [done|]. exact (square_small d _ _ (Hus p Hp) (Hth t Ht) N).
    - intros tx ty p0 pts H0 Hin. cbn [s_member float_searches]. unfold f_closestPoint. rewrite H0.
      assert (Hu : forall p, p ∈ p0 :: pts -> usual_cell p.1) by (intros p Hp; by apply usual_in, Hin).
      destruct (calc_any hyp (f_half tx) (f_half ty) p0.1) as [d ->]; [apply Hu; by left|]. cbn [rbind].
      destruct (member_any hyp (f_half tx) (f_half ty) pts ltac:(intros; apply Hu; by right) p0 d) as (p & -> & Hp). cbn [rbind].
      exists p.1. split; [done|]. apply elem_of_list_fmap. eauto.
  Qed.
End searches.
