From Verif Require Import Base_model Raster_model Raster_spec Raster_proof Raster_facts Float_model Float_spec Float_proof
  Slope_model Slope_spec.
From Flocq Require Import Core BinarySingleNaN Relative.
From Coq Require Import Reals Lra Psatz Qreals Qabs.
Local Open Scope R_scope.
Local Instance fexp_valid : Valid_exp (SpecFloat.fexp 53 1024) := fexp_correct 53 1024 _.

Notation u := (bpow radix2 (-53)).

(** Relative error of rounding without underflow. *)
Lemma rnd_rel x : bpow radix2 (-1022) <= Rabs x -> Rabs (rnd x - x) <= u * Rabs x.
Proof.
  intros H. change rnd with (round radix2 (FLT_exp (-1074) 53) ZnearestE).
  pose proof (relative_error_N_FLT radix2 (-1074) 53 eq_refl (fun z => negb (Z.even z)) x H) as HE.
  change (- (53) + 1)%Z with (-53 + 1)%Z in HE.
  replace (/ 2 * bpow radix2 (-53 + 1)) with (bpow radix2 (-53)) in HE; [exact HE|].
  rewrite bpow_plus. simpl (bpow radix2 1). lra.
Qed.
Lemma rnd_pos x : bpow radix2 (-1022) <= x -> x * (1 - u) <= rnd x <= x * (1 + u).
Proof.
  intros H. assert (0 < x) by (eapply Rlt_le_trans; [apply bpow_gt_0|exact H]).
  pose proof (rnd_rel x) as HR. rewrite Rabs_pos_eq in HR by lra. specialize (HR H). apply Rabs_le_inv in HR. lra.
Qed.

Lemma val_ok f : is_finite f = true -> exists s, f_val f = Ok s /\ Q2R s = B2R f.
Proof.
  destruct f as [s|s| |s m e H]; try done; intros _.
  - exists 0%Q. split; [done|]. unfold Q2R. simpl. lra.
  - eexists. split; [reflexivity|]. by rewrite dyadic_value.
Qed.

Lemma ele_ok z : float_value z -> is_finite (f_ele z) = true /\ B2R (f_ele z) = IZR z * bpow radix2 (-149).
Proof.
  intros (Hb & f & Hf & Hv). unfold f_ele. pose proof (binary_normalize_correct 53 1024 _ _ mode_NE z (-149) false) as HC.
  assert (HF : F2R (Float radix2 z (-149)) = IZR z * bpow radix2 (-149)) by (unfold F2R; done). cbv zeta in HC. rewrite HF in HC.
  rewrite rnd_lt in HC.
  - destruct HC as (H1 & H2 & _). split; [exact H2|]. rewrite H1, <-Hv. apply round_generic; [apply valid_rnd_N|]. apply generic_format_B2R.
  - rewrite Rabs_mult, (Rabs_pos_eq (bpow _ _)) by apply bpow_ge_0. rewrite <-abs_IZR.
    apply Rle_trans with (bpow radix2 277 * bpow radix2 (-149)).
    + apply Rmult_le_compat_r; [apply bpow_ge_0|]. rewrite bp by lia. apply IZR_le. lia.
    + rewrite <-bpow_plus. apply bpow_le. lia.
Qed.

(** Distances to touching cells. *)
Definition unit_step (dx dy : Z) : Prop := (-1 <= dx <= 1 /\ -1 <= dy <= 1 /\ (dx <> 0 \/ dy <> 0))%Z.
Definition run (g5 g1 : R) (dx dy : Z) : R := sqrt (IZR dx * g5 * (IZR dx * g5) + IZR dy * g1 * (IZR dy * g1)).

Lemma run_range g5 g1 dx dy : unit_step dx dy ->
  bpow radix2 (-400) <= Rabs g5 <= bpow radix2 400 -> bpow radix2 (-400) <= Rabs g1 <= bpow radix2 400 ->
  bpow radix2 (-400) <= run g5 g1 dx dy <= bpow radix2 401.
Proof.
  intros (Hx & Hy & Hne) H5 H1. unfold run. set (b := bpow radix2 400) in *. set (a := bpow radix2 (-400)) in *.
  assert (0 < a) by apply bpow_gt_0. assert (0 < b) by apply bpow_gt_0.
  assert (E : bpow radix2 401 = 2 * b) by (unfold b; change 401%Z with (1 + 400)%Z; rewrite bpow_plus; simpl (bpow radix2 1); lra).
  assert (SQ : forall g, a <= Rabs g <= b -> a * a <= g * g <= b * b).
  { intros g Hg. replace (g * g) with (Rabs g * Rabs g) by (rewrite <-Rabs_mult; apply Rabs_pos_eq; nra). nra. }
  pose proof (SQ g5 H5) as S5. pose proof (SQ g1 H1) as S1. clear SQ.
  assert (U : forall d, (-1 <= d <= 1)%Z -> 0 <= IZR d * IZR d <= 1 /\ (d <> 0%Z -> IZR d * IZR d = 1)).
  { intros d Hd. assert (d = -1 \/ d = 0 \/ d = 1)%Z as [->|[->| ->]] by lia; split; try lra; intros; lia || lra. }
  destruct (U dx Hx) as [U1 U2], (U dy Hy) as [U3 U4]. clear U.
  replace (IZR dx * g5 * (IZR dx * g5)) with (IZR dx * IZR dx * (g5 * g5)) by ring.
  replace (IZR dy * g1 * (IZR dy * g1)) with (IZR dy * IZR dy * (g1 * g1)) by ring.
  set (p := IZR dx * IZR dx) in *. set (q := IZR dy * IZR dy) in *. set (x := g5 * g5) in *. set (y := g1 * g1) in *.
  assert (Hpx : 0 <= p * x <= b * b) by nra. assert (Hqy : 0 <= q * y <= b * b) by nra.
  split.
  - rewrite <-(sqrt_square a) by lra. apply sqrt_le_1; [nra|lra|].
    destruct Hne as [Hne|Hne]; [rewrite (U2 Hne)|rewrite (U4 Hne)]; lra.
  - rewrite E, <-(sqrt_square (2 * b)) by lra. apply sqrt_le_1; [lra|nra|nra].
Qed.

Lemma u_small : 0 < u <= / 1000000.
Proof. rewrite n53. lra. Qed.

Section slope.
  Context (hyp : b64 -> b64 -> b64) (g5 g1 : b64) (Hh : good_hypot hyp) (H5 : pixel_size g5) (H1 : pixel_size g1).

  (** The computed distance. *)
  Lemma f_run dx dy : unit_step dx dy -> exists fx fy, f_int dx = Ok fx /\ f_int dy = Ok fy /\
    let h := hyp (f_mul fx g5) (f_mul fy g1) in
    is_finite h = true /\ run (B2R g5) (B2R g1) dx dy * (1 - 4 * u) <= B2R h <= run (B2R g5) (B2R g1) dx dy * (1 + 4 * u).
  Proof.
    intros Hs. pose proof Hs as (Hx & Hy & _). destruct H5 as [F5 R5], H1 as [F1 R1].
    destruct (fint_ok dx) as (fx & Ex & Fx & Vx); [unfold index_ok; lia|].
    destruct (fint_ok dy) as (fy & Ey & Fy & Vy); [unfold index_ok; lia|].
    exists fx, fy. split; [done|]. split; [done|].
    assert (M : forall d f g, (-1 <= d <= 1)%Z -> is_finite f = true -> B2R f = IZR d -> is_finite g = true ->
      Rabs (B2R g) <= bpow radix2 400 -> is_finite (f_mul f g) = true /\ B2R (f_mul f g) = IZR d * B2R g).
    { intros d f g Hd Ff Vf Fg Rg. destruct (fmul_ok f g) as [E1 E2]; [|done|done|].
      - rewrite Vf, Rabs_mult, <-abs_IZR. assert (0 <= IZR (Z.abs d) <= 1) by (split; apply IZR_le; lia).
        pose proof (Rabs_pos (B2R g)). apply Rle_trans with (bpow radix2 400); [nra|apply bpow_le; lia].
      - split; [done|]. rewrite E1, Vf. apply round_generic; [apply valid_rnd_N|].
        assert (d = -1 \/ d = 0 \/ d = 1)%Z as [->|[->| ->]] by lia.
        + replace (-1 * B2R g) with (- B2R g) by ring. apply generic_format_opp, generic_format_B2R.
        + rewrite Rmult_0_l. apply generic_format_0.
        + rewrite Rmult_1_l. apply generic_format_B2R. }
    destruct (M dx fx g5 Hx Fx Vx F5 ltac:(lra)) as [A1 A2]. destruct (M dy fy g1 Hy Fy Vy F1 ltac:(lra)) as [B1 B2].
    pose proof (run_range (B2R g5) (B2R g1) dx dy Hs R5 R1) as HR.
    destruct (Hh (f_mul fx g5) (f_mul fy g1) A1 B1) as [C1 C2].
    { rewrite A2, B2. exact HR. }
    rewrite A2, B2 in C2. fold (run (B2R g5) (B2R g1) dx dy) in C2. cbv zeta. split; [done|].
    replace (bpow radix2 (-51)) with (4 * u) in C2.
    2:{ change (-51)%Z with (2 + -53)%Z. rewrite bpow_plus. simpl (bpow radix2 2). lra. }
    apply Rabs_le_inv in C2. lra.
  Qed.

  Lemma f_slope_value dx dy pe e : unit_step dx dy -> float_value pe -> float_value e -> (pe <= e)%Z ->
    let t := IZR (e - pe) * bpow radix2 (-149) / run (B2R g5) (B2R g1) dx dy in
    exists s, f_slope hyp g5 g1 dx dy (f_ele pe) (f_ele e) = Ok s /\ t * (1 - 7 * u) <= Q2R s <= t * (1 + 7 * u).
  Proof.
    intros Hs Hp He Hle t. destruct (f_run dx dy Hs) as (fx & fy & Ex & Ey & Fh & Vh). cbv zeta in Fh, Vh.
    unfold f_slope. rewrite Ex, Ey. cbn [rbind]. set (h := hyp _ _) in *.
    pose proof u_small as Hu.
    pose proof (run_range (B2R g5) (B2R g1) dx dy Hs (proj2 H5) (proj2 H1)) as HR. set (G := run _ _ dx dy) in *.
    assert (HG : 0 < G) by (eapply Rlt_le_trans; [apply bpow_gt_0|apply HR]).
    destruct (ele_ok pe Hp) as [P1 P2], (ele_ok e He) as [E1 E2].
    assert (HD : B2R (f_ele e) - B2R (f_ele pe) = IZR (e - pe) * bpow radix2 (-149)) by (rewrite P2, E2, minus_IZR; ring).
    set (D := IZR (e - pe) * bpow radix2 (-149)) in *.
    assert (HDle : 0 <= D <= bpow radix2 129).
    { unfold D. split; [apply Rmult_le_pos; [apply IZR_le; lia|apply bpow_ge_0]|].
      apply Rle_trans with (bpow radix2 278 * bpow radix2 (-149)); [|rewrite <-bpow_plus; apply bpow_le; lia].
      apply Rmult_le_compat_r; [apply bpow_ge_0|]. rewrite bp by lia. apply IZR_le. destruct Hp as [Hp _], He as [He _].
      change 278%Z with (1 + 277)%Z. rewrite Z.pow_add_r by lia. lia. }
    destruct (fsub_ok (f_ele e) (f_ele pe)) as [S1 S2]; [|done|done|].
    { rewrite HD, Rabs_pos_eq by lra. apply Rle_trans with (bpow radix2 129); [lra|apply bpow_le; lia]. }
    rewrite HD in S1. set (sb := f_sub (f_ele e) (f_ele pe)) in *.
    destruct (decide (e = pe)) as [->|Hne].
    - assert (D = 0) as D0 by (unfold D; rewrite Z.sub_diag; lra). rewrite D0 in S1.
      rewrite round_0 in S1 by apply valid_rnd_N.
      destruct (fdiv_ok sb h) as (q & Q1 & Q2 & Q3); [nra| |done|].
      { rewrite S1. unfold Rdiv. rewrite Rmult_0_l, Rabs_R0. apply bpow_ge_0. }
      rewrite Q1. cbn [rbind]. destruct (val_ok q Q3) as (s & Es & Vs). exists s. split; [done|].
      rewrite Vs, Q2, S1. unfold Rdiv. rewrite Rmult_0_l, round_0 by apply valid_rnd_N.
      unfold t. rewrite D0. unfold Rdiv. rewrite !Rmult_0_l. lra.
    - assert (HD1 : bpow radix2 (-149) <= D).
      { unfold D. rewrite <-(Rmult_1_l (bpow radix2 (-149))) at 1. apply Rmult_le_compat_r; [apply bpow_ge_0|]. apply IZR_le. lia. }
      pose proof (rnd_pos D) as RD. rewrite <-S1 in RD.
      specialize (RD ltac:(eapply Rle_trans; [|exact HD1]; apply bpow_le; lia)).
      assert (Ht : t = D / G) by done. assert (t * G = D) as HtG by (rewrite Ht; field; lra).
      assert (0 < D) by (eapply Rlt_le_trans; [apply bpow_gt_0|exact HD1]).
      assert (0 < t) by (rewrite Ht; by apply Rdiv_lt_0_compat).
      assert (Hh0 : 0 < B2R h) by nra.
      set (X := B2R sb / B2R h). assert (X * B2R h = B2R sb) as HX by (unfold X; field; lra).
      assert (HX0 : 0 < X) by (unfold X; apply Rdiv_lt_0_compat; [nra|done]).
      assert (X1 : X * (1 - 4 * u) <= t * (1 + u)).
      { apply Rmult_le_reg_r with G; [done|]. assert (X * (G * (1 - 4 * u)) <= X * B2R h) by (apply Rmult_le_compat_l; lra). nra. }
      assert (X2 : t * (1 - u) <= X * (1 + 4 * u)).
      { apply Rmult_le_reg_r with G; [done|]. assert (X * B2R h <= X * (G * (1 + 4 * u))) by (apply Rmult_le_compat_l; lra). nra. }
      assert (Hlow : bpow radix2 (-1022) <= X).
      { assert (bpow radix2 (-550) <= t).
        { rewrite Ht. apply Rmult_le_reg_r with G; [done|]. replace (D / G * G) with D by (field; lra).
          apply Rle_trans with (bpow radix2 (-550) * bpow radix2 401); [apply Rmult_le_compat_l; [apply bpow_ge_0|lra]|].
          rewrite <-bpow_plus. exact HD1. }
        assert (t <= 2 * X) by nra.
        assert (bpow radix2 (-551) <= X).
        { change (-550)%Z with (1 + -551)%Z in H2. rewrite bpow_plus in H2. simpl (bpow radix2 1) in H2. lra. }
        eapply Rle_trans; [|exact H4]. apply bpow_le. lia. }
      assert (Hhigh : Rabs X <= bpow radix2 1000).
      { rewrite Rabs_pos_eq by lra. assert (t <= bpow radix2 529).
        { rewrite Ht. apply Rmult_le_reg_r with G; [done|]. replace (D / G * G) with D by (field; lra).
          apply Rle_trans with (bpow radix2 129); [lra|]. replace (bpow radix2 129) with (bpow radix2 529 * bpow radix2 (-400)) by (by rewrite <-bpow_plus).
          apply Rmult_le_compat_l; [apply bpow_ge_0|lra]. }
        assert (X <= 2 * t) by nra. apply Rle_trans with (bpow radix2 530); [|apply bpow_le; lia].
        change 530%Z with (1 + 529)%Z. rewrite bpow_plus. simpl (bpow radix2 1). lra. }
      destruct (fdiv_ok sb h) as (q & Q1 & Q2 & Q3); [lra|exact Hhigh|done|].
      rewrite Q1. cbn [rbind]. destruct (val_ok q Q3) as (s & Es & Vs). exists s. split; [done|].
      rewrite Vs, Q2. pose proof (rnd_pos X Hlow) as RX. fold X. nra.
  Qed.
End slope.

Section map.
  Context (hyp : b64 -> b64 -> b64) (g5 g1 : b64) (m : datamap) (Hm : float_map hyp g5 g1 m).
  Let G (p q : xy) : R := run (B2R g5) (B2R g1) (p.1 - q.1) (p.2 - q.2).

  Lemma adj_step p q : adj8 p q -> unit_step (p.1 - q.1) (p.2 - q.2).
  Proof.
    intros (Hne & Hx & Hy). split; [lia|]. split; [lia|].
    destruct (decide (p.1 = q.1)); [|lia]. destruct (decide (p.2 = q.2)); [|lia]. destruct Hne, p, q; cbn in *; by subst.
  Qed.
  Lemma map_slope p q e : in_map m p -> adj8 p q -> reported m q (Some e) -> (elev m p <= e)%Z ->
    let t := IZR (e - elev m p) * bpow radix2 (-149) / G p q in
    exists s, dm_slope m (p.1 - q.1) (p.2 - q.2) (elev m p) e = Ok s /\ t * (1 - 7 * u) <= Q2R s <= t * (1 + 7 * u).
  Proof.
    intros Hp Ha Hr Hle t. rewrite (fm_slope _ _ _ _ Hm).
    apply f_slope_value; try apply Hm; [by apply adj_step| | |done].
    - apply (fm_cells _ _ _ _ Hm p). by left.
    - by apply (fm_cells _ _ _ _ Hm q).
  Qed.
  Lemma run_pos p q : adj8 p q -> 0 < G p q.
  Proof.
    intros Ha. eapply Rlt_le_trans; [apply (bpow_gt_0 radix2 (-400))|].
    apply run_range; [by apply adj_step|apply Hm|apply Hm].
  Qed.
  Lemma exact_pos p q e : adj8 p q -> (elev m p <= e)%Z -> 0 <= IZR (e - elev m p) * bpow radix2 (-149) / G p q.
  Proof.
    intros Ha Hle. pose proof (run_pos p q Ha). apply Rmult_le_pos; [|apply Rlt_le, Rinv_0_lt_compat; done].
    apply Rmult_le_pos; [apply IZR_le; lia|apply bpow_ge_0].
  Qed.

  Lemma float_slopes_ok : slopes_ok m.
  Proof.
    intros p q e Hp Ha Hr Hle. destruct (map_slope p q e Hp Ha Hr Hle) as (s & Hs & Hlow & _). exists s. split; [done|].
    apply Rle_Qle. rewrite RMicromega.Q2R_0. eapply Rle_trans; [|exact Hlow].
    pose proof (exact_pos p q e Ha Hle). pose proof u_small. apply Rmult_le_pos; lra.
  Qed.

  Lemma G_ground p q : north_up m -> Q2R (ground2 m p q) = G p q * G p q.
  Proof.
    intros Hup. destruct p as [x y]. rewrite <-(Qeq_eqR _ _ (run2_ground2 m x y q Hup)). unfold run2, hypot2, G, run.
    rewrite sqrt_sqrt. 2:{ nra. }
    rewrite Q2R_plus, !Q2R_mult, (fm_gt5 _ _ _ _ Hm), (fm_gt1 _ _ _ _ Hm). cbn [fst snd].
    assert (I : forall z, Q2R (inject_Z z) = IZR z) by (intros; unfold Q2R; simpl; lra). rewrite !I. done.
  Qed.

  Lemma float_steepest x y : north_up m -> in_map m (x, y) ->
    exists r, steepestNeighbor m x y = Ok r /\
      (r = None <-> forall q e, adj8 (x, y) q -> reported m q (Some e) -> (e < elev m (x, y))%Z) /\
      (forall q e, r = Some (q, e) ->
         adj8 (x, y) q /\ reported m q (Some e) /\ (elev m (x, y) <= e)%Z /\
         (forall q' e', adj8 (x, y) q' -> reported m q' (Some e') -> (elev m (x, y) <= e')%Z ->
            nearly_le (elev m (x, y)) e' (ground2 m (x, y) q') e (ground2 m (x, y) q)) /\
         ((exists q' e', adj8 (x, y) q' /\ reported m q' (Some e') /\ (elev m (x, y) < e')%Z) ->
            (elev m (x, y) < e)%Z)).
  Proof.
    intros Hup Hin. destruct (steepest_any m x y float_slopes_ok Hin) as (r & l & Hr & Hl & H).
    destruct (iterateFull_spec m x y) as (l' & Hl' & _ & _ & Hall). assert (l' = l) as -> by congruence.
    exists r. split; [done|]. split.
    { destruct r as [[q e]|]; [|done]. split; [done|]. intros Hlow. destruct H as (Ha & Hrep & Hle & _).
      specialize (Hlow q e Ha Hrep). exfalso; lia. }
    intros q e ->. destruct H as (Ha & Hrep & Hle & i & Hi & Hmax). pose proof u_small as Hu.
    assert (Hsl : forall q' e', adj8 (x, y) q' -> reported m q' (Some e') -> (elev m (x, y) <= e')%Z ->
      IZR (e' - elev m (x, y)) * bpow radix2 (-149) / G (x, y) q' * (1 - 7 * u) <=
      IZR (e - elev m (x, y)) * bpow radix2 (-149) / G (x, y) q * (1 + 7 * u)).
    { intros q' e' Ha' Hr' Hle'. assert ((q', Some e') ∈ l) as Hin' by (by apply Hall).
      apply elem_of_list_lookup in Hin' as [j Hj]. destruct (Hmax j q' e' Hj Hle') as [Hc _].
      destruct (map_slope (x, y) q' e' Hin Ha' Hr' Hle') as (s' & Hs' & B1 & _).
      destruct (map_slope (x, y) q e Hin Ha Hrep Hle) as (s & Hs & _ & B2).
      unfold computed in Hc. cbn [fst snd] in Hs, Hs'. rewrite Hs, Hs' in Hc. apply Qle_Rle in Hc. lra. }
    split_and!; try done.
    - intros q' e' Ha' Hr' Hle'. specialize (Hsl q' e' Ha' Hr' Hle').
      pose proof (run_pos _ _ Ha) as G1. pose proof (run_pos _ _ Ha') as G2.
      pose proof (exact_pos _ _ _ Ha Hle) as T1. pose proof (exact_pos _ _ _ Ha' Hle') as T2.
      unfold nearly_le. apply Rle_Qle. rewrite !Q2R_mult, !(G_ground _ _ Hup).
      assert (I : forall z, Q2R (inject_Z z) = IZR z) by (intros; unfold Q2R; simpl; lra). rewrite !I, !mult_IZR.
      set (d' := IZR (e' - elev m (x, y))) in *. set (d := IZR (e - elev m (x, y))) in *.
      set (g := G (x, y) q) in *. set (g' := G (x, y) q') in *. set (b := bpow radix2 (-149)) in *.
      assert (Hb : 0 < b) by apply bpow_gt_0.
      assert (K : Q2R (1 + (1 # 2 ^ 48)) = 1 + 32 * u).
      { rewrite Q2R_plus, n53. change (2 ^ 48)%positive with 281474976710656%positive. unfold Q2R. simpl. lra. }
      rewrite K.
      assert (E1 : d' * b / g' * g' = d' * b) by (field; lra). assert (E2 : d * b / g * g = d * b) by (field; lra).
      set (t' := d' * b / g') in *. set (t := d * b / g) in *.
      assert (t' <= t * (1 + 15 * u)).
      { apply Rmult_le_reg_r with (1 - 7 * u); [lra|]. eapply Rle_trans; [exact Hsl|]. rewrite Rmult_assoc. apply Rmult_le_compat_l; [lra|nra]. }
      assert (t' * t' <= t * t * (1 + 32 * u)).
      { assert (t' * t' <= t * (1 + 15 * u) * (t * (1 + 15 * u))) by (apply Rmult_le_compat; lra).
        assert ((1 + 15 * u) * (1 + 15 * u) <= 1 + 32 * u) by nra. nra. }
      apply Rmult_le_reg_r with (b * b); [nra|].
      replace (d' * d' * (g * g) * (b * b)) with ((d' * b) * (d' * b) * (g * g)) by ring.
      replace ((1 + 32 * u) * (d * d * (g' * g')) * (b * b)) with ((1 + 32 * u) * ((d * b) * (d * b)) * (g' * g')) by ring.
      rewrite <-E1, <-E2. 
      replace (t' * g' * (t' * g') * (g * g)) with (t' * t' * (g * g * (g' * g'))) by ring.
      replace ((1 + 32 * u) * (t * g * (t * g)) * (g' * g')) with (t * t * (1 + 32 * u) * (g * g * (g' * g'))) by ring.
      apply Rmult_le_compat_r; [nra|done].
    - intros (q' & e' & Ha' & Hr' & Hlt). destruct (decide (elev m (x, y) < e)%Z); [done|exfalso].
      assert (e = elev m (x, y)) as -> by lia. specialize (Hsl q' e' Ha' Hr' ltac:(lia)).
      rewrite Z.sub_diag in Hsl. unfold Rdiv in Hsl. rewrite !Rmult_0_l in Hsl.
      assert (0 < IZR (e' - elev m (x, y)) * bpow radix2 (-149) / G (x, y) q').
      { apply Rdiv_lt_0_compat; [|by apply run_pos]. apply Rmult_lt_0_compat; [apply IZR_lt; lia|apply bpow_gt_0]. }
      unfold Rdiv in H. nra.
  Qed.
End map.
