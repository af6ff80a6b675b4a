From Verif Require Import Base_model Raster_model Raster_spec Analyze_model Closest_model Closest_spec Float_model Float_spec Float_proof
  Slope_model Slope_spec Slope_proof Near_model Near_spec.
From Flocq Require Import Core BinarySingleNaN Relative.
From Coq Require Import Reals Lra Psatz Qreals.
Local Open Scope R_scope.

(** ** Lengths *)
Definition near (d : b64) (h : R) : Prop := is_finite d = true /\ h * (1 - 6 * u) <= B2R d <= h * (1 + 6 * u).

Lemma near_length d h : 0 <= h -> near d h -> length_of d h.
Proof.
  intros Hh [Hf Hn]. split; [done|]. replace (bpow radix2 (-50)) with (8 * u).
  2:{ change (-50)%Z with (3 + -53)%Z. rewrite bpow_plus. simpl (bpow radix2 3). lra. }
  pose proof u_small. apply Rabs_le. nra.
Qed.

Definition hyp_of (a b : R) : R := sqrt (a * a + b * b).
Lemma hyp_of_sq a b : hyp_of a b * hyp_of a b = a * a + b * b.
Proof. apply sqrt_sqrt. nra. Qed.
Lemma hyp_of_pos a b : 0 <= hyp_of a b.
Proof. apply sqrt_pos. Qed.
Lemma hyp_of_zero a b : hyp_of a b = 0 -> a = 0 /\ b = 0.
Proof. intros H. pose proof (hyp_of_sq a b) as E. rewrite H in E. nra. Qed.
Lemma hyp_of_le a b a' b' k : 0 <= k -> Rabs a <= k * Rabs a' -> Rabs b <= k * Rabs b' -> hyp_of a b <= k * hyp_of a' b'.
Proof.
  intros Hk Ha Hb. pose proof (hyp_of_pos a' b'). apply Rsqr_incr_0_var; [|nra]. unfold Rsqr.
  replace (k * hyp_of a' b' * (k * hyp_of a' b')) with (k * k * (hyp_of a' b' * hyp_of a' b')) by ring. rewrite !hyp_of_sq.
  assert (S : forall x y, Rabs x <= k * Rabs y -> x * x <= k * k * (y * y)).
  { intros x y Hxy. replace (x * x) with (Rabs x * Rabs x) by (rewrite <- Rabs_mult; apply Rabs_pos_eq; nra).
    replace (y * y) with (Rabs y * Rabs y) by (rewrite <- Rabs_mult; apply Rabs_pos_eq; nra).
    pose proof (Rabs_pos x). pose proof (Rabs_pos y). replace (k * k * (Rabs y * Rabs y)) with ((k * Rabs y) * (k * Rabs y)) by ring.
    apply Rmult_le_compat; lra. }
  pose proof (S _ _ Ha). pose proof (S _ _ Hb). lra.
Qed.

Lemma abs_near x y : Rabs (x - y) <= u * Rabs y -> (1 - u) * Rabs y <= Rabs x <= (1 + u) * Rabs y.
Proof.
  intros H. pose proof (Rabs_triang (x - y) y) as T1. replace (x - y + y) with x in T1 by ring.
  pose proof (Rabs_triang (y - x) x) as T2. replace (y - x + x) with y in T2 by ring. rewrite Rabs_minus_sym in T2. lra.
Qed.

Section hypot.
  Context (hyp : b64 -> b64 -> b64).
  Hypothesis Hh : good_hypot hyp.
  Hypothesis Hz : exact_at_zero hyp.

  Lemma hyp_near a b A B : is_finite a = true -> is_finite b = true ->
    Rabs (B2R a - A) <= u * Rabs A -> Rabs (B2R b - B) <= u * Rabs B ->
    (A = 0 /\ B = 0) \/ bpow radix2 (-399) <= hyp_of A B <= bpow radix2 400 ->
    near (hyp a b) (hyp_of A B).
  Proof.
    intros Fa Fb Ha Hb HR. pose proof u_small as Hu. apply abs_near in Ha, Hb.
    destruct HR as [[-> ->]|HR].
    - rewrite Rabs_R0 in Ha, Hb. destruct (Hz a b Fa Fb) as [F0 V0].
      + destruct (Req_dec (B2R a) 0) as [E|E]; [done|]. apply Rabs_no_R0 in E. pose proof (Rabs_pos (B2R a)). lra.
      + destruct (Req_dec (B2R b) 0) as [E|E]; [done|]. apply Rabs_no_R0 in E. pose proof (Rabs_pos (B2R b)). lra.
      + split; [done|]. rewrite V0. unfold hyp_of. replace (0 * 0 + 0 * 0) with 0 by ring. rewrite sqrt_0. lra.
    - set (H := hyp_of A B) in *. assert (0 < H) by (eapply Rlt_le_trans; [apply bpow_gt_0|apply HR]).
      set (h := hyp_of (B2R a) (B2R b)).
      assert (Up : h <= (1 + u) * H) by (apply hyp_of_le; lra).
      assert (Lo : (1 - u) * H <= h).
      { assert (H <= / (1 - u) * h).
        { apply hyp_of_le; [left; apply Rinv_0_lt_compat; lra| |].
          all: apply Rmult_le_reg_l with (1 - u); [lra|]; rewrite <- Rmult_assoc, Rinv_r, Rmult_1_l by lra; lra. }
        apply Rmult_le_reg_l with (/ (1 - u)); [apply Rinv_0_lt_compat; lra|]. rewrite <- Rmult_assoc, Rinv_l, Rmult_1_l by lra. done. }
      destruct (Hh a b Fa Fb) as [C1 C2].
      { fold (hyp_of (B2R a) (B2R b)). fold h.
        assert (E1 : bpow radix2 (-399) = 2 * bpow radix2 (-400)) by (change (-399)%Z with (1 + -400)%Z; rewrite bpow_plus; simpl (bpow radix2 1); lra).
        assert (E2 : bpow radix2 401 = 2 * bpow radix2 400) by (change 401%Z with (1 + 400)%Z; rewrite bpow_plus; simpl (bpow radix2 1); lra).
        pose proof (bpow_gt_0 radix2 (-400)). pose proof (bpow_gt_0 radix2 400). rewrite E2. rewrite E1 in HR. nra. }
      fold (hyp_of (B2R a) (B2R b)) in C2. fold h in C2. split; [done|].
      replace (bpow radix2 (-51)) with (4 * u) in C2.
      2:{ change (-51)%Z with (2 + -53)%Z. rewrite bpow_plus. simpl (bpow radix2 2). lra. }
      apply Rabs_le_inv in C2. split; nra.
  Qed.

  (** Differences of usual cells. *)
  Lemma diff_ok p q : usual_cell p -> usual_cell q -> (Z.abs (p.1 - q.1) < 2 ^ 22 /\ Z.abs (p.2 - q.2) < 2 ^ 22)%Z.
  Proof. unfold usual_cell. lia. Qed.

  Lemma Q2R_pixel p q : Q2R (pixel2 p q) = IZR (p.1 - q.1) * IZR (p.1 - q.1) + IZR (p.2 - q.2) * IZR (p.2 - q.2).
  Proof. unfold pixel2, Q2R, inject_Z. cbn [Qnum Qden]. rewrite plus_IZR, !mult_IZR. lra. Qed.

  Lemma hyp_range x y g h : (Z.abs x < 2 ^ 24)%Z -> (Z.abs y < 2 ^ 24)%Z ->
    bpow radix2 (-300) <= Rabs g <= bpow radix2 300 -> bpow radix2 (-300) <= Rabs h <= bpow radix2 300 ->
    (IZR x * g = 0 /\ IZR y * h = 0) \/ bpow radix2 (-399) <= hyp_of (IZR x * g) (IZR y * h) <= bpow radix2 400.
  Proof.
    intros Hx Hy Hg H1. pose proof (bpow_gt_0 radix2 (-300)) as P1. pose proof (bpow_gt_0 radix2 300) as P2.
    assert (M : forall a b, Rabs a <= hyp_of a b /\ Rabs b <= hyp_of a b).
    { intros a b. split; (apply Rsqr_incr_0_var; [|apply hyp_of_pos]); unfold Rsqr; rewrite hyp_of_sq.
      - rewrite <- Rabs_mult, Rabs_pos_eq; nra.
      - rewrite <- Rabs_mult, Rabs_pos_eq; nra. }
    destruct (M (IZR x * g) (IZR y * h)) as [M1 M2]. rewrite Rabs_mult, <- abs_IZR in M1, M2.
    assert (U : hyp_of (IZR x * g) (IZR y * h) <= bpow radix2 400).
    { apply Rle_trans with (bpow radix2 24 * hyp_of (bpow radix2 300) (bpow radix2 300)).
      - apply hyp_of_le; [apply bpow_ge_0| |]; rewrite Rabs_mult, <- abs_IZR, (Rabs_pos_eq (bpow radix2 300)) by lra;
          (apply Rmult_le_compat; [apply IZR_le; lia|apply Rabs_pos| |lra]); rewrite bp by lia; apply IZR_le; lia.
      - assert (hyp_of (bpow radix2 300) (bpow radix2 300) <= 2 * bpow radix2 300).
        { apply Rsqr_incr_0_var; [|lra]. unfold Rsqr. rewrite hyp_of_sq. nra. }
        apply Rle_trans with (bpow radix2 24 * (2 * bpow radix2 300)); [apply Rmult_le_compat_l; [apply bpow_ge_0|done]|].
        replace 2 with (bpow radix2 1) by (simpl; lra). rewrite <- !bpow_plus. apply bpow_le. lia. }
    assert (L : bpow radix2 (-399) <= bpow radix2 (-300)) by (apply bpow_le; lia).
    destruct (decide (x = 0%Z)) as [->|Nx]; [destruct (decide (y = 0%Z)) as [->|Ny]|].
    - left. lra.
    - right. split; [|done]. assert (1 <= IZR (Z.abs y)) by (apply IZR_le; lia). nra.
    - right. split; [|done]. assert (1 <= IZR (Z.abs x)) by (apply IZR_le; lia). nra.
  Qed.

  Lemma fint_diff z : (Z.abs z < 2 ^ 22)%Z -> exists f, f_int z = Ok f /\ is_finite f = true /\ B2R f = IZR z.
  Proof. intros H. apply fint_ok. unfold index_ok. lia. Qed.

  Lemma pixel_near p q : usual_cell p -> usual_cell q ->
    exists d, f_pixel hyp p q = Ok d /\ near d (sqrt (Q2R (pixel2 p q))).
  Proof.
    intros Hp Hq. destruct (diff_ok p q Hp Hq) as [Dx Dy].
    destruct (fint_diff _ Dx) as (fx & Ex & Fx & Vx). destruct (fint_diff _ Dy) as (fy & Ey & Fy & Vy).
    unfold f_pixel. rewrite Ex, Ey. cbn [rbind]. eexists. split; [reflexivity|]. rewrite Q2R_pixel.
    fold (hyp_of (IZR (p.1 - q.1)) (IZR (p.2 - q.2))). pose proof u_small. apply hyp_near; [done|done| | |].
    - rewrite Vx, Rminus_diag_eq, Rabs_R0 by done. pose proof (Rabs_pos (IZR (p.1 - q.1))). nra.
    - rewrite Vy, Rminus_diag_eq, Rabs_R0 by done. pose proof (Rabs_pos (IZR (p.2 - q.2))). nra.
    - assert (bpow radix2 (-300) <= Rabs 1 <= bpow radix2 300).
      { rewrite Rabs_R1. change 1 with (bpow radix2 0). split; apply bpow_le; lia. }
      pose proof (hyp_range (p.1 - q.1) (p.2 - q.2) 1 1 ltac:(lia) ltac:(lia) H0 H0) as HR. rewrite !Rmult_1_r in HR. done.
  Qed.

  Lemma mul_near' z g : (Z.abs z < 2 ^ 22)%Z -> usual_size g -> exists f, f_int z = Ok f /\
    is_finite (f_mul f g) = true /\ Rabs (B2R (f_mul f g) - IZR z * B2R g) <= u * Rabs (IZR z * B2R g).
  Proof.
    intros Hz' [Fg Rg]. destruct (fint_diff z Hz') as (f & E & Ff & Vf). exists f. split; [done|].
    assert (B : Rabs (IZR z * B2R g) <= bpow radix2 400).
    { rewrite Rabs_mult, <- abs_IZR. apply Rle_trans with (bpow radix2 22 * bpow radix2 300).
      - apply Rmult_le_compat; [apply IZR_le; lia|apply Rabs_pos| |lra]. rewrite bp by lia. apply IZR_le. lia.
      - rewrite <- bpow_plus. apply bpow_le. lia. }
    destruct (fmul_ok f g) as [E1 E2]; [|done|done|].
    { rewrite Vf. eapply Rle_trans; [exact B|]. apply bpow_le. lia. }
    split; [done|]. rewrite E1, Vf. destruct (decide (z = 0%Z)) as [->|Nz].
    - rewrite Rmult_0_l, round_0 by apply valid_rnd_N. rewrite Rminus_0_r, Rabs_R0. lra.
    - apply rnd_rel. rewrite Rabs_mult, <- abs_IZR. assert (1 <= IZR (Z.abs z)) by (apply IZR_le; lia).
      apply Rle_trans with (bpow radix2 (-300)); [apply bpow_le; lia|]. pose proof (bpow_gt_0 radix2 (-300)). nra.
  Qed.

  Lemma Q2R_distance m p q (g1 g5 : b64) : Q2R (gt1 (dm_gt m)) = B2R g1 -> Q2R (gt5 (dm_gt m)) = B2R g5 ->
    Q2R (distance2 m p q) = (IZR (p.1 - q.1) * B2R g1) * (IZR (p.1 - q.1) * B2R g1) + (IZR (p.2 - q.2) * B2R g5) * (IZR (p.2 - q.2) * B2R g5).
  Proof.
    intros E1 E5. unfold distance2, hypot2. rewrite Q2R_plus, !Q2R_mult, E1, E5.
    assert (I : forall z, Q2R (inject_Z z) = IZR z) by (intros z; unfold Q2R, inject_Z; cbn [Qnum Qden]; lra). by rewrite !I.
  Qed.

  Lemma distance_near m p q (g1 g5 : b64) : Q2R (gt1 (dm_gt m)) = B2R g1 -> Q2R (gt5 (dm_gt m)) = B2R g5 -> usual_size g1 -> usual_size g5 ->
    usual_cell p -> usual_cell q ->
    exists d, f_distance hyp g1 g5 p q = Ok d /\ near d (sqrt (Q2R (distance2 m p q))).
  Proof.
    intros E1 E5 S1 S5 Hp Hq. destruct (diff_ok p q Hp Hq) as [Dx Dy].
    destruct (mul_near' _ g1 Dx S1) as (fx & Ex & Fx & Vx). destruct (mul_near' _ g5 Dy S5) as (fy & Ey & Fy & Vy).
    unfold f_distance. rewrite Ex, Ey. cbn [rbind]. eexists. split; [reflexivity|]. rewrite (Q2R_distance m p q g1 g5 E1 E5).
    fold (hyp_of (IZR (p.1 - q.1) * B2R g1) (IZR (p.2 - q.2) * B2R g5)).
    apply hyp_near; [done|done|done|done|]. apply hyp_range; [lia|lia|apply S1|apply S5].
  Qed.
End hypot.

(** ** Comparing lengths *)
Lemma near_loose d d' h h' : 0 <= h -> 0 <= h' -> near d h -> near d' h' -> B2R d <= B2R d' ->
  h * h <= (1 + bpow radix2 (-48)) * (h' * h').
Proof.
  intros P P' [_ N] [_ N'] Hle. assert (E : h * (1 - 6 * u) <= h' * (1 + 6 * u)) by lra.
  pose proof u_small. replace (bpow radix2 (-48)) with (32 * u).
  2:{ change (-48)%Z with (5 + -53)%Z. rewrite bpow_plus. simpl (bpow radix2 5). lra. }
  assert (E2 : (h * (1 - 6 * u)) * (h * (1 - 6 * u)) <= (h' * (1 + 6 * u)) * (h' * (1 + 6 * u))) by (apply Rmult_le_compat; nra).
  assert (Q : (1 + 6 * u) * (1 + 6 * u) <= (1 + 32 * u) * ((1 - 6 * u) * (1 - 6 * u))) by nra.
  assert (0 < (1 - 6 * u) * (1 - 6 * u)) by nra. apply Rmult_le_reg_r with ((1 - 6 * u) * (1 - 6 * u)); [done|].
  apply Rle_trans with (h' * h' * ((1 + 6 * u) * (1 + 6 * u))); [lra|].
  apply Rle_trans with (h' * h' * ((1 + 32 * u) * ((1 - 6 * u) * (1 - 6 * u)))); [|lra].
  apply Rmult_le_compat_l; nra.
Qed.

Lemma near_exact d d' G D D' : 0 < G -> (0 <= D <= 2 ^ 47)%Z -> (0 <= D' <= 2 ^ 47)%Z ->
  near d (G * sqrt (IZR D)) -> near d' (G * sqrt (IZR D')) -> B2R d <= B2R d' -> (D <= D')%Z.
Proof.
  intros HG HD HD' N N' Hle. pose proof (sqrt_pos (IZR D)) as S. pose proof (sqrt_pos (IZR D')) as S'.
  assert (T : 0 <= G * sqrt (IZR D)) by nra. assert (T' : 0 <= G * sqrt (IZR D')) by nra.
  pose proof (near_loose d d' _ _ T T' N N' Hle) as E.
  assert (0 <= IZR D) as P by (apply IZR_le; lia). assert (0 <= IZR D') as P' by (apply IZR_le; lia).
  replace (G * sqrt (IZR D) * (G * sqrt (IZR D))) with (G * G * IZR D) in E.
  2:{ rewrite <- (sqrt_sqrt (IZR D) P) at 1. ring. }
  replace (G * sqrt (IZR D') * (G * sqrt (IZR D'))) with (G * G * IZR D') in E.
  2:{ rewrite <- (sqrt_sqrt (IZR D') P') at 1. ring. }
  assert (E' : IZR D <= (1 + bpow radix2 (-48)) * IZR D').
  { apply Rmult_le_reg_l with (G * G); [nra|]. lra. }
  destruct (Z.le_gt_cases D D') as [H|H]; [done|]. exfalso.
  assert (IZR D' + 1 <= IZR D) by (rewrite <- plus_IZR; apply IZR_le; lia).
  assert (IZR D' <= bpow radix2 47) by (rewrite bp by lia; apply IZR_le; lia).
  assert (bpow radix2 (-48) * bpow radix2 47 = / 2) by (rewrite <- bpow_plus; simpl; lra).
  pose proof (bpow_gt_0 radix2 (-48)). nra.
Qed.

(** ** The searches *)
Lemma ltb_finite (a b : b64) : is_finite a = true -> is_finite b = true -> Bltb a b = Rlt_bool (B2R a) (B2R b).
Proof. intros. by apply Bltb_correct. Qed.
Lemma two63_ok : is_finite two63 = true /\ B2R two63 = bpow radix2 63.
Proof.
  unfold two63. pose proof (binary_normalize_correct 53 1024 _ _ mode_NE 1 63 false) as HC.
  assert (HF : F2R (Float radix2 1 63) = bpow radix2 63) by (unfold F2R; cbn [Fnum Fexp]; lra). cbv zeta in HC. rewrite HF in HC.
  rewrite rnd_lt in HC.
  - destruct HC as (H1 & H2 & _). split; [exact H2|]. rewrite H1. apply round_generic; [apply valid_rnd_N|].
    apply generic_format_bpow. unfold SpecFloat.fexp, SpecFloat.emin. lia.
  - rewrite Rabs_pos_eq by apply bpow_ge_0. apply bpow_le. lia.
Qed.

(** State of a search: nothing found below sys.maxsize, or the least so far. *)
Definition best_of {A} (val : A -> option b64) (seen : list A) (best : option A) (bd : option b64) : Prop :=
  match best with
  | None => bd = None /\ forall a d, a ∈ seen -> val a = Some d -> bpow radix2 63 <= B2R d
  | Some a => a ∈ seen /\ val a = bd /\ exists d, bd = Some d /\ is_finite d = true /\
      forall a' d', a' ∈ seen -> val a' = Some d' -> B2R d <= B2R d'
  end.

Lemma best_step {A} (val : A -> option b64) seen best bd a d :
  val a = Some d -> is_finite d = true -> best_of val seen best bd ->
  if f_closer d bd then best_of val (seen ++ [a]) (Some a) (Some d) else best_of val (seen ++ [a]) best bd.
Proof.
  intros Ha Hd Hb. unfold f_closer. destruct best as [b|]; cbn [best_of] in *.
  - destruct Hb as (Hs & Hv & d0 & -> & F0 & Hmin). change (default two63 (Some d0)) with d0. rewrite ltb_finite by done.
    destruct (Rlt_bool_spec (B2R d) (B2R d0)).  all: cbn [best_of].
    + split; [apply elem_of_app; right; by left|]. split; [done|]. exists d. split; [done|]. split; [done|].
      intros a' d' [H1|H1]%elem_of_app Hv'; [pose proof (Hmin a' d' H1 Hv'); lra|].
      apply elem_of_list_singleton in H1 as ->. rewrite Ha in Hv'. injection Hv' as ->. lra.
    + split; [apply elem_of_app; by left|]. split; [done|]. exists d0. split; [done|]. split; [done|].
      intros a' d' [H1|H1]%elem_of_app Hv'; [exact (Hmin a' d' H1 Hv')|].
      apply elem_of_list_singleton in H1 as ->. rewrite Ha in Hv'. injection Hv' as ->. lra.
  - destruct Hb as (-> & Hmin). change (default two63 None) with two63. destruct two63_ok as [F63 V63]. rewrite ltb_finite, V63 by done.
    destruct (Rlt_bool_spec (B2R d) (bpow radix2 63)). all: cbn [best_of].
    + split; [apply elem_of_app; right; by left|]. split; [done|]. exists d. split; [done|]. split; [done|].
      intros a' d' [H1|H1]%elem_of_app Hv'; [pose proof (Hmin a' d' H1 Hv'); lra|].
      apply elem_of_list_singleton in H1 as ->. rewrite Ha in Hv'. injection Hv' as ->. lra.
    + split; [done|]. intros a' d' [H1|H1]%elem_of_app Hv'; [exact (Hmin a' d' H1 Hv')|].
      apply elem_of_list_singleton in H1 as ->. rewrite Ha in Hv'. injection Hv' as ->. done.
Qed.

Definition oval (r : res b64) : option b64 := match r with Ok d => Some d | Err _ => None end.

Section pairs.
  Context (dist : xy -> xy -> res b64) (us them : list pte).
  Hypothesis Hdist : forall p t, p ∈ us -> t ∈ them -> exists d, dist (pt_xy p) (pt_xy t) = Ok d /\ is_finite d = true.
  Let val (c : pte * pte) : option b64 := oval (dist (pt_xy c.1) (pt_xy c.2)).

  Lemma inner_best p l : p ∈ us -> (forall t, t ∈ l -> t ∈ them) -> forall seen c,
    best_of val seen c.1 c.2 ->
    exists c', foldM (fun t (c : option (pte * pte) * option b64) =>
        let* distance := dist (pt_xy p) (pt_xy t) in
        Ok (if f_closer distance c.2 then (Some (p, t), Some distance) else c)) l c = Ok c' /\
      best_of val (seen ++ map (fun t => (p, t)) l) c'.1 c'.2.
  Proof.
    intros Hp. induction l as [|t l IH]; intros Hl seen c Hc; cbn [foldM map].
    { exists c. by rewrite app_nil_r. }
    destruct (Hdist p t Hp) as (d & Ed & Fd); [apply Hl; by left|]. rewrite Ed. cbn [rbind].
    assert (Hv : val (p, t) = Some d) by (unfold val; cbn [fst snd]; by rewrite Ed).
    pose proof (best_step val seen c.1 c.2 (p, t) d Hv Fd Hc) as Hb.
    destruct (IH ltac:(intros; apply Hl; by right) (seen ++ [(p, t)]) (if f_closer d c.2 then (Some (p, t), Some d) else c)) as (c' & E & Hc').
    { by destruct (f_closer d c.2). }
    exists c'. rewrite E. split; [done|]. by rewrite <- app_assoc in Hc'.
  Qed.

  Lemma outer_best l : (forall p, p ∈ l -> p ∈ us) -> forall seen c, best_of val seen c.1 c.2 ->
    exists c', foldM (fun p c => foldM (fun t (c : option (pte * pte) * option b64) =>
        let* distance := dist (pt_xy p) (pt_xy t) in
        Ok (if f_closer distance c.2 then (Some (p, t), Some distance) else c)) them c) l c = Ok c' /\
      best_of val (seen ++ concat (map (fun p => map (fun t => (p, t)) them) l)) c'.1 c'.2.
  Proof.
    induction l as [|p l IH]; intros Hl seen c Hc; cbn [foldM map concat].
    { exists c. by rewrite app_nil_r. }
    destruct (inner_best p them (Hl p ltac:(by left)) ltac:(done) seen c Hc) as (c1 & E1 & H1). rewrite E1. cbn [rbind].
    destruct (IH ltac:(intros; apply Hl; by right) _ _ H1) as (c' & E & Hc'). exists c'. split; [done|]. by rewrite <- app_assoc in Hc'.
  Qed.

  (** The pair found has the least computed length. *)
  Lemma pairs_least p0 t0 : p0 ∈ us -> t0 ∈ them ->
    (forall d, dist (pt_xy p0) (pt_xy t0) = Ok d -> B2R d < bpow radix2 63) ->
    exists p t d, foldM (fun p c => foldM (fun t (c : option (pte * pte) * option b64) =>
        let* distance := dist (pt_xy p) (pt_xy t) in
        Ok (if f_closer distance c.2 then (Some (p, t), Some distance) else c)) them c) us (None, None) = Ok (Some (p, t), Some d) /\
      p ∈ us /\ t ∈ them /\ dist (pt_xy p) (pt_xy t) = Ok d /\
      forall p' t' d', p' ∈ us -> t' ∈ them -> dist (pt_xy p') (pt_xy t') = Ok d' -> B2R d <= B2R d'.
  Proof.
    intros Hp0 Ht0 H0. destruct (outer_best us ltac:(done) [] (None, None)) as ([c bd] & -> & Hc).
    { split; [done|]. intros a d H. by apply elem_of_nil in H. }
    cbn [app fst snd] in Hc.
    assert (Hel : forall p t, (p, t) ∈ concat (map (fun p => map (fun t => (p, t)) them) us) <-> p ∈ us /\ t ∈ them).
    { intros p t. rewrite elem_of_list_In, in_concat. split.
      - intros (x & Hx & Hin). apply in_map_iff in Hx as (p' & <- & Hp'). apply in_map_iff in Hin as (t' & [= -> ->] & Ht').
        by rewrite !elem_of_list_In.
      - intros [Hp Ht]. exists (map (fun t => (p, t)) them). split.
        + apply in_map_iff. exists p. split; [done|]. by apply elem_of_list_In.
        + apply in_map_iff. exists t. split; [done|]. by apply elem_of_list_In. }
    destruct c as [[p t]|].
    - destruct Hc as (Hin & Hv & d & -> & Fd & Hmin). apply Hel in Hin as [Hp Ht].
      unfold val in Hv. cbn [fst snd] in Hv. destruct (dist (pt_xy p) (pt_xy t)) as [d1|] eqn:Ed; [|done]. injection Hv as ->.
      exists p, t, d. split; [done|]. split; [done|]. split; [done|]. split; [done|]. intros p' t' d' Hp' Ht' Ed'.
      apply (Hmin (p', t') d'); [by apply Hel|]. unfold val. cbn [fst snd]. by rewrite Ed'.
    - exfalso. destruct Hc as (_ & Hmin). destruct (Hdist p0 t0 Hp0 Ht0) as (d & Ed & _).
      pose proof (Hmin (p0, t0) d ltac:(by apply Hel) ltac:(unfold val; cbn [fst snd]; by rewrite Ed)). pose proof (H0 d Ed). lra.
  Qed.
End pairs.

Section maps.
  Context (dist : xy -> xy -> res b64) (us them : list pte).
  Hypothesis Hdist : forall p t, p ∈ us -> t ∈ them ->
    exists d, dist (pt_xy p) (pt_xy t) = Ok d /\ is_finite d = true /\ B2R d < bpow radix2 63.
  Hypothesis Hthem : them <> [].
  Notation step p := (fun t (s : gmap pte pte * option b64) =>
    let* distance := dist (pt_xy p) (pt_xy t) in
    Ok (if f_closer distance s.2 then (<[p := t]> s.1, Some distance) else s)).
  Definition put_best (p : pte) (best : option pte) (d : gmap pte pte) : gmap pte pte :=
    match best with Some t => <[p := t]> d | None => d end.

  Lemma map_inner p d l : p ∈ us -> (forall t, t ∈ l -> t ∈ them) -> forall seen best bd,
    best_of (fun t => oval (dist (pt_xy p) (pt_xy t))) seen best bd ->
    exists best' bd', foldM (step p) l (put_best p best d, bd) = Ok (put_best p best' d, bd') /\
      best_of (fun t => oval (dist (pt_xy p) (pt_xy t))) (seen ++ l) best' bd'.
  Proof.
    intros Hp. induction l as [|t l IH]; intros Hl seen best bd Hb; cbn [foldM].
    { exists best, bd. by rewrite app_nil_r. }
    destruct (Hdist p t Hp) as (e & Ed & Fd & _); [apply Hl; by left|]. rewrite Ed. cbn [rbind fst snd].
    pose proof (best_step (fun t => oval (dist (pt_xy p) (pt_xy t))) seen best bd t e) as Hs. cbn beta in Hs. rewrite Ed in Hs.
    specialize (Hs eq_refl Fd Hb).
    assert (exists b1 d1, (if f_closer e bd then (<[p := t]> (put_best p best d), Some e) else (put_best p best d, bd)) = (put_best p b1 d, d1) /\
      best_of (fun t => oval (dist (pt_xy p) (pt_xy t))) (seen ++ [t]) b1 d1) as (b1 & d1 & E1 & H1).
    { destruct (f_closer e bd); [|by exists best, bd]. exists (Some t), (Some e). split; [|done].
      destruct best as [t0|]; [|done]. cbn [put_best]. by rewrite insert_insert. }
    rewrite E1. destruct (IH ltac:(intros; apply Hl; by right) _ _ _ H1) as (b' & d' & E' & H').
    exists b', d'. split; [done|]. by rewrite <- app_assoc in H'.
  Qed.

  Lemma map_one p d : p ∈ us -> exists t e, (let* s := foldM (step p) them (d, None) in Ok s.1) = Ok (<[p := t]> d) /\
    t ∈ them /\ dist (pt_xy p) (pt_xy t) = Ok e /\
    forall t' e', t' ∈ them -> dist (pt_xy p) (pt_xy t') = Ok e' -> B2R e <= B2R e'.
  Proof.
    intros Hp. destruct (map_inner p d them Hp ltac:(done) [] None None) as (best & bd & E & Hb).
    { split; [done|]. intros a e H. by apply elem_of_nil in H. }
    cbn [put_best] in E. rewrite E. cbn [rbind fst app] in *. destruct best as [t|].
    - destruct Hb as (Hin & Hv & e & -> & Fe & Hmin). destruct (dist (pt_xy p) (pt_xy t)) as [e1|] eqn:Ed; [|done]. injection Hv as ->.
      exists t, e. split; [done|]. split; [done|]. split; [done|]. intros t' e' Ht' Ed'. apply (Hmin t' e' Ht'). by rewrite Ed'.
    - exfalso. destruct Hb as (_ & Hmin). destruct them as [|t l]; [done|].
      destruct (Hdist p t Hp ltac:(by left)) as (e & Ed & _ & He). pose proof (Hmin t e ltac:(by left) ltac:(by rewrite Ed)). lra.
  Qed.

  Lemma map_all l : (forall p, p ∈ l -> p ∈ us) -> forall d0 : gmap pte pte,
    exists d, foldM (fun p (closest : gmap pte pte) => let* s := foldM (step p) them (closest, None) in Ok s.1) l d0 = Ok d /\
    (forall p, p ∈ l -> exists t e, d !! p = Some t /\ t ∈ them /\ dist (pt_xy p) (pt_xy t) = Ok e /\
      forall t' e', t' ∈ them -> dist (pt_xy p) (pt_xy t') = Ok e' -> B2R e <= B2R e') /\
    (forall p, p ∉ l -> d !! p = d0 !! p).
  Proof.
    induction l as [|p l IH]; intros Hl d0; cbn [foldM].
    { exists d0. split; [done|]. split; [|done]. intros p H. by apply elem_of_nil in H. }
    destruct (map_one p d0 (Hl p ltac:(by left))) as (t & e & E & Ht & Ed & Hmin). rewrite E. cbn [rbind].
    destruct (IH ltac:(intros; apply Hl; by right) (<[p := t]> d0)) as (d & E' & H1 & H2). exists d. split; [done|]. split.
    - intros q Hq. destruct (decide (q ∈ l)) as [Hql|Hql]; [by apply H1|].
      apply elem_of_cons in Hq as [->|Hq]; [|done]. exists t, e. rewrite (H2 p Hql), lookup_insert. done.
    - intros q Hq. apply not_elem_of_cons in Hq as [Hne Hq]. by rewrite (H2 q Hq), lookup_insert_ne.
  Qed.
End maps.

(** [numpy.argmin] *)
Lemma argmin_least l : forall i k (bd : b64), is_finite bd = true -> (forall d, d ∈ l -> is_finite d = true) ->
  exists d, ((f_argmin_from i l (k, bd) = k /\ d = bd) \/ (exists j, f_argmin_from i l (k, bd) = (i + j)%nat /\ l !! j = Some d)) /\
    is_finite d = true /\ B2R d <= B2R bd /\ forall d', d' ∈ l -> B2R d <= B2R d'.
Proof.
  induction l as [|a l IH]; intros i k bd Fb Hl; cbn [f_argmin_from fst snd].
  { exists bd. split; [by left|]. split; [done|]. split; [lra|]. intros d' H. by apply elem_of_nil in H. }
  assert (Fa : is_finite a = true) by (apply Hl; by left). rewrite ltb_finite by done.
  destruct (Rlt_bool_spec (B2R a) (B2R bd)) as [H|H].
  - destruct (IH (S i) i a Fa ltac:(intros; apply Hl; by right)) as (d & [(E & ->)|(j & E & Hj)] & Fd & Hle & Hmin).
    + exists a. split; [right; exists 0%nat; by rewrite Nat.add_0_r|]. split; [done|]. split; [lra|].
      intros d' [->|Hd']%elem_of_cons; [lra|by apply Hmin].
    + exists d. split; [right; exists (S j); split; [rewrite E; lia|done]|]. split; [done|]. split; [lra|].
      intros d' [->|Hd']%elem_of_cons; [lra|by apply Hmin].
  - destruct (IH (S i) k bd Fb ltac:(intros; apply Hl; by right)) as (d & [(E & ->)|(j & E & Hj)] & Fd & Hle & Hmin).
    + exists bd. split; [by left|]. split; [done|]. split; [lra|]. intros d' [->|Hd']%elem_of_cons; [lra|by apply Hmin].
    + exists d. split; [right; exists (S j); split; [rewrite E; lia|done]|]. split; [done|]. split; [lra|].
      intros d' [->|Hd']%elem_of_cons; [lra|by apply Hmin].
Qed.

Lemma argmin_spec l : l <> [] -> (forall d, d ∈ l -> is_finite d = true) ->
  exists i d, f_argmin l = Some i /\ l !! i = Some d /\ forall d', d' ∈ l -> B2R d <= B2R d'.
Proof.
  intros Hn Hl. destruct l as [|a l]; [done|]. cbn [f_argmin].
  destruct (argmin_least l 1 0 a ltac:(apply Hl; by left) ltac:(intros; apply Hl; by right)) as (d & [(E & ->)|(j & E & Hj)] & _ & Hle & Hmin).
  - exists 0%nat, a. rewrite E. split; [done|]. split; [done|]. intros d' [->|Hd']%elem_of_cons; [lra|by apply Hmin].
  - exists (S j), d. rewrite E. split; [done|]. split; [done|]. intros d' [->|Hd']%elem_of_cons; [lra|by apply Hmin].
Qed.
