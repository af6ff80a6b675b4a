From Verif Require Import Base_model Raster_model Raster_spec Raster_proof Raster_facts Float_model Float_spec.
From Flocq Require Import Core BinarySingleNaN Relative.
From Coq Require Import Reals Lra Psatz Qreals Qabs.
Local Open Scope R_scope.

Notation rnd := (round radix2 (SpecFloat.fexp 53 1024) (round_mode mode_NE)).
Local Instance fexp_valid : Valid_exp (SpecFloat.fexp 53 1024) := fexp_correct 53 1024 _.

Lemma bp n : (0 <= n)%Z -> bpow radix2 n = IZR (2 ^ n).
Proof. intros H. by rewrite <-(IZR_Zpower radix2 n H). Qed.
Lemma bpn n : (0 <= n)%Z -> bpow radix2 (- n) = / IZR (2 ^ n).
Proof. intros H. by rewrite bpow_opp, bp. Qed.

Lemma p48 : bpow radix2 48 = 281474976710656.
Proof. rewrite bp by lia. reflexivity. Qed.
Lemma p49 : bpow radix2 49 = 562949953421312.
Proof. rewrite bp by lia. reflexivity. Qed.
Lemma p100 : bpow radix2 100 = 1267650600228229401496703205376.
Proof. rewrite bp by lia. reflexivity. Qed.
Lemma n53 : bpow radix2 (-53) = / 9007199254740992.
Proof. change (-53)%Z with (- (53))%Z. rewrite bpn by lia. reflexivity. Qed.
Lemma n100 : bpow radix2 (-100) = / 1267650600228229401496703205376.
Proof. change (-100)%Z with (- (100))%Z. rewrite bpn by lia. reflexivity. Qed.

(** Rounding to nearest: relative error 2^-53 plus absolute error 2^-1000. *)
Lemma rnd_err x : Rabs (rnd x - x) <= bpow radix2 (-53) * Rabs x + bpow radix2 (-1000).
Proof.
  change rnd with (round radix2 (FLT_exp (-1074) 53) ZnearestE).
  assert (Heta : 0 < bpow radix2 (-1000)) by apply bpow_gt_0.
  destruct (Rle_or_lt (bpow radix2 (-1022)) (Rabs x)) as [H|H].
  - pose proof (relative_error_N_FLT radix2 (-1074) 53 eq_refl (fun z => negb (Z.even z)) x H) as HE.
    change (- (53) + 1)%Z with (-53 + 1)%Z in HE.
    replace (/ 2 * bpow radix2 (-53 + 1)) with (bpow radix2 (-53)) in HE.
    2:{ rewrite bpow_plus. simpl (bpow radix2 1). lra. }
    lra.
  - pose proof (error_le_half_ulp radix2 (FLT_exp (-1074) 53) (fun z => negb (Z.even z)) x) as HU.
    rewrite ulp_FLT_small in HU; [|done|].
    2:{ eapply Rlt_trans; [exact H|]. apply bpow_lt. lia. }
    assert (bpow radix2 (-1074) <= bpow radix2 (-1000)) by (apply bpow_le; lia).
    assert (0 <= bpow radix2 (-53) * Rabs x) by (apply Rmult_le_pos; [apply bpow_ge_0|apply Rabs_pos]). lra.
Qed.

(** The same in units of a pixel size. *)
Lemma rnd_err_at K G x : bpow radix2 (-900) <= G -> Rabs x <= K * G ->
  Rabs (rnd x - x) <= (K * bpow radix2 (-53) + bpow radix2 (-100)) * G.
Proof.
  intros HG Hx. pose proof (rnd_err x) as HE.
  replace (bpow radix2 (-1000)) with (bpow radix2 (-100) * bpow radix2 (-900)) in HE by (by rewrite <-bpow_plus).
  assert (bpow radix2 (-100) * bpow radix2 (-900) <= bpow radix2 (-100) * G)
    by (apply Rmult_le_compat_l; [apply bpow_ge_0|done]).
  assert (bpow radix2 (-53) * Rabs x <= bpow radix2 (-53) * (K * G))
    by (apply Rmult_le_compat_l; [apply bpow_ge_0|done]). lra.
Qed.

(** No overflow below 2^1000. *)
Lemma rnd_lt x : Rabs x <= bpow radix2 1000 -> Rlt_bool (Rabs (rnd x)) (bpow radix2 1024) = true.
Proof.
  intros H. apply Rlt_bool_true. eapply Rle_lt_trans with (bpow radix2 1000); [|apply bpow_lt; lia].
  apply abs_round_le_generic; [exact fexp_valid|apply valid_rnd_N| |done]. apply generic_format_bpow. vm_compute. congruence.
Qed.

Lemma fmul_ok a b : Rabs (B2R a * B2R b) <= bpow radix2 1000 -> is_finite a = true -> is_finite b = true ->
  B2R (f_mul a b) = rnd (B2R a * B2R b) /\ is_finite (f_mul a b) = true.
Proof.
  intros H Ha Hb. pose proof (Bmult_correct 53 1024 _ _ mode_NE a b) as HC. rewrite rnd_lt in HC by done.
  destruct HC as (H1 & H2 & _). split; [exact H1|]. unfold f_mul. by rewrite H2, Ha, Hb.
Qed.
Lemma fadd_ok a b : Rabs (B2R a + B2R b) <= bpow radix2 1000 -> is_finite a = true -> is_finite b = true ->
  B2R (f_add a b) = rnd (B2R a + B2R b) /\ is_finite (f_add a b) = true.
Proof.
  intros H Ha Hb. pose proof (Bplus_correct 53 1024 _ _ mode_NE a b Ha Hb) as HC. rewrite rnd_lt in HC by done.
  destruct HC as (H1 & H2 & _). by split.
Qed.
Lemma fsub_ok a b : Rabs (B2R a - B2R b) <= bpow radix2 1000 -> is_finite a = true -> is_finite b = true ->
  B2R (f_sub a b) = rnd (B2R a - B2R b) /\ is_finite (f_sub a b) = true.
Proof.
  intros H Ha Hb. pose proof (Bminus_correct 53 1024 _ _ mode_NE a b Ha Hb) as HC. rewrite rnd_lt in HC by done.
  destruct HC as (H1 & H2 & _). by split.
Qed.
Lemma fdiv_ok a b : B2R b <> 0 -> Rabs (B2R a / B2R b) <= bpow radix2 1000 -> is_finite a = true ->
  exists q, f_div a b = Ok q /\ B2R q = rnd (B2R a / B2R b) /\ is_finite q = true.
Proof.
  intros Hb H Ha. exists (Bdiv mode_NE a b). pose proof (Bdiv_correct 53 1024 _ _ mode_NE a b Hb) as HC.
  rewrite rnd_lt in HC by done. destruct HC as (H1 & H2 & _).
  split; [|by rewrite H2]. by destruct b.
Qed.

(** Integers in range convert exactly. *)
Lemma fint_ok z : index_ok z -> exists f, f_int z = Ok f /\ is_finite f = true /\ B2R f = IZR z.
Proof.
  intros H. unfold f_int. pose proof (binary_normalize_correct 53 1024 _ _ mode_NE z 0 false) as HC.
  assert (HF : F2R (Float radix2 z 0) = IZR z) by (unfold F2R; simpl; lra). cbv zeta in HC. rewrite HF in HC.
  assert (Hz : Rabs (IZR z) <= bpow radix2 48).
  { rewrite <-abs_IZR, bp by lia. apply IZR_le. exact H. }
  rewrite rnd_lt in HC. 2:{ eapply Rle_trans; [exact Hz|]. apply bpow_le. lia. }
  destruct HC as (H1 & H2 & _). rewrite H2. eexists. split; [reflexivity|]. split; [done|].
  rewrite H1. apply round_generic; [apply valid_rnd_N|].
  apply (generic_format_FLT radix2 (-1074) 53). exists (Float radix2 z 0); [by rewrite HF| |simpl; lia].
  simpl. unfold index_ok in H. lia.
Qed.

Lemma add_zero a t : is_finite a = true -> is_finite t = true -> B2R t = 0 ->
  B2R (f_add a t) = B2R a /\ is_finite (f_add a t) = true.
Proof.
  intros Ha Ht Hz. pose proof (Bplus_correct 53 1024 _ _ mode_NE a t Ha Ht) as HC.
  assert (HR : rnd (B2R a + B2R t) = B2R a).
  { rewrite Hz, Rplus_0_r. apply round_generic; [apply valid_rnd_N|]. apply generic_format_B2R. }
  rewrite HR in HC. rewrite Rlt_bool_true in HC by apply abs_B2R_lt_emax. destruct HC as (H1 & H2 & _). by split.
Qed.
Lemma mul_zero a t : is_finite a = true -> is_finite t = true -> B2R t = 0 ->
  B2R (f_mul a t) = 0 /\ is_finite (f_mul a t) = true.
Proof.
  intros Ha Ht Hz. destruct (fmul_ok a t) as [H1 H2]; [|done|done|].
  - rewrite Hz, Rmult_0_r, Rabs_R0. apply bpow_ge_0.
  - split; [|done]. rewrite H1, Hz, Rmult_0_r. apply round_0, valid_rnd_N.
Qed.

(** Size of numbers given in pixels. *)
Lemma pixels_small K G x : G <= bpow radix2 900 -> 0 <= G -> 0 <= K <= bpow radix2 100 -> Rabs x <= K * G -> Rabs x <= bpow radix2 1000.
Proof.
  intros HG H0 [HK0 HK] Hx. eapply Rle_trans; [exact Hx|]. change 1000%Z with (100 + 900)%Z. rewrite bpow_plus.
  by apply Rmult_le_compat.
Qed.

Lemma dyadic_value n e : Q2R (dyadic n e) = F2R (Float radix2 n e).
Proof.
  unfold F2R. simpl Fnum. simpl Fexp. destruct e as [|p|p]; simpl dyadic.
  - unfold Q2R. simpl. lra.
  - rewrite bp by lia. rewrite <-mult_IZR. unfold Q2R. simpl Qnum. simpl Qden. lra.
  - change (Zneg p) with (- Zpos p)%Z. rewrite bpn by lia. unfold Q2R. simpl Qnum. simpl Qden.
    by rewrite Pos2Z.inj_pow.
Qed.
Lemma py_round_near q z : Rabs (Q2R q - IZR z) < 1 / 2 -> py_round q = z.
Proof.
  intros H. pose proof (py_round_nearest q) as HN.
  assert (HN2 : Rabs (Q2R q - IZR (py_round q)) <= 1 / 2).
  { apply Qabs_Qle_condition in HN as [H1 H2]. apply Qle_Rle in H1, H2.
    rewrite Q2R_minus in H1, H2. rewrite Q2R_opp in H1.
    assert (E1 : Q2R (inject_Z (py_round q)) = IZR (py_round q)) by (unfold Q2R; simpl; lra).
    assert (E2 : Q2R (1 # 2) = 1 / 2) by (unfold Q2R; simpl; lra). rewrite E1, E2 in H1, H2. apply Rabs_le. lra. }
  assert (Hd : Rabs (IZR (py_round q - z)) < 1).
  { rewrite minus_IZR. pose proof (Rabs_triang (Q2R q - IZR z) (- (Q2R q - IZR (py_round q)))) as T.
    rewrite Rabs_Ropp in T. replace (Q2R q - IZR z + - (Q2R q - IZR (py_round q))) with (IZR (py_round q) - IZR z) in T by ring. lra. }
  rewrite <-abs_IZR in Hd. apply lt_IZR in Hd. lia.
Qed.

Section axis.
Context (A B : b64) (Hmod : moderate A B) (z : Z) (Hz : index_ok z).
Local Notation a := (B2R A).
Local Notation b := (B2R B).
Local Notation G := (Rabs b).

Lemma z_bound : Rabs (IZR z) <= bpow radix2 48.
Proof. rewrite <-abs_IZR, bp by lia. apply IZR_le. exact Hz. Qed.
Lemma G_pos : 0 < G.
Proof. destruct Hmod as (_ & _ & [H _] & _). pose proof (bpow_gt_0 radix2 (-900)). lra. Qed.

Lemma mul_near fz : is_finite fz = true -> B2R fz = IZR z ->
  is_finite (f_mul fz B) = true /\ Rabs (B2R (f_mul fz B) - IZR z * b) <= (1 / 31) * G.
Proof.
  intros Hf Hv. destruct Hmod as (HA & HB & [HG1 HG2] & HAG). pose proof G_pos as H0.
  assert (Hp : Rabs (B2R fz * b) <= bpow radix2 48 * G).
  { rewrite Hv, Rabs_mult. apply Rmult_le_compat_r; [lra|]. apply z_bound. }
  destruct (fmul_ok fz B) as [H1 H2]; [|done|done|].
  { eapply pixels_small; [exact HG2|lra| |exact Hp]. split; [apply bpow_ge_0|apply bpow_le; lia]. }
  split; [done|]. rewrite H1, <-Hv. pose proof (rnd_err_at _ _ _ HG1 Hp) as HE.
  eapply Rle_trans; [exact HE|]. apply Rmult_le_compat_r; [lra|].
  rewrite n53, n100, p48. lra.
Qed.

Lemma add_near p : is_finite p = true -> Rabs (B2R p - IZR z * b) <= (1 / 31) * G ->
  is_finite (f_add A p) = true /\ Rabs (B2R (f_add A p) - (a + IZR z * b)) <= (1 / 9) * G.
Proof.
  intros Hf Hv. destruct Hmod as (HA & HB & [HG1 HG2] & HAG). pose proof G_pos as H0.
  assert (Hzb : Rabs (IZR z * b) <= bpow radix2 48 * G).
  { rewrite Rabs_mult. apply Rmult_le_compat_r; [lra|]. apply z_bound. }
  assert (Hp : Rabs (a + B2R p) <= (bpow radix2 49 + 1) * G).
  { change (49)%Z with (48 + 1)%Z. rewrite bpow_plus. simpl (bpow radix2 1).
    pose proof (Rabs_triang (a + IZR z * b) (B2R p - IZR z * b)) as T1. pose proof (Rabs_triang a (IZR z * b)) as T2.
    replace (a + IZR z * b + (B2R p - IZR z * b)) with (a + B2R p) in T1 by ring. lra. }
  destruct (fadd_ok A p) as [H1 H2]; [|done|done|].
  { eapply pixels_small; [exact HG2|lra| |exact Hp]. rewrite p49, p100. lra. }
  split; [done|]. rewrite H1. pose proof (rnd_err_at _ _ _ HG1 Hp) as HE.
  assert (HE2 : Rabs (rnd (a + B2R p) - (a + B2R p)) <= (1 / 15) * G).
  { eapply Rle_trans; [exact HE|]. apply Rmult_le_compat_r; [lra|].
    rewrite n53, n100, p49. lra. }
  pose proof (Rabs_triang (rnd (a + B2R p) - (a + B2R p)) (B2R p - IZR z * b)) as T.
  replace (rnd (a + B2R p) - (a + B2R p) + (B2R p - IZR z * b)) with (rnd (a + B2R p) - (a + IZR z * b)) in T by ring. lra.
Qed.

Lemma round_near q : is_finite q = true -> Rabs (B2R q - IZR z) < 1 / 2 -> f_round q = Ok z.
Proof.
  destruct q as [s| | |s m e H]; try discriminate; intros _ Hn.
  - simpl in *. f_equal. apply Rabs_def2 in Hn as [H1 H2]. assert (IZR z < 1) by lra. assert (-1 < IZR z) by lra.
    apply lt_IZR in H, H0. lia.
  - simpl f_round. f_equal. apply py_round_near. rewrite dyadic_value. exact Hn.
Qed.

Lemma back l : is_finite l = true -> Rabs (B2R l - (a + IZR z * b)) <= (1 / 9) * G ->
  exists q, f_div (f_sub l A) B = Ok q /\ f_round q = Ok z.
Proof.
  intros Hf Hv. destruct Hmod as (HA & HB & [HG1 HG2] & HAG). pose proof G_pos as H0.
  assert (Hzb : Rabs (IZR z * b) <= bpow radix2 48 * G).
  { rewrite Rabs_mult. apply Rmult_le_compat_r; [lra|]. apply z_bound. }
  assert (Hp : Rabs (B2R l - a) <= (bpow radix2 48 + 1) * G).
  { pose proof (Rabs_triang (B2R l - (a + IZR z * b)) (IZR z * b)) as T1.
    replace (B2R l - (a + IZR z * b) + IZR z * b) with (B2R l - a) in T1 by ring. lra. }
  destruct (fsub_ok l A) as [H1 H2]; [|done|done|].
  { eapply pixels_small; [exact HG2|lra| |exact Hp]. rewrite p48, p100. lra. }
  assert (HE2 : Rabs (B2R (f_sub l A) - (B2R l - a)) <= (1 / 31) * G).
  { rewrite H1. eapply Rle_trans; [exact (rnd_err_at _ _ _ HG1 Hp)|]. apply Rmult_le_compat_r; [lra|].
    rewrite n53, n100, p48. lra. }
  assert (HE3 : Rabs (B2R (f_sub l A) - IZR z * b) <= (1 / 6) * G).
  { pose proof (Rabs_triang (B2R (f_sub l A) - (B2R l - a)) (B2R l - (a + IZR z * b))) as T.
    replace (B2R (f_sub l A) - (B2R l - a) + (B2R l - (a + IZR z * b))) with (B2R (f_sub l A) - IZR z * b) in T by ring. lra. }
  assert (Hb : b <> 0). { intros E. rewrite E, Rabs_R0 in H0. lra. }
  assert (HE4 : Rabs (B2R (f_sub l A) / b - IZR z) <= 1 / 6).
  { replace (B2R (f_sub l A) / b - IZR z) with ((B2R (f_sub l A) - IZR z * b) / b) by (field; done).
    unfold Rdiv at 1. rewrite Rabs_mult, Rabs_inv. apply Rmult_le_reg_r with G; [done|].
    rewrite Rmult_assoc, Rinv_l by lra. lra. }
  assert (Hq : Rabs (B2R (f_sub l A) / b) <= (bpow radix2 48 + 1) * 1).
  { pose proof (Rabs_triang (B2R (f_sub l A) / b - IZR z) (IZR z)) as T.
    replace (B2R (f_sub l A) / b - IZR z + IZR z) with (B2R (f_sub l A) / b) in T by ring. pose proof z_bound. lra. }
  destruct (fdiv_ok (f_sub l A) B) as (q & Hd & Hqv & Hqf); [done| |done|].
  { eapply Rle_trans; [exact Hq|]. rewrite p48. eapply Rle_trans; [|apply (bpow_le radix2 100 1000); lia]. rewrite p100. lra. }
  exists q. split; [done|]. apply round_near; [done|]. rewrite Hqv.
  assert (HG : bpow radix2 (-900) <= 1) by (apply (bpow_le radix2 (-900) 0); lia).
  pose proof (rnd_err_at _ _ _ HG Hq) as HE5. rewrite n53, n100, p48 in HE5.
  pose proof (Rabs_triang (rnd (B2R (f_sub l A) / b) - B2R (f_sub l A) / b) (B2R (f_sub l A) / b - IZR z)) as T.
  replace (rnd (B2R (f_sub l A) / b) - B2R (f_sub l A) / b + (B2R (f_sub l A) / b - IZR z))
    with (rnd (B2R (f_sub l A) / b) - IZR z) in T by ring. lra.
Qed.
End axis.

Theorem f_round_trip g x y : f_north_up g -> index_ok x -> index_ok y ->
  exists lat lon, f_xy_to_latlon g x y = Ok (lat, lon) /\ is_finite lat = true /\ is_finite lon = true /\
    f_latlong_to_xy g lat lon = Ok (x, y).
Proof.
  intros (F2 & Z2 & F4 & Z4 & M1 & M2) Hx Hy.
  destruct (fint_ok y Hy) as (fy & Ey & Fy & Vy). destruct (fint_ok x Hx) as (fx & Ex & Fx & Vx).
  unfold f_xy_to_latlon. rewrite Ey, Ex. cbn [rbind]. eexists _, _. split; [reflexivity|].
  assert (Hlon : exists q, f_div (f_sub (f_add (f_add (fgt0 g) (f_mul fy (fgt1 g))) (f_mul fx (fgt2 g))) (fgt0 g)) (fgt1 g) = Ok q /\
      f_round q = Ok y /\ is_finite (f_add (f_add (fgt0 g) (f_mul fy (fgt1 g))) (f_mul fx (fgt2 g))) = true).
  { destruct (mul_near _ _ M1 y Hy fy Fy Vy) as [P1 P2]. destruct (add_near _ _ M1 y Hy _ P1 P2) as [L1 L2].
    destruct (mul_zero fx (fgt2 g) Fx F2 Z2) as [T1 T2]. destruct (add_zero _ _ L1 T2 T1) as [V1 V2].
    rewrite <-V1 in L2. destruct (back _ _ M1 y Hy _ V2 L2) as (q & Q1 & Q2). by exists q. }
  assert (Hlat : exists q, f_div (f_sub (f_add (f_add (fgt3 g) (f_mul fy (fgt4 g))) (f_mul fx (fgt5 g))) (fgt3 g)) (fgt5 g) = Ok q /\
      f_round q = Ok x /\ is_finite (f_add (f_add (fgt3 g) (f_mul fy (fgt4 g))) (f_mul fx (fgt5 g))) = true).
  { destruct (mul_zero fy (fgt4 g) Fy F4 Z4) as [T1 T2].
    destruct (add_zero (fgt3 g) _ (proj1 M2) T2 T1) as [V1 V2].
    assert (M3 : moderate (f_add (fgt3 g) (f_mul fy (fgt4 g))) (fgt5 g)).
    { unfold moderate in *. rewrite V1. tauto. }
    destruct (mul_near _ _ M3 x Hx fx Fx Vx) as [P1 P2]. destruct (add_near _ _ M3 x Hx _ P1 P2) as [L1 L2].
    rewrite V1 in L2. destruct (back _ _ M2 x Hx _ L1 L2) as (q & Q1 & Q2). by exists q. }
  destruct Hlon as (qy & Y1 & Y2 & Y3). destruct Hlat as (qx & X1 & X2 & X3). split; [done|]. split; [done|].
  unfold f_latlong_to_xy. rewrite Y1. cbn [rbind]. rewrite Y2. cbn [rbind]. rewrite X1. cbn [rbind]. rewrite X2. reflexivity.
Qed.

Theorem f_elevation_at m g x y : f_north_up g -> index_ok x -> index_ok y -> in_map m (x, y) ->
  exists lat lon, f_xy_to_latlon g x y = Ok (lat, lon) /\ f_elevation m g lat lon = Ok (elev m (x, y)).
Proof.
  intros H Hx Hy Hm. destruct (f_round_trip g x y H Hx Hy) as (lat & lon & H1 & _ & _ & H2).
  exists lat, lon. split; [done|]. unfold f_elevation. rewrite H2. cbn [rbind fst snd].
  destruct Hm as [Mx My]. unfold dm_get, np_read, np_index. cbn in Mx, My.
  replace ((0 <=? x)%Z && (x <=? dm_max_x m)%Z) with true by lia. cbn [rbind].
  by replace ((0 <=? y)%Z && (y <=? dm_max_y m)%Z) with true by lia.
Qed.
