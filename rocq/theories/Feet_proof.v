(** Proofs about elevations in feet. *)
From Verif Require Import Base_model Graph_model Raster_model Float_model Float_spec Float_proof Slope_model Slope_spec Slope_proof Feet_model Feet_spec.
From Flocq Require Import Core BinarySingleNaN Relative.
From Coq Require Import Reals Lra Psatz.
Local Open Scope R_scope.
Local Instance fexp_valid : Valid_exp (SpecFloat.fexp 53 1024) := fexp_correct 53 1024 _.

Lemma u_value : u = / IZR 9007199254740992.
Proof. reflexivity. Qed.

Definition kf : R := IZR 7387794664321679 * / IZR 2251799813685248.
Lemma per_metre : exists k, FEET_PER_METER_f = Ok k /\ is_finite k = true /\ B2R k = kf.
Proof.
  assert (match FEET_PER_METER_f with Ok k => B2SF k = SpecFloat.S754_finite false 7387794664321679 (-51) | Err _ => False end) as H
    by (vm_compute; reflexivity).
  destruct FEET_PER_METER_f as [k|]; [|done]. exists k. split; [done|].
  destruct k as [| | |s m e Hb]; try discriminate H. injection H as -> -> ->. split; [done|]. reflexivity.
Qed.
Lemma kf_value : 10000 / 3048 * (1 - u) <= kf <= 10000 / 3048 * (1 + u).
Proof. rewrite u_value. unfold kf. lra. Qed.
Lemma kf_range : 3 < kf < 4.
Proof. unfold kf. lra. Qed.

Lemma bits_float m e : (Z.abs m < 2 ^ 53 -> 0 <= e -> Z.abs (m * 2 ^ e) < 2 ^ 277 -> float_value (m * 2 ^ e))%Z.
Proof.
  intros Hm He Hb. split; [done|].
  pose proof (binary_normalize_correct 53 1024 _ _ mode_NE m (e - 149) false) as HC. cbv zeta in HC.
  assert (Hv : F2R (Float radix2 m (e - 149)) = IZR (m * 2 ^ e) * bpow radix2 (-149)).
  { unfold F2R. cbn [Fnum Fexp]. rewrite mult_IZR. change (2 ^ e)%Z with (Zpower radix2 e).
    rewrite (IZR_Zpower radix2 e) by lia. change (e - 149)%Z with (e + -149)%Z. rewrite (bpow_plus radix2 e). ring. }
  rewrite Hv in HC.
  assert (Rabs (IZR (m * 2 ^ e) * bpow radix2 (-149)) <= bpow radix2 1000) as Hr.
  { rewrite Rabs_mult, (Rabs_pos_eq (bpow _ _)) by apply bpow_ge_0. rewrite <-abs_IZR.
    apply Rle_trans with (bpow radix2 277 * bpow radix2 (-149)); [|rewrite <-bpow_plus; apply bpow_le; lia].
    apply Rmult_le_compat_r; [apply bpow_ge_0|]. rewrite bp by lia. apply IZR_le. lia. }
  rewrite rnd_lt in HC by done. destruct HC as (H1 & H2 & _). eexists. split; [exact H2|]. rewrite H1.
  apply round_generic; [apply valid_rnd_N|]. rewrite <-Hv. apply (generic_format_FLT radix2 (-1074) 53).
  exists (Float radix2 m (e - 149)); [done| |cbn [Fexp]; lia]. cbn [Fnum]. change (Z.pow radix2 53) with (2 ^ 53)%Z. lia.
Qed.
Lemma float32_float z : float32_value z -> float_value z.
Proof.
  intros (m & e & -> & Hm & He). apply bits_float; [lia|lia|].
  rewrite Z.abs_mul, (Z.abs_eq (2 ^ e)) by (apply Z.pow_nonneg; lia).
  apply Z.lt_le_trans with (2 ^ 24 * 2 ^ e)%Z; [apply Z.mul_lt_mono_pos_r; [apply Z.pow_pos_nonneg; lia|done]|].
  rewrite <-Z.pow_add_r by lia. apply Z.pow_le_mono_r; lia.
Qed.

(** Different float32 numbers are apart. *)
Lemma float32_gap z z' : float32_value z -> float32_value z' -> z <> z' -> (Z.abs z' <= 2 ^ 24 * Z.abs (z' - z))%Z.
Proof.
  intros (m & e & Hz & Hm & He) (m' & e' & Hz' & Hm' & He') Hne.
  destruct (Z.le_gt_cases e' e) as [Hle|Hlt].
  - (* both multiples of 2^e' *)
    set (q := (2 ^ e')%Z). assert (0 < q)%Z by (apply Z.pow_pos_nonneg; lia).
    assert (exists n, z = n * q)%Z as [n Hn].
    { exists (m * 2 ^ (e - e'))%Z. rewrite Hz. unfold q. rewrite <-Z.mul_assoc, <-Z.pow_add_r by lia. do 2 f_equal. lia. }
    fold q in Hz'. rewrite Hn, Hz', <-Z.mul_sub_distr_r, !Z.abs_mul, (Z.abs_eq q) by lia.
    assert (m' <> n) by (intros ->; congruence). rewrite Z.mul_assoc. apply Z.mul_le_mono_nonneg_r; [lia|]. lia.
  - set (q := (2 ^ e)%Z). assert (0 < q)%Z by (apply Z.pow_pos_nonneg; lia).
    assert (exists n, z' = n * q)%Z as [n Hn].
    { exists (m' * 2 ^ (e' - e))%Z. rewrite Hz'. unfold q. rewrite <-Z.mul_assoc, <-Z.pow_add_r by lia. do 2 f_equal. lia. }
    fold q in Hz. rewrite Hn, Hz, <-Z.mul_sub_distr_r, !Z.abs_mul, (Z.abs_eq q) by lia.
    assert (m <> n) by (intros ->; congruence). rewrite Z.mul_assoc. apply Z.mul_le_mono_nonneg_r; [lia|]. lia.
Qed.

Lemma metres_abs z : Rabs (metres_of z) = IZR (Z.abs z) * bpow radix2 (-149).
Proof. unfold metres_of. rewrite Rabs_mult, (Rabs_pos_eq (bpow _ _)) by apply bpow_ge_0. by rewrite abs_IZR. Qed.
Lemma metres_big z : (Z.abs z < 2 ^ 277)%Z -> Rabs (metres_of z) <= bpow radix2 128.
Proof.
  intros H. rewrite metres_abs. apply Rle_trans with (bpow radix2 277 * bpow radix2 (-149)); [|rewrite <-bpow_plus; apply bpow_le; lia].
  apply Rmult_le_compat_r; [apply bpow_ge_0|]. rewrite bp by lia. apply IZR_le. lia.
Qed.
Lemma metres_small z : z <> 0%Z -> bpow radix2 (-149) <= Rabs (metres_of z).
Proof.
  intros H. rewrite metres_abs. rewrite <-(Rmult_1_l (bpow radix2 (-149))) at 1. apply Rmult_le_compat_r; [apply bpow_ge_0|]. apply IZR_le. lia.
Qed.

Lemma feet_value z : float_value z -> exists f, f_feet (Some (f_ele z)) = Some f /\ is_finite f = true /\
  B2R f = rnd (metres_of z * kf).
Proof.
  intros Hz. destruct per_metre as (k & Ek & Fk & Vk). destruct (ele_ok z Hz) as [F1 V1].
  destruct (fmul_ok (f_ele z) k) as [H1 H2]; [|done|done|].
  { rewrite V1, Vk. fold (metres_of z). rewrite Rabs_mult. pose proof kf_range. rewrite (Rabs_pos_eq kf) by lra.
    apply Rle_trans with (bpow radix2 128 * bpow radix2 2); [|rewrite <-bpow_plus; apply bpow_le; lia].
    apply Rmult_le_compat; [apply Rabs_pos|lra|apply metres_big, Hz|simpl; lra]. }
  unfold f_feet. rewrite Ek. eexists. split; [reflexivity|]. split; [exact H2|]. rewrite H1, V1, Vk. done.
Qed.
(** The rounded product. *)
Lemma feet_rnd z : Rabs (rnd (metres_of z * kf) - metres_of z * kf) <= u * Rabs (metres_of z) * kf.
Proof.
  pose proof kf_range. destruct (decide (z = 0%Z)) as [->|Hne].
  - unfold metres_of. rewrite !Rmult_0_l, round_0 by apply valid_rnd_N. rewrite Rminus_0_r, Rabs_R0, Rmult_0_r. lra.
  - assert (E : Rabs (metres_of z * kf) = Rabs (metres_of z) * kf) by (rewrite Rabs_mult, (Rabs_pos_eq kf); lra).
    rewrite Rmult_assoc, <-E. apply rnd_rel. rewrite E. pose proof (metres_small z Hne).
    apply Rle_trans with (bpow radix2 (-149) * 1); [rewrite Rmult_1_r; apply bpow_le; lia|]. apply Rmult_le_compat; try lra. apply bpow_ge_0.
Qed.

Lemma feet_close z f : float_value z -> f_feet (Some (f_ele z)) = Some f ->
  close_to f (feet_of z) (bpow radix2 (-51) * Rabs (feet_of z)).
Proof.
  intros Hz Hf. destruct (feet_value z Hz) as (g & Eg & Fg & Vg). assert (g = f) as -> by congruence. split; [done|].
  rewrite Vg. pose proof (feet_rnd z) as HR. pose proof kf_value as HK. pose proof kf_range.
  unfold feet_of. rewrite Rabs_mult, (Rabs_pos_eq (10000 / 3048)) by lra.
  set (a := metres_of z) in *. set (A := Rabs a) in *.
  assert (0 <= A) by apply Rabs_pos. pose proof u_small.
  replace (bpow radix2 (-51)) with (4 * u) by reflexivity || (rewrite u_value; simpl; lra).
  replace (rnd (a * kf) - a * (10000 / 3048)) with ((rnd (a * kf) - a * kf) + a * (kf - 10000 / 3048)) by ring.
  eapply Rle_trans; [apply Rabs_triang|]. rewrite (Rabs_mult a). fold A.
  assert (Rabs (kf - 10000 / 3048) <= 10000 / 3048 * u) by (apply Rabs_le; lra).
  assert (A * Rabs (kf - 10000 / 3048) <= A * (10000 / 3048 * u)) by (by apply Rmult_le_compat_l).
  assert (u * A * kf <= u * A * (10000 / 3048 * 2)) by (apply Rmult_le_compat_l; nra). nra.
Qed.

Lemma feet_order z z' f f' : float_value z -> float_value z' -> f_feet (Some (f_ele z)) = Some f -> f_feet (Some (f_ele z')) = Some f' ->
  (z <= z')%Z -> B2R f <= B2R f'.
Proof.
  intros Hz Hz' Hf Hf' Hle. destruct (feet_value z Hz) as (g & Eg & _ & Vg), (feet_value z' Hz') as (g' & Eg' & _ & Vg').
  assert (g = f) as -> by congruence. assert (g' = f') as -> by congruence. rewrite Vg, Vg'.
  apply round_le; [exact fexp_valid|apply valid_rnd_N|]. pose proof kf_range. apply Rmult_le_compat_r; [lra|].
  unfold metres_of. apply Rmult_le_compat_r; [apply bpow_ge_0|]. by apply IZR_le.
Qed.

(** The difference for float32 numbers. *)
Lemma feet_gap z z' f f' : float32_value z -> float32_value z' -> f_feet (Some (f_ele z)) = Some f -> f_feet (Some (f_ele z')) = Some f' ->
  (z < z')%Z -> bpow radix2 (-149) <= B2R f' - B2R f.
Proof.
  intros Hz Hz' Hf Hf' Hlt. destruct (feet_value z) as (g & Eg & _ & Vg); [by apply float32_float|].
  destruct (feet_value z') as (g' & Eg' & _ & Vg'); [by apply float32_float|].
  assert (g = f) as -> by congruence. assert (g' = f') as -> by congruence. rewrite Vg, Vg'.
  pose proof (feet_rnd z) as R1. pose proof (feet_rnd z') as R2. pose proof kf_range as HK.
  pose proof (float32_gap z z' Hz Hz' ltac:(lia)) as G1. pose proof (float32_gap z' z Hz' Hz ltac:(lia)) as G2.
  rewrite !metres_abs in *. unfold metres_of in *. set (t := bpow radix2 (-149)) in *. assert (0 < t) by apply bpow_gt_0.
  replace (Z.abs (z' - z)) with (z' - z)%Z in G1 by lia. replace (Z.abs (z - z')) with (z' - z)%Z in G2 by lia.
  apply IZR_le in G1, G2. rewrite mult_IZR, minus_IZR in G1, G2. change (IZR (2 ^ 24)) with 16777216 in G1, G2.
  assert (1 <= IZR z' - IZR z) by (rewrite <-minus_IZR; apply IZR_le; lia).
  rewrite u_value in *. set (D := IZR z' - IZR z) in *. set (a := IZR (Z.abs z)) in *. set (b := IZR (Z.abs z')) in *.
  apply Rabs_le_inv in R1, R2.
  assert (IZR z' * t * kf - IZR z * t * kf = D * (t * kf)) as HD by (unfold D; ring).
  assert (H3 : 0 < t * kf) by nra.
  assert (/ IZR 9007199254740992 * (a * t) * kf <= D * (t * kf) / 4).
  { replace (/ IZR 9007199254740992 * (a * t) * kf) with (a / IZR 9007199254740992 * (t * kf)) by (field; lra).
    replace (D * (t * kf) / 4) with (D / 4 * (t * kf)) by field. apply Rmult_le_compat_r; lra. }
  assert (/ IZR 9007199254740992 * (b * t) * kf <= D * (t * kf) / 4).
  { replace (/ IZR 9007199254740992 * (b * t) * kf) with (b / IZR 9007199254740992 * (t * kf)) by (field; lra).
    replace (D * (t * kf) / 4) with (D / 4 * (t * kf)) by field. apply Rmult_le_compat_r; lra. }
  assert (3 * t <= D * (t * kf)) by nra. nra.
Qed.

Lemma feet_bound z : float_value z -> Rabs (rnd (metres_of z * kf)) <= bpow radix2 130.
Proof.
  intros Hz. apply abs_round_le_generic; [exact fexp_valid|apply valid_rnd_N|apply generic_format_bpow; vm_compute; congruence|].
  rewrite Rabs_mult. pose proof kf_range. rewrite (Rabs_pos_eq kf) by lra.
  change 130%Z with (128 + 2)%Z. rewrite bpow_plus. apply Rmult_le_compat; [apply Rabs_pos|lra|apply metres_big, Hz|simpl; lra].
Qed.
Lemma above_value z z' : float_value z -> float_value z' -> exists f, f_feet_above (Some (f_ele z')) (Some (f_ele z)) = Ok f /\
  is_finite f = true /\ exists a b, f_feet (Some (f_ele z')) = Some a /\ f_feet (Some (f_ele z)) = Some b /\ B2R f = rnd (B2R a - B2R b).
Proof.
  intros Hz Hz'. destruct (feet_value z Hz) as (b & Eb & Fb & Vb), (feet_value z' Hz') as (a & Ea & Fa & Va).
  destruct (fsub_ok a b) as [H1 H2]; [|done|done|].
  { rewrite Va, Vb. unfold Rminus. eapply Rle_trans; [apply Rabs_triang|]. rewrite Rabs_Ropp.
    pose proof (feet_bound z Hz). pose proof (feet_bound z' Hz').
    apply Rle_trans with (bpow radix2 131); [|apply bpow_le; lia]. change 131%Z with (1 + 130)%Z. rewrite bpow_plus. simpl (bpow radix2 1). lra. }
  exists (f_sub a b). unfold f_feet_above. rewrite Ea, Eb. split; [done|]. split; [done|]. by exists a, b.
Qed.
Lemma above_order z z' : float_value z -> float_value z' -> exists f, f_feet_above (Some (f_ele z')) (Some (f_ele z)) = Ok f /\
  is_finite f = true /\ ((z <= z')%Z -> 0 <= B2R f).
Proof.
  intros Hz Hz'. destruct (above_value z z' Hz Hz') as (f & Ef & Ff & a & b & Ea & Eb & Vf). exists f. split; [done|]. split; [done|].
  intros Hle. rewrite Vf. pose proof (feet_order z z' b a Hz Hz' Eb Ea Hle).
  rewrite <-(round_0 radix2 (SpecFloat.fexp 53 1024) ZnearestE). apply round_le; [exact fexp_valid|apply valid_rnd_N|]. lra.
Qed.
Lemma above_close z z' : float32_value z -> float32_value z' -> exists f, f_feet_above (Some (f_ele z')) (Some (f_ele z)) = Ok f /\
  close_to f (feet_of z' - feet_of z) (bpow radix2 (-50) * (Rabs (feet_of z) + Rabs (feet_of z'))) /\
  (0 < B2R f <-> (z < z')%Z) /\ (B2R f = 0 <-> z = z').
Proof.
  intros Hz Hz'. pose proof (float32_float z Hz) as Gz. pose proof (float32_float z' Hz') as Gz'.
  destruct (above_value z z' Gz Gz') as (f & Ef & Ff & a & b & Ea & Eb & Vf). exists f. split; [done|].
  destruct (feet_close z b Gz Eb) as [_ C1], (feet_close z' a Gz' Ea) as [_ C2].
  assert (Hr : Rabs (rnd (B2R a - B2R b) - (B2R a - B2R b)) <= u * Rabs (B2R a - B2R b)).
  { destruct (Z.lt_trichotomy z z') as [H|[->|H]].
    - apply rnd_rel. pose proof (feet_gap z z' b a Hz Hz' Eb Ea H). apply Rle_trans with (bpow radix2 (-149)); [apply bpow_le; lia|].
      eapply Rle_trans; [exact H0|]. apply Rle_abs.
    - assert (a = b) as -> by congruence. rewrite Rminus_eq_0, round_0 by apply valid_rnd_N. rewrite Rminus_0_r, Rabs_R0. lra.
    - apply rnd_rel. pose proof (feet_gap z' z a b Hz' Hz Ea Eb H). apply Rle_trans with (bpow radix2 (-149)); [apply bpow_le; lia|].
      rewrite Rabs_minus_sym. eapply Rle_trans; [exact H0|]. apply Rle_abs. }
  rewrite <-Vf in Hr. pose proof u_small as Hu. split; [split; [done|]|].
  - replace (bpow radix2 (-50)) with (8 * u) by (rewrite u_value; simpl; lra).
    replace (bpow radix2 (-51)) with (4 * u) in C1, C2 by (rewrite u_value; simpl; lra).
    set (X := Rabs (feet_of z)) in *. set (Y := Rabs (feet_of z')) in *.
    assert (0 <= X) by apply Rabs_pos. assert (0 <= Y) by apply Rabs_pos.
    assert (Rabs (B2R a - B2R b) <= 2 * (X + Y)).
    { replace (B2R a - B2R b) with ((B2R a - feet_of z') + (feet_of z' - feet_of z) + (feet_of z - B2R b)) by ring.
      eapply Rle_trans; [apply Rabs_triang|]. rewrite (Rabs_minus_sym (feet_of z)).
      assert (Rabs (feet_of z' - feet_of z) <= Y + X) by (unfold Rminus; eapply Rle_trans; [apply Rabs_triang|]; rewrite Rabs_Ropp; fold X Y; lra).
      pose proof (Rabs_triang (B2R a - feet_of z') (feet_of z' - feet_of z)). nra. }
    replace (B2R f - (feet_of z' - feet_of z)) with ((B2R f - (B2R a - B2R b)) + (B2R a - feet_of z') + (feet_of z - B2R b)) by ring.
    eapply Rle_trans; [apply Rabs_triang|]. rewrite (Rabs_minus_sym (feet_of z)).
    pose proof (Rabs_triang (B2R f - (B2R a - B2R b)) (B2R a - feet_of z')).
    assert (u * Rabs (B2R a - B2R b) <= u * (2 * (X + Y))) by (apply Rmult_le_compat_l; lra). nra.
  - assert (Hpos : forall d, 0 < d -> Rabs (B2R f - d) <= u * Rabs d -> 0 < B2R f).
    { intros d Hd H. rewrite (Rabs_pos_eq d) in H by lra. apply Rabs_le_inv in H. nra. }
    assert (Hneg : forall d, d < 0 -> Rabs (B2R f - d) <= u * Rabs d -> B2R f < 0).
    { intros d Hd H. rewrite (Rabs_left d) in H by lra. apply Rabs_le_inv in H. nra. }
    pose proof (bpow_gt_0 radix2 (-149)) as Ht.
    destruct (Z.lt_trichotomy z z') as [H|[->|H]].
    + pose proof (feet_gap z z' b a Hz Hz' Eb Ea H). assert (0 < B2R f) by (eapply Hpos; [|exact Hr]; lra).
      split; [by split|]. split; [intros; lra|intros; lia].
    + assert (a = b) as -> by congruence. rewrite Rminus_eq_0, round_0 in Vf by apply valid_rnd_N. rewrite Vf.
      split; [split; [intros; lra|intros; lia]|by split].
    + pose proof (feet_gap z' z a b Hz' Hz Ea Eb H). assert (B2R f < 0) by (eapply Hneg; [|exact Hr]; lra).
      split; [split; [intros; lra|intros; lia]|]. split; [intros; lra|intros; lia].
Qed.

(** ** Concrete numbers *)

Definition m_1900 : Z := 8356288371097600 * 2 ^ 107.
Definition m_1900' : Z := 8356288371097601 * 2 ^ 107.
Lemma m_1900_zero : exists f, f_feet_above (Some (f_ele m_1900')) (Some (f_ele m_1900)) = Ok f /\ B2R f = 0.
Proof.
  assert (match f_feet_above (Some (f_ele m_1900')) (Some (f_ele m_1900)) with Ok f => B2SF f = SpecFloat.S754_zero false | Err _ => False end) as H
    by (vm_compute; reflexivity).
  destruct (f_feet_above _ _) as [f|]; [|done]. exists f. split; [done|]. destruct f; try discriminate H. done.
Qed.
Lemma survey_value : exists k s, SURVEY_FEET_PER_METER_f = Ok k /\ METERS_PER_SURVEY_FOOT_f = Ok s /\
  1 + 1 / 1000000 < B2R k * B2R s.
Proof.
  destruct per_metre as (k & Ek & _ & Vk). exists k.
  assert (exists m e, (match METERS_PER_SURVEY_FOOT_f with Ok s => B2SF s = SpecFloat.S754_finite false m e | Err _ => False end) /\
    IZR (Zpos m) * bpow radix2 e > 3048006095 / 10000000000) as (m & e & H & Hv).
  { eexists _, _. split; [vm_compute; reflexivity|]. simpl. lra. }
  destruct METERS_PER_SURVEY_FOOT_f as [s|]; [|done]. exists s. split; [exact Ek|]. split; [done|]. rewrite Vk.
  assert (B2R s = IZR (Zpos m) * bpow radix2 e) as ->.
  { destruct s; try discriminate H. injection H as -> -> ->. done. }
  unfold kf. nra.
Qed.
