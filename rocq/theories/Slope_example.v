(** A library function that meets [good_hypot], and a raster compared with it. *)
From Verif Require Import Base_model Raster_model Raster_spec Raster_proof Climb_model Climb_spec Float_model Float_spec Float_proof
  Slope_model Slope_spec Slope_proof.
From Flocq Require Import Core BinarySingleNaN Relative.
From Coq Require Import Reals Lra Psatz Qreals Qabs.
Local Open Scope R_scope.

(** The textbook formula, every operation rounded. *)
Definition plain_hypot (a b : b64) : b64 := Bsqrt mode_NE (f_add (f_mul a a) (f_mul b b)).

Lemma finite_pos_sqrt x : is_finite x = true -> 0 < B2R x -> is_finite (Bsqrt (prec:=53) (emax:=1024) mode_NE x) = true.
Proof.
  intros Hf Hp. destruct (Bsqrt_correct 53 1024 _ _ mode_NE x) as (_ & H & _).
  destruct x as [s|s| |[] m e He]; try discriminate Hf; try exact H. exfalso.
  assert (F2R (Float radix2 (Z.neg m) e) < 0) by (apply F2R_lt_0; reflexivity). exact (Rlt_asym _ _ Hp H0).
Qed.

Lemma plain_hypot_good : good_hypot plain_hypot.
Proof.
  intros a b Ha Hb h Hh. set (A := B2R a * B2R a) in *. set (B := B2R b * B2R b) in *.
  assert (HA : 0 <= A) by (unfold A; nra). assert (HB : 0 <= B) by (unfold B; nra).
  assert (Hpos : 0 < h) by (eapply Rlt_le_trans; [apply bpow_gt_0|apply Hh]).
  assert (Hsq : h * h = A + B) by (unfold h; apply sqrt_sqrt; lra).
  assert (Hup : h * h <= bpow radix2 802).
  { change 802%Z with (401 + 401)%Z. rewrite bpow_plus. apply Rmult_le_compat; lra. }
  assert (Hlo : bpow radix2 (-800) <= h * h).
  { change (-800)%Z with (-400 + -400)%Z. rewrite bpow_plus. pose proof (bpow_ge_0 radix2 (-400)). apply Rmult_le_compat; lra. }
  assert (Hbig : 4 * bpow radix2 802 <= bpow radix2 1000).
  { replace 4 with (bpow radix2 2) by (simpl; lra). rewrite <-bpow_plus. apply bpow_le. lia. }
  assert (Htiny : bpow radix2 (-1000) <= bpow radix2 (-100) * (h * h)).
  { apply Rle_trans with (bpow radix2 (-100) * bpow radix2 (-800)).
    - rewrite <-bpow_plus. apply bpow_le. lia.
    - apply Rmult_le_compat_l; [apply bpow_ge_0|done]. }
  assert (Hu : bpow radix2 (-53) = / 9007199254740992) by exact n53.
  assert (Hv : bpow radix2 (-100) = / 1267650600228229401496703205376) by exact n100.
  pose proof (bpow_ge_0 radix2 802) as H802.
  destruct (fmul_ok a a) as [MA FA]; [fold A; rewrite Rabs_pos_eq by done; lra|done|done|].
  destruct (fmul_ok b b) as [MB FB]; [fold B; rewrite Rabs_pos_eq by done; lra|done|done|].
  fold A in MA. fold B in MB.
  pose proof (rnd_err A) as EA. pose proof (rnd_err B) as EB. rewrite (Rabs_pos_eq A) in EA by done. rewrite (Rabs_pos_eq B) in EB by done.
  apply Rabs_le_inv in EA. apply Rabs_le_inv in EB. rewrite Hu in EA, EB. rewrite Hv in Htiny.
  set (S := rnd A + rnd B).
  assert (HS : h * h * (1 - 2 * / 9007199254740992) <= S <= h * h * (1 + 2 * / 9007199254740992)).
  { unfold S. rewrite Hsq in *. split; lra. }
  assert (HS0 : 0 <= S). { eapply Rle_trans; [|apply HS]. apply Rmult_le_pos; [nra|lra]. }
  destruct (fadd_ok (f_mul a a) (f_mul b b)) as [MS FS]; [|done|done|].
  { rewrite MA, MB. fold S. rewrite Rabs_pos_eq by done. lra. }
  rewrite MA, MB in MS. fold S in MS.
  pose proof (rnd_err S) as ES. rewrite (Rabs_pos_eq S) in ES by done. apply Rabs_le_inv in ES. rewrite Hu in ES.
  assert (HP : h * h * (1 - / 2251799813685248) <= rnd S <= h * h * (1 + / 2251799813685248)) by (split; lra).
  assert (Hr0 : 0 < rnd S). { eapply Rlt_le_trans; [|apply HP]. apply Rmult_lt_0_compat; [nra|lra]. }
  assert (HP' : h * h * (1 - (3 + / 1000) * / 9007199254740992) <= rnd S <= h * h * (1 + (3 + / 1000) * / 9007199254740992)).
  { split; lra. }
  assert (Hh1 : bpow radix2 (-400) <= h) by apply Hh.
  assert (Hroot : h * (1 - (3 + / 1000) * / 2 * / 9007199254740992 - / 1000 * / 9007199254740992) <= sqrt (rnd S)
    <= h * (1 + (3 + / 1000) * / 2 * / 9007199254740992)).
  { clear -Hpos HP' Hr0. destruct HP' as [H1 H2]. split.
    - apply Rsqr_incr_0_var; [|apply sqrt_pos]. rewrite Rsqr_sqrt by lra. unfold Rsqr. eapply Rle_trans; [|exact H1].
      match goal with |- h * ?x * _ <= _ => replace (h * x * (h * x)) with (h * h * (x * x)) by ring end.
      apply Rmult_le_compat_l; [nra|lra].
    - apply Rsqr_incr_0_var; [|apply Rmult_le_pos; lra]. rewrite Rsqr_sqrt by lra. unfold Rsqr. eapply Rle_trans; [exact H2|].
      match goal with |- _ <= h * ?x * _ => replace (h * x * (h * x)) with (h * h * (x * x)) by ring end.
      apply Rmult_le_compat_l; [nra|lra]. }
  split.
  { unfold plain_hypot. apply finite_pos_sqrt; [done|]. by rewrite MS. }
  unfold plain_hypot. destruct (Bsqrt_correct 53 1024 _ _ mode_NE (f_add (f_mul a a) (f_mul b b))) as (-> & _).
  rewrite MS. pose proof (rnd_err (sqrt (rnd S))) as ER.
  rewrite (Rabs_pos_eq (sqrt (rnd S))) in ER by apply sqrt_pos. apply Rabs_le_inv in ER. rewrite Hu in ER.
  assert (Htiny2 : bpow radix2 (-1000) <= / 1267650600228229401496703205376 * h).
  { rewrite <-Hv. apply Rle_trans with (bpow radix2 (-100) * bpow radix2 (-400)).
    - rewrite <-bpow_plus. apply bpow_le. lia.
    - apply Rmult_le_compat_l; [apply bpow_ge_0|done]. }
  replace (bpow radix2 (-51)) with (4 * / 9007199254740992).
  2:{ change (-51)%Z with (2 + -53)%Z. rewrite bpow_plus, n53. simpl (bpow radix2 2). lra. }
  change (round radix2 (SpecFloat.fexp 53 1024) (round_mode mode_NE) (sqrt (rnd S))) with (rnd (sqrt (rnd S))).
  apply Rabs_le. split; lra.
Qed.

Definition one (s : bool) : b64 := @B754_finite 53 1024 s 4503599627370496 (-52) eq_refl.
(** An elevation of [v] metres in units of 2^-149. *)
Definition metres (v : Z) : Z := v * 2 ^ 149.

(** Four cells with pixels of size 1; the squared slopes from the lower left cell
    to the upper two are [93222358^2] and [131836323^2 / 2], which is larger by 1/2. *)
Definition pell_map : datamap :=
  DM 1 1 (fun x y => metres match x, y with
                            | 0, 0 => -33554426
                            | 0, _ => 5059539
                            | _, 0 => -126776784
                            | _, _ => -126776792
                            end%Z) (Some (metres (-1073741824))) (GT 0 1 0 0 0 (-1))
     (fun dx dy pe e => f_slope plain_hypot (one true) (one false) dx dy (f_ele pe) (f_ele e)).

Lemma one_value s : B2R (one s) = if s then -1 else 1.
Proof.
  destruct s; unfold one, B2R, F2R; cbn [Fnum Fexp cond_Zopp]; rewrite ?opp_IZR; change (bpow radix2 (-52)) with (/ IZR (Z.pow_pos 2 52));
    change (Z.pow_pos 2 52) with 4503599627370496%Z; lra.
Qed.
Lemma one_size s : pixel_size (one s).
Proof.
  split; [done|]. rewrite one_value.
  replace (Rabs (if s then -1 else 1)) with (bpow radix2 0).
  - split; apply bpow_le; lia.
  - destruct s; simpl; [rewrite Rabs_left by lra; lra|by rewrite Rabs_R1].
Qed.
Lemma metres_value v : index_ok v -> float_value (metres v).
Proof.
  intros H. split.
  - unfold metres, index_ok in *. rewrite Z.abs_mul, (Z.abs_eq (2 ^ 149)) by lia.
    replace (2 ^ 277)%Z with (2 ^ 128 * 2 ^ 149)%Z by reflexivity. apply Z.mul_lt_mono_pos_r; lia.
  - destruct (fint_ok v H) as (f & _ & Hf & Hv). exists f. split; [done|]. rewrite Hv. unfold metres.
    rewrite mult_IZR. change (IZR (2 ^ 149)) with (IZR (Zpower radix2 149)). rewrite IZR_Zpower by lia.
    rewrite Rmult_assoc, <-bpow_plus. change (bpow radix2 (149 + -149)) with 1. lra.
Qed.

Lemma pell_float : float_map plain_hypot (one true) (one false) pell_map.
Proof.
  split.
  - exact plain_hypot_good.
  - apply one_size.
  - apply one_size.
  - rewrite one_value. unfold Q2R. simpl. lra.
  - rewrite one_value. unfold Q2R. simpl. lra.
  - done.
  - intros p e [[_ Hv]|[_ Hv]]; injection Hv as ->; [|apply (metres_value (-1073741824)); vm_compute; congruence].
    unfold elev, pell_map, dm_cell. apply metres_value. unfold index_ok. destruct p as [x y]. cbn [fst snd].
    destruct x, y; vm_compute; congruence.
Qed.
Lemma pell_low : nodata_low pell_map.
Proof.
  intros v [x y] Hv _. injection Hv as <-. unfold elev, pell_map, dm_cell. cbn [fst snd].
  destruct x, y; vm_compute; reflexivity.
Qed.
Lemma pell_north : north_up pell_map.
Proof. repeat split; try reflexivity; intros H; discriminate H. Qed.
Lemma pell_choice : steepestNeighbor pell_map 1 0 = Ok (Some ((0, 0)%Z, metres (-33554426))).
Proof. vm_compute. reflexivity. Qed.
