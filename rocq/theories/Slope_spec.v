(** Independent description of rasters whose slopes are compared in binary64. *)
From Verif Require Import Base_model Raster_model Raster_spec Float_model Slope_model.
From Flocq Require Import Core BinarySingleNaN.
From Coq Require Import Reals Qreals.
Local Open Scope R_scope.

(** The library function is accurate to four units in the last place away from
    overflow and underflow. *)
Definition good_hypot (hyp : b64 -> b64 -> b64) : Prop :=
  forall a b, is_finite a = true -> is_finite b = true ->
    let h := sqrt (B2R a * B2R a + B2R b * B2R b) in
    bpow radix2 (-400) <= h <= bpow radix2 401 ->
    is_finite (hyp a b) = true /\ Rabs (B2R (hyp a b) - h) <= bpow radix2 (-51) * h.

(** The elevation [z], in units of 2^-149, is a number below 2^128 that binary64
    has; all finite float32 numbers are. *)
Definition float_value (z : Z) : Prop :=
  (Z.abs z < 2 ^ 277)%Z /\ exists f : b64, is_finite f = true /\ B2R f = IZR z * bpow radix2 (-149).

(** A pixel size that is neither tiny nor huge. *)
Definition pixel_size (g : b64) : Prop :=
  is_finite g = true /\ bpow radix2 (-400) <= Rabs (B2R g) <= bpow radix2 400.

(** The raster has the float pixel sizes [g5] and [g1], float elevations, and
    compares slopes in binary64. *)
Record float_map (hyp : b64 -> b64 -> b64) (g5 g1 : b64) (m : datamap) : Prop := {
  fm_hypot : good_hypot hyp;
  fm_size5 : pixel_size g5;
  fm_size1 : pixel_size g1;
  fm_gt5 : Q2R (gt5 (dm_gt m)) = B2R g5;
  fm_gt1 : Q2R (gt1 (dm_gt m)) = B2R g1;
  fm_slope : forall dx dy pe e, dm_slope m dx dy pe e = f_slope hyp g5 g1 dx dy (f_ele pe) (f_ele e);
  fm_cells : forall p e, reported m p (Some e) -> float_value e }.

(** The slope to a cell [a] exceeds the slope to [b] by a factor of at most
    1 + 2^-49, compared as squares (cf. [slope_le]). *)
Definition nearly_le (e0 ea : Z) (ra : Q) (eb : Z) (rb : Q) : Prop :=
  (inject_Z ((ea - e0) * (ea - e0)) * rb <=
   (1 + (1 # 2 ^ 48)) * (inject_Z ((eb - e0) * (eb - e0)) * ra))%Q.
