(** Independent description of moderate geotransforms in binary64. *)
From Verif Require Import Base_model Float_model.
From Flocq Require Import Core BinarySingleNaN.
From Coq Require Import Reals.
Local Open Scope R_scope.

(** Origin [a] and pixel size [b] along one axis: finite, the pixel size neither
    tiny nor huge, and the origin at most 2^48 pixels from zero. *)
Definition moderate (a b : b64) : Prop :=
  is_finite a = true /\ is_finite b = true /\
  bpow radix2 (-900) <= Rabs (B2R b) <= bpow radix2 900 /\
  Rabs (B2R a) <= bpow radix2 48 * Rabs (B2R b).

(** No rotation terms, moderate along both axes. *)
Definition f_north_up (g : f_geotransform) : Prop :=
  is_finite (fgt2 g) = true /\ B2R (fgt2 g) = 0 /\ is_finite (fgt4 g) = true /\ B2R (fgt4 g) = 0 /\
  moderate (fgt0 g) (fgt1 g) /\ moderate (fgt3 g) (fgt5 g).

(** A pixel index of at most 2^48. *)
Definition index_ok (z : Z) : Prop := (Z.abs z <= 2 ^ 48)%Z.
