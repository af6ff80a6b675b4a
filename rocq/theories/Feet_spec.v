(** Independent description of elevations in feet. *)
From Verif Require Import Base_model Raster_model Float_model Slope_model Slope_spec Feet_model.
From Flocq Require Import Core BinarySingleNaN.
From Coq Require Import Reals.
Local Open Scope R_scope.

(** The elevation [z], in units of 2^-149, is a finite float32 number: it has at
    most 24 significant bits. *)
Definition float32_value (z : Z) : Prop := exists m e, (z = m * 2 ^ e /\ Z.abs m < 2 ^ 24 /\ 0 <= e <= 253)%Z.

(** An elevation in metres, and in feet: a foot is 0.3048 m. *)
Definition metres_of (z : Z) : R := IZR z * bpow radix2 (-149).
Definition feet_of (z : Z) : R := metres_of z * (10000 / 3048).

(** [f] is a number within [tolerance] of [x]. *)
Definition close_to (f : b64) (x tolerance : R) : Prop := is_finite f = true /\ Rabs (B2R f - x) <= tolerance.
