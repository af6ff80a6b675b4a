(** Independent description of searches for nearest points in binary64. *)
From Verif Require Import Base_model Raster_model Raster_spec Analyze_model Closest_model Float_model Slope_spec.
From Flocq Require Import Core BinarySingleNaN.
From Coq Require Import Reals Qreals.
Local Open Scope R_scope.

(** The length of nothing is zero. *)
Definition exact_at_zero (hyp : b64 -> b64 -> b64) : Prop :=
  forall a b, is_finite a = true -> is_finite b = true -> B2R a = 0 -> B2R b = 0 ->
    is_finite (hyp a b) = true /\ B2R (hyp a b) = 0.

(** A pixel size that is neither tiny nor huge. *)
Definition usual_size (g : b64) : Prop :=
  is_finite g = true /\ bpow radix2 (-300) <= Rabs (B2R g) <= bpow radix2 300.

(** A cell of a raster with at most 2^22 rows and columns. *)
Definition usual_cell (p : xy) : Prop := (0 <= p.1 < 2 ^ 22 /\ 0 <= p.2 < 2 ^ 22)%Z.
Definition usual_cells (l : list pte) : Prop := forall p, p ∈ l -> usual_cell (pt_xy p).

(** The float [d] is the length [h] up to a factor 1 + 2^-50. *)
Definition length_of (d : b64) (h : R) : Prop :=
  is_finite d = true /\ Rabs (B2R d - h) <= bpow radix2 (-50) * h.

(** On usual cells the tree returns the index of a nearest point and its distance, up to
    rounding. *)
Definition good_tree (kd : list xy -> xy -> nat * b64) : Prop :=
  forall pts q, pts <> [] -> (forall p, p ∈ pts -> usual_cell p) -> usual_cell q -> exists p, pts !! (kd pts q).1 = Some p /\
    (forall p', p' ∈ pts -> (pixel2 p q <= pixel2 p' q)%Q) /\
    is_finite (kd pts q).2 = true /\
    Rabs (B2R (kd pts q).2 - sqrt (Q2R (pixel2 p q))) <= bpow radix2 (-51) * sqrt (Q2R (pixel2 p q)).

(** The float [t] is half the integer [k], a coordinate between usual cells. *)
Definition half_way (t : b64) (k : Z) : Prop :=
  is_finite t = true /\ B2R t = IZR k / 2 /\ (0 <= k < 2 ^ 23)%Z.
