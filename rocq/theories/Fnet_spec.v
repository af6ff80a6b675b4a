(** Independent description of the links of a saddle with rounded lengths. *)
From Verif Require Import Base_model Raster_model Network_model Closest_spec Raster_spec.
From Flocq Require Import Core.
From Coq Require Import Reals Qreals.

(** The link joins a point of group [e.1] to a point of group [e.2]; its length is
    theirs up to a factor 1 + 2^-50. *)
Definition joins_about (m : datamap) (hpn : list (list pte)) (l : vlink) (e : nat * nat) : Prop :=
  e.1 <> e.2 /\ exists g h p q, hpn !! e.1 = Some g /\ hpn !! e.2 = Some h /\ p ∈ g /\ q ∈ h /\
    vl_remote l = Some p /\ vl_local l = Some q /\
    let len := sqrt (Q2R (distance2 m (pt_xy p) (pt_xy q))) in
    (Rabs (sqrt (Q2R (vl_d2 l)) - len) <= bpow radix2 (-50) * len)%R.

(** The ends of the link are not farther apart than the two points, up to a factor
    1 + 2^-48 of the square, and with square pixels not at all. *)
Definition not_longer (m : datamap) (l : vlink) (t : (nat * nat) * (pte * pte)) : Prop :=
  forall p q, vl_remote l = Some p -> vl_local l = Some q ->
    (distance2 m (pt_xy p) (pt_xy q) <= (1 + (1 # 2 ^ 48)) * distance2 m (pt_xy t.2.1) (pt_xy t.2.2))%Q /\
    (square_pixels m -> (distance2 m (pt_xy p) (pt_xy q) <= distance2 m (pt_xy t.2.1) (pt_xy t.2.2))%Q).
