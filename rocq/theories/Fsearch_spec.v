(** Rasters and library functions for which the analysis runs in binary64. *)
From Verif Require Import Base_model Raster_model Closest_model Float_model Slope_spec Near_spec Raster_spec.
From Flocq Require Import Core BinarySingleNaN.
From Coq Require Import Reals Qreals.

(** A raster with at most 2^22 rows and columns, pixel sizes [g1] and [g5] that are
    floats of usual magnitude, and every two cells nearer than 2^62 metres. *)
Record float_raster (m : datamap) (g1 g5 : b64) : Prop := {
  fr_rows : (dm_max_x m < 2 ^ 22)%Z;
  fr_cols : (dm_max_y m < 2 ^ 22)%Z;
  fr_g1 : Q2R (gt1 (dm_gt m)) = B2R g1;
  fr_g5 : Q2R (gt5 (dm_gt m)) = B2R g5;
  fr_usual1 : usual_size g1;
  fr_usual5 : usual_size g5;
  fr_reach : forall p q, in_map m p -> in_map m q -> (distance2 m p q < inject_Z (2 ^ 124))%Q }.

(** The library: [math.hypot] and the tree of scipy. *)
Record float_library (hyp : b64 -> b64 -> b64) (kd : list xy -> xy -> nat * b64) : Prop := {
  fl_hypot : good_hypot hyp;
  fl_zero : exact_at_zero hyp;
  fl_tree : good_tree kd }.
