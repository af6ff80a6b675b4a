(** Property C61: slopes in binary64 arithmetic. *)
From Flocq Require Import Core BinarySingleNaN.
From Coq Require Import Reals.
From Verif Require Import Base_model Raster_model Climb_model Climb_spec Float_model Slope_model Slope_spec
  Slope_proof Slope_example Raster_spec.
Local Open Scope Z_scope.

(** C61.  If slopes are compared in binary64 with a [math.hypot] accurate to four
    units in the last place, elevations are below 2^128 and pixel sizes are between
    2^-400 and 2^400, then the slope to a touching cell that is not lower can
    always be computed and is not negative.  So the theorems about climbing and
    about whole analyses (C20 to C25, C53, C54, C59, C60), which ask for
    [climbable], hold in binary64. *)
Theorem C61_slopes hyp g5 g1 m :
  float_map hyp g5 g1 m -> slopes_ok m /\ (nodata_low m -> climbable m).
Proof. intros H. pose proof (float_slopes_ok hyp g5 g1 m H). by repeat split. Qed.
Print Assumptions C61_slopes.

(** C61.  In such a raster [steepestNeighbor] answers for every cell.  It answers
    nothing only if all touching cells are lower.  Otherwise it answers a touching
    cell that is not lower, whose slope is the largest up to a factor of 1 + 2^-49,
    and that is strictly higher if any touching cell is. *)
Theorem C61_steepest hyp g5 g1 m x y :
  float_map hyp g5 g1 m -> north_up m -> in_map m (x, y) ->
  exists r, steepestNeighbor m x y = Ok r /\
    (r = None <-> forall q e, adj8 (x, y) q -> reported m q (Some e) -> e < elev m (x, y)) /\
    (forall q e, r = Some (q, e) ->
       adj8 (x, y) q /\ reported m q (Some e) /\ elev m (x, y) <= e /\
       (forall q' e', adj8 (x, y) q' -> reported m q' (Some e') -> elev m (x, y) <= e' ->
          nearly_le (elev m (x, y)) e' (ground2 m (x, y) q') e (ground2 m (x, y) q)) /\
       ((exists q' e', adj8 (x, y) q' /\ reported m q' (Some e') /\ elev m (x, y) < e') ->
          elev m (x, y) < e)).
Proof. intros H. exact (float_steepest hyp g5 g1 m H x y). Qed.
Print Assumptions C61_steepest.

Example C61_case :
  float_map plain_hypot (one true) (one false) pell_map /\ nodata_low pell_map /\ north_up pell_map /\
  in_map pell_map (1, 0) /\ steepestNeighbor pell_map 1 0 = Ok (Some ((0, 0), metres (-33554426))).
Proof.
  split; [exact pell_float|]. split; [exact pell_low|]. split; [exact pell_north|].
  split; [vm_compute; intuition congruence|]. exact pell_choice.
Qed.

(** C61.  The answer need not be the cell with the largest slope (contrast C03):
    with float32 elevations and pixels of size 1, a slope of
    131836323 / sqrt 2 > 93222358 is rounded to 93222358 and loses to an equal
    slope seen before it. *)
Theorem C61_exact_refuted : exists hyp g5 g1 m q e q' e',
  float_map hyp g5 g1 m /\ north_up m /\ in_map m (1, 0) /\ steepestNeighbor m 1 0 = Ok (Some (q, e)) /\
  adj8 (1, 0) q' /\ reported m q' (Some e') /\ elev m (1, 0) <= e' /\
  slope_lt (elev m (1, 0)) e (ground2 m (1, 0) q) e' (ground2 m (1, 0) q').
Proof.
  exists plain_hypot, (one true), (one false), pell_map, (0, 0), (metres (-33554426)), (0, 1), (metres 5059539).
  split; [exact pell_float|]. split; [exact pell_north|]. split; [vm_compute; intuition congruence|].
  split; [exact pell_choice|]. split; [vm_compute; intuition congruence|].
  split; [left; split; [vm_compute; intuition congruence|reflexivity]|]. split; [vm_compute; congruence|].
  vm_compute. reflexivity.
Qed.
Print Assumptions C61_exact_refuted.
