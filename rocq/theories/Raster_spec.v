(** Independent vocabulary for statements about rasters. *)
From Verif Require Import Base_model Raster_model.

(** Two different cells that touch along a side or a corner. *)
Definition adj8 (p q : xy) : Prop :=
  p <> q /\ Z.abs (p.1 - q.1) <= 1 /\ Z.abs (p.2 - q.2) <= 1.
(** Two cells that touch along a side. *)
Definition adj4 (p q : xy) : Prop :=
  Z.abs (p.1 - q.1) + Z.abs (p.2 - q.2) = 1.
(** Two cells that touch only at a corner. *)
Definition adjD (p q : xy) : Prop :=
  Z.abs (p.1 - q.1) = 1 /\ Z.abs (p.2 - q.2) = 1.

(** The cell lies in the array. *)
Definition in_map (m : datamap) (p : xy) : Prop :=
  0 <= p.1 <= dm_max_x m /\ 0 <= p.2 <= dm_max_y m.

Global Instance in_map_dec m p : Decision (in_map m p).
Proof. unfold in_map. apply _. Defined.
Global Instance adj8_dec p q : Decision (adj8 p q).
Proof. unfold adj8. apply _. Defined.

(** Stored value of a cell. *)
Definition elev (m : datamap) (p : xy) : Z := dm_cell m p.1 p.2.

(** The cell lies in the array and does not hold the nodata marker. *)
Definition data_cell (m : datamap) (p : xy) : Prop :=
  in_map m p /\ dm_nodata m <> Some (elev m p).
Global Instance data_cell_dec m p : Decision (data_cell m p).
Proof. unfold data_cell. apply _. Defined.

(** The cell lies on the border of the array. *)
Definition on_border (m : datamap) (p : xy) : Prop :=
  in_map m p /\ (p.1 = 0 \/ p.2 = 0 \/ p.1 = dm_max_x m \/ p.2 = dm_max_y m).

(** The array has at least one cell. *)
Definition map_ok (m : datamap) : Prop := 0 <= dm_max_x m /\ 0 <= dm_max_y m.

(** What a neighbour query reports for a cell: its value, or the marker outside. *)
Definition reported (m : datamap) (p : xy) (v : option Z) : Prop :=
  (in_map m p /\ v = Some (elev m p)) \/ (~ in_map m p /\ v = dm_nodata m).

(** [a] and [b] are linked by steps inside the set [S] along the relation [R]. *)
Inductive linked {A} (R : A -> A -> Prop) (S : A -> Prop) (a : A) : A -> Prop :=
  | linked_here : S a -> linked R S a a
  | linked_step b c : linked R S a b -> S c -> R b c -> linked R S a c.

(** Cells of equal height with data that touch. *)
Definition level_step (m : datamap) (p q : xy) : Prop :=
  adj8 p q /\ elev m p = elev m q.

(** The flat area of a cell: cells reachable through touching data cells of the
    same elevation. *)
Definition same_flat (m : datamap) (p q : xy) : Prop :=
  linked (level_step m) (data_cell m) p q.

(** [q] is a data cell strictly higher than, and touching, the flat area of [p]. *)
Definition higher_rim (m : datamap) (p q : xy) : Prop :=
  data_cell m q /\ elev m p < elev m q /\ exists c, same_flat m p c /\ adj8 c q.

(** Squared length between two geographic positions. *)
Definition geo_dist2 (a b : Q * Q) : Q :=
  ((a.1 - b.1) * (a.1 - b.1) + (a.2 - b.2) * (a.2 - b.2))%Q.

(** Slope from a point of height [e0] to a neighbour, compared exactly:
    [rise_a / run_a <= rise_b / run_b] for non-negative rises, cross-multiplied
    after squaring.  [ra], [rb] are squared runs. *)
Definition slope_le (e0 : Z) (ea : Z) (ra : Q) (eb : Z) (rb : Q) : Prop :=
  (inject_Z ((ea - e0) * (ea - e0)) * rb <= inject_Z ((eb - e0) * (eb - e0)) * ra)%Q.
Definition slope_lt (e0 : Z) (ea : Z) (ra : Q) (eb : Z) (rb : Q) : Prop :=
  (inject_Z ((ea - e0) * (ea - e0)) * rb < inject_Z ((eb - e0) * (eb - e0)) * ra)%Q.

(** The slopes that are compared are computed exactly (as squares). *)
Definition slopes_exact (m : datamap) : Prop :=
  forall dx dy pe e, dm_slope m dx dy pe e = exact_slope (dm_gt m) dx dy pe e.
(** The slopes to touching cells that are not lower can be computed and are not
    negative.  Nothing is said about rounding. *)
Definition slopes_ok (m : datamap) : Prop :=
  forall p q e, in_map m p -> adj8 p q -> reported m q (Some e) -> elev m p <= e ->
    exists s, dm_slope m (p.1 - q.1) (p.2 - q.2) (elev m p) e = Ok s /\ (0 <= s)%Q.

(** Squared ground distance between two cells. *)
Definition ground2 (m : datamap) (p q : xy) : Q :=
  geo_dist2 (xy_to_latlon m p.1 p.2) (xy_to_latlon m q.1 q.2).

(** A raster without rotation and with real pixels. *)
Definition north_up (m : datamap) : Prop :=
  (gt2 (dm_gt m) == 0)%Q /\ (gt4 (dm_gt m) == 0)%Q /\
  ~ (gt1 (dm_gt m) == 0)%Q /\ ~ (gt5 (dm_gt m) == 0)%Q.
