(** Independent vocabulary for outlines and windows. *)
From Verif Require Import Base_model Raster_model Raster_spec Views_model.
Local Open Scope Z_scope.

(** Twice the signed area of the triangle a, b, p. *)
Definition turn (a b p : Q * Q) : Q := ((b.1 - a.1) * (p.2 - a.2) - (b.2 - a.2) * (p.1 - a.1))%Q.
(** The edges of a ring of corners. *)
Definition edges (ring : list (Q * Q)) : list ((Q * Q) * (Q * Q)) :=
  match ring with [] => [] | a :: r => combine ring (r ++ [a]) end.
(** Inside, and inside or on the outline, of a ring that turns one way. *)
Definition inside (ring : list (Q * Q)) (p : Q * Q) : Prop :=
  (forall a b, (a, b) ∈ edges ring -> (0 < turn a b p)%Q) \/ (forall a b, (a, b) ∈ edges ring -> (turn a b p < 0)%Q).
Definition within (ring : list (Q * Q)) (p : Q * Q) : Prop :=
  (forall a b, (a, b) ∈ edges ring -> (0 <= turn a b p)%Q) \/ (forall a b, (a, b) ∈ edges ring -> (turn a b p <= 0)%Q).

(** [gdal.Translate] copies the window of [rows] x [columns] cells that starts at
    [row], [column], and moves the origin along. *)
Definition copies_window (translate : datamap -> Z -> Z -> Z -> Z -> datamap) : Prop :=
  forall m column row columns rows,
    0 <= row -> 0 <= column -> 0 < rows -> 0 < columns ->
    row + rows <= dm_max_x m + 1 -> column + columns <= dm_max_y m + 1 ->
    let t := translate m column row columns rows in
    dm_max_x t = rows - 1 /\ dm_max_y t = columns - 1 /\ dm_nodata t = dm_nodata m /\
    (forall i j, 0 <= i < rows -> 0 <= j < columns -> dm_cell t i j = dm_cell m (row + i) (column + j)) /\
    (gt0 (dm_gt t) == gt0 (dm_gt m) + inject_Z column * gt1 (dm_gt m) + inject_Z row * gt2 (dm_gt m))%Q /\
    (gt3 (dm_gt t) == gt3 (dm_gt m) + inject_Z column * gt4 (dm_gt m) + inject_Z row * gt5 (dm_gt m))%Q /\
    (gt1 (dm_gt t) == gt1 (dm_gt m))%Q /\ (gt2 (dm_gt t) == gt2 (dm_gt m))%Q /\
    (gt4 (dm_gt t) == gt4 (dm_gt m))%Q /\ (gt5 (dm_gt t) == gt5 (dm_gt m))%Q.

(** Every point of a domain is a cell of the map with its elevation. *)
Definition on_map (m : datamap) (points : list pte) : Prop :=
  forall p, p ∈ points -> in_map m p.1 /\ p.2 = elev m p.1.

(** Between two numbers, in either order. *)
Definition amid (a b c : Q) : Prop := (b <= a <= c)%Q \/ (c <= a <= b)%Q.
