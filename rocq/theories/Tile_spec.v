(** Independent description of a raster that shows a part of another one. *)
From Verif Require Import Base_model Raster_model Analyze_model Feature_spec Raster_spec.
Local Open Scope Z_scope.

(** The cell, the point and the cell moved back by the offset [o]. *)
Definition shift (o p : xy) : xy := (p.1 + o.1, p.2 + o.2).
Definition shift_back (o p : xy) : xy := (p.1 - o.1, p.2 - o.2).
Definition shift_pt (o : xy) (z : pte) : pte := (shift o (pt_xy z), pt_e z).

(** [t] shows the part of [m] that starts at the cell [o]: every cell of [t]
    holds the value of the cell of [m] it stands on.  Cells of [t] beyond the
    border of [m] must hold the nodata marker, and the markers may differ. *)
Record tile (o : xy) (m t : datamap) : Prop := {
  tile_data : forall q, in_map t q -> (data_cell t q <-> data_cell m (shift o q));
  tile_elev : forall q, data_cell t q -> elev t q = elev m (shift o q) }.

(** The cell is in the array and all its eight neighbours are too. *)
Definition inner_cell (t : datamap) (p : xy) : Prop :=
  0 < p.1 < dm_max_x t /\ 0 < p.2 < dm_max_y t.

(** The feature of the large raster lies in the tile and does not touch its border. *)
Definition inside_tile (o : xy) (t : datamap) (f : feature) : Prop :=
  forall c, covers f c -> inner_cell t (shift_back o c).

(** The feature [f'] of the tile is the feature [f] of the large raster: the
    same position, elevation, cells and pieces of higher ground. *)
Record same_place (o : xy) (f' f : feature) : Prop := {
  sp_pos : shift o (ft_pos f') = ft_pos f;
  sp_ele : ft_ele f' = ft_ele f;
  sp_cells : forall c, covers f' c <-> covers f (shift o c);
  sp_pieces : forall g, g ∈ ft_hpn f' -> exists h, h ∈ ft_hpn f /\
    forall z, z ∈ g <-> shift_pt o z ∈ h;
  sp_pieces_back : forall h, h ∈ ft_hpn f -> exists g, g ∈ ft_hpn f' /\
    forall z, z ∈ g <-> shift_pt o z ∈ h }.

(** The part of [m] from cell [o] with largest indices [w] and [h]. *)
Definition cut_out (o : xy) (w h : Z) (m : datamap) : datamap :=
  DM w h (fun x y => dm_cell m (x + o.1) (y + o.2)) (dm_nodata m) (dm_gt m) (dm_slope m).

(** [m] with a frame of nodata cells, one cell wide. *)
Definition framed (v : Z) (m : datamap) : datamap :=
  DM (dm_max_x m + 2) (dm_max_y m + 2)
     (fun x y => if decide (in_map m (x - 1, y - 1)) then dm_cell m (x - 1) (y - 1) else v)
     (Some v) (dm_gt m) (dm_slope m).
