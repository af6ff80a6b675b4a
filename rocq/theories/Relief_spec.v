(** Rasters whose cells are in the same order of height. *)
From Verif Require Import Base_model Raster_model Raster_spec Analyze_model.
Local Open Scope Z_scope.

(** The same shape, the same cells with data, and of two cells with data the same
    one is higher. *)
Record same_relief (m1 m2 : datamap) : Prop := {
  sr_x : dm_max_x m1 = dm_max_x m2;
  sr_y : dm_max_y m1 = dm_max_y m2;
  sr_data : forall p, data_cell m1 p <-> data_cell m2 p;
  sr_less : forall p q, data_cell m1 p -> data_cell m1 q -> (elev m1 p < elev m1 q <-> elev m2 p < elev m2 q) }.

(** The same point, feature, with the elevations of the raster [m]. *)
Definition releveled (m : datamap) (z : pte) : pte := (pt_xy z, elev m (pt_xy z)).
Definition relevel (m : datamap) (f : feature) : feature :=
  Feat (ft_kind f) (ft_pos f) (elev m (ft_pos f))
    (map (fun z : mpoint => (z.1, match z.2 with Some _ => Some (elev m z.1) | None => None end)) (ft_multi f))
    (ft_edge f) (map (releveled m) (ft_edgepts f)) (map (map (releveled m)) (ft_hpn f)).

(** The raster with every value [e] replaced by [g e], the marker included. *)
Definition regrade (g : Z -> Z) (m : datamap) : datamap :=
  DM (dm_max_x m) (dm_max_y m) (fun x y => g (dm_cell m x y)) (g <$> dm_nodata m) (dm_gt m) (dm_slope m).
