(** Concrete maps and a window function for the examples. *)
From Verif Require Import Base_model Raster_model Raster_spec Example_maps Views_model Views_spec.
Local Open Scope Z_scope.

(** Three rows of four cells, one third of a degree wide and half a degree high. *)
Definition view_map : datamap :=
  row_map [[1; 2; 3; 4]; [5; 6; 7; 8]; [9; 10; 11; 12]] None (GT (-70 # 1) (1 # 3) 0 (44 # 1) 0 (-1 # 2)).
(** The window that [gdal.Translate] copies. *)
Definition copy_window (m : datamap) (column row columns rows : Z) : datamap :=
  let g := dm_gt m in
  DM (rows - 1) (columns - 1) (fun i j => dm_cell m (row + i) (column + j)) (dm_nodata m)
     (GT (gt0 g + inject_Z column * gt1 g + inject_Z row * gt2 g) (gt1 g) (gt2 g)
         (gt3 g + inject_Z column * gt4 g + inject_Z row * gt5 g) (gt4 g) (gt5 g))
     (dm_slope m).
