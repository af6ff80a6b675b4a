(** Concrete rasters used to show that hypotheses are met and to exhibit
    counterexamples. *)
From Verif Require Import Base_model Raster_model Raster_spec.

Definition unit_gt : geotransform := GT 0 1 0 0 0 (-1).
Definition row_map (rows : list (list Z)) (nodata : option Z) (g : geotransform) : datamap :=
  DM (Z.of_nat (length rows) - 1) (Z.of_nat (length (default [] (head rows))) - 1)
     (fun x y => default 0 (default [] (rows !! Z.to_nat x) !! Z.to_nat y)) nodata g (exact_slope g).
Lemma row_map_exact rows nodata g : slopes_exact (row_map rows nodata g).
Proof. done. Qed.

(** Two summits, a saddle between them and a nodata cell. *)
Definition map_a : datamap :=
  row_map [[1; 1; 1; 1; 1];
           [1; 9; 4; 8; 1];
           [1; 2; 2; 2; 1];
           [1; -99; 1; 1; 1]] (Some (-99)) unit_gt.

(** A flat area touching the border next to a higher rim. *)
Definition map_b : datamap :=
  row_map [[5; 5; 7];
           [3; 5; 6];
           [5; 3; 5]] (Some (-99)) unit_gt.

(** A plateau, a border flat area that drains both ways and a corner peak. *)
Definition map_c : datamap :=
  row_map [[3; 5; 5; 2];
           [4; 9; 9; 4];
           [4; 4; 7; 4];
           [1; 1; 1; 8]] (Some (-1)) unit_gt.
