(** Model of the conversions between cells and positions, of the views of summit
    domains and flat areas, of the outlines of cells and of map windows.
    Sources: pyprom/lib/locations/gridpoint.py, spot_elevation.py,
    pyprom/lib/containers/summit_domain.py, multipoint.py,
    pyprom/lib/datamaps/datamap.py. *)
From Verif Require Import Base_model Raster_model.
Local Open Scope Z_scope.

(** A position: latitude and longitude; a spot elevation: position and elevation. *)
Definition position : Type := Q * Q.
Definition spot : Type := position * Z.

(** locations/gridpoint.py:77-88 [toSpotElevation] *)
Definition gp_to_spot (m : datamap) (p : pte) : spot := (xy_to_latlon m p.1.1 p.1.2, p.2).
(** locations/spot_elevation.py:96-111 [toGridPoint] and 112-125 [toXYTuple] *)
Definition spot_to_gp (m : datamap) (s : spot) : res pte :=
  let* xy := latlong_to_xy m s.1.1 s.1.2 in Ok (xy, s.2).

(** summit_domain.py:109-117 [iterateBaseCoordinate], 60-70 [members]: the cell
    numbers are taken as degrees. *)
Definition sd_baseCoordinate (points : list pte) : list position :=
  map (fun p => (inject_Z p.1.1, inject_Z p.1.2)) points.
(** summit_domain.py:119-129 [iterateSpotElevation] *)
Definition sd_spotElevation (m : datamap) (points : list pte) : res (list spot) :=
  foldM (fun p acc => let* e := dm_get m p.1.1 p.1.2 in
                      Ok (acc ++ [(xy_to_latlon m p.1.1 p.1.2, e)])) points [].
(** summit_domain.py:131-140 [iterateBaseGridPoint]: the cell numbers are taken
    as degrees and converted to cells. *)
Definition sd_baseGridPoint (m : datamap) (points : list pte) : res (list xy) :=
  foldM (fun p acc => let* xy := latlong_to_xy m (inject_Z p.1.1) (inject_Z p.1.2) in Ok (acc ++ [xy])) points [].
(** summit_domain.py:142-153 [iterateGridPoint] *)
Definition sd_gridPoint (m : datamap) (points : list pte) : res (list pte) :=
  foldM (fun p acc => let* e := dm_get m p.1.1 p.1.2 in Ok (acc ++ [(p.1, e)])) points [].
(** multipoint.py:112-123 [pointsLatLong] *)
Definition mp_pointsLatLong (m : datamap) (points : list xy) : list position :=
  map (fun p => xy_to_latlon m p.1 p.2) points.

(** datamap.py:130-142 [point_geom]: the ring of corners, each (longitude,
    latitude). *)
Definition point_geom (m : datamap) (x y : Z) : res (list (Q * Q)) :=
  let '(local_lat, local_long) := xy_to_latlon m x y in
  let* ns := iterateDiagonal m x y in
  Ok (map (fun n : xy * option Z =>
             let '(remote_lat, remote_long) := xy_to_latlon m n.1.1 n.1.2 in
             ((local_long + remote_long) / 2, (local_lat + remote_lat) / 2)%Q) ns).

Section subset.
  (** [gdal.Translate] with [srcWin = [column, row, columns, rows]]. *)
  Variable translate : datamap -> Z -> Z -> Z -> Z -> datamap.
  (** datamap.py:106-128 [subset] *)
  Definition dm_subset (m : datamap) (x y x_span y_span : Z) : datamap :=
    let x_offset := y in
    let y_offset := x in
    let x_size := y_span in
    let y_size := x_span in
    translate m x_offset y_offset x_size y_size.
End subset.
