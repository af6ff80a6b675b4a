(** Model of the raster layer:
    /repo/pyprom/lib/datamaps/base_datamap.py and
    /repo/pyprom/lib/datamaps/datamap.py. *)
From Verif Require Export Base_model.

(** GDAL geotransform, datamap.py:42 and :60.  Simplification: exact rationals
    instead of binary64. *)
Record geotransform := GT { gt0 : Q; gt1 : Q; gt2 : Q; gt3 : Q; gt4 : Q; gt5 : Q }.

(** The attributes of a DataMap that the algorithms read (datamap.py:41-66):
    array shape, cell values, nodata marker and geotransform.
    Elevations are integers: every finite binary64 (hence float32) value is an
    integer multiple of 2^-1074, so multiplying by 2^1074 embeds the values in
    [Z] and preserves comparisons.  NaN and infinities are not modelled.
    [dm_cell] is only meaningful inside the shape.
    [dm_slope m dx dy pe e] is what line 121 of base_datamap.py computes for two
    cells that are [dx] rows and [dy] columns apart and have the elevations [pe]
    and [e]; it depends on the arithmetic, which is left open here.  Since slopes
    are only compared with each other and with numbers below zero, any
    order-preserving image of non-negative slopes will do. *)
Record datamap := DM {
  dm_max_x : Z;
  dm_max_y : Z;
  dm_cell : Z -> Z -> Z;
  dm_nodata : option Z;
  dm_gt : geotransform;
  dm_slope : Z -> Z -> Z -> Z -> res Q }.

(** base_datamap.py:34-41 *)
Definition FULL_SHIFT_LIST : list (Z * Z) :=
  [(-1, 0); (-1, 1); (0, 1); (1, 1); (1, 0); (1, -1); (0, -1); (-1, -1)].
(** base_datamap.py:42-44 *)
Definition ORTHOGONAL_SHIFT_LIST : list (Z * Z) :=
  [(-1, 0); (0, 1); (1, 0); (0, -1)].
(** base_datamap.py:45-47 *)
Definition DIAGONAL_SHIFT_LIST : list (Z * Z) :=
  [(-1, 1); (1, 1); (1, -1); (-1, -1)].

(** base_datamap.py:52-53 [coord_inbounds] *)
Definition coord_inbounds (m : datamap) (x y : Z) : bool :=
  ((0 <=? x) && (x <=? dm_max_x m)) && ((0 <=? y) && (y <=? dm_max_y m)).

(** numpy integer indexing on one axis of length [max + 1]: negative indices
    count from the end, anything else out of range raises IndexError. *)
Definition np_index (mx i : Z) : res Z :=
  if (0 <=? i) && (i <=? mx) then Ok i
  else if (i <? 0) && (- (mx + 1) <=? i) then Ok (i + (mx + 1))
  else Err IndexError.

(** [self.numpy_array[x, y]] *)
Definition np_read (m : datamap) (x y : Z) : res Z :=
  let* i := np_index (dm_max_x m) x in
  let* j := np_index (dm_max_y m) y in
  Ok (dm_cell m i j).

(** The common body of the three generators, base_datamap.py:64-70, 81-87,
    98-104.  The generator is modelled by the list of yielded values; the
    array read is guarded by [coord_inbounds] but still goes through numpy
    indexing. *)
Fixpoint iterate_shifts (m : datamap) (x y : Z) (shifts : list (Z * Z)) :
    res (list (xy * option Z)) :=
  match shifts with
  | [] => Ok []
  | (dx, dy) :: rest =>
      let _x := x + dx in
      let _y := y + dy in
      let* v :=
        (if coord_inbounds m _x _y
         then let* e := np_read m _x _y in Ok (Some e)
         else Ok (dm_nodata m)) in
      let* tl := iterate_shifts m x y rest in
      Ok (((_x, _y), v) :: tl)
  end.

(** base_datamap.py:55-70 *)
Definition iterateFull (m : datamap) (x y : Z) := iterate_shifts m x y FULL_SHIFT_LIST.
(** base_datamap.py:72-87 *)
Definition iterateOrthogonal (m : datamap) (x y : Z) := iterate_shifts m x y ORTHOGONAL_SHIFT_LIST.
(** base_datamap.py:89-104 *)
Definition iterateDiagonal (m : datamap) (x y : Z) := iterate_shifts m x y DIAGONAL_SHIFT_LIST.

(** base_datamap.py:137-144 [get] *)
Definition dm_get (m : datamap) (x y : Z) : res Z := np_read m x y.

(** base_datamap.py:146-150 [is_map_edge] *)
Definition is_map_edge (m : datamap) (x y : Z) : bool :=
  (x =? 0) || (y =? 0) || (x =? dm_max_x m) || (y =? dm_max_y m).

(** The square of [hypot(a, b)].  All uses compare lengths of the same kind, so
    comparing squares is equivalent to comparing exact lengths. *)
Definition hypot2 (a b : Q) : Q := a * a + b * b.

(** base_datamap.py:121 in exact arithmetic, for a neighbour that is not lower:
    the square of [(elevation - point_elevation) / hypot(...)].  Division by zero
    is reported as the Python exception. *)
Definition exact_slope (g : geotransform) (dx dy pe e : Z) : res Q :=
  let d2 := hypot2 (inject_Z dx * gt5 g) (inject_Z dy * gt1 g) in
  if Qeq_bool d2 0 then Err ZeroDivisionError
  else Ok (inject_Z ((e - pe) * (e - pe)) / d2)%Q.

(** base_datamap.py:118-126, the loop of [steepestNeighbor].  [None] stands for
    the initial [steepest_slope = -1] / [steepest_neighbor = None]: a slope is
    taken (line 122-123) if it is not negative. *)
Fixpoint steepest_loop (m : datamap) (x y pe : Z) (ns : list (xy * option Z))
    (best : option (pte * Q)) : res (option (pte * Q)) :=
  match ns with
  | [] => Ok best
  | ((_x, _y), oe) :: rest =>
      match oe with
      | None => steepest_loop m x y pe rest best
      | Some e =>
          if e <? pe then steepest_loop m x y pe rest best
          else
            let* s := dm_slope m (x - _x) (y - _y) pe e in
            let better :=
              match best with
              | None => Qle_bool 0 s
              | Some (_, s0) => negb (Qle_bool s s0)
              end in
            if better then steepest_loop m x y pe rest (Some ((_x, _y, e), s))
            else steepest_loop m x y pe rest best
      end
  end.

(** base_datamap.py:106-127 [steepestNeighbor] *)
Definition steepestNeighbor (m : datamap) (x y : Z) : res (option pte) :=
  let* pe := dm_get m x y in
  let* ns := iterateFull m x y in
  let* r := steepest_loop m x y pe ns None in
  Ok (fst <$> r).

(** base_datamap.py:129-135 [distance], squared. *)
Definition distance2 (m : datamap) (us them : xy) : Q :=
  hypot2 (inject_Z (us.1 - them.1) * gt1 (dm_gt m))
         (inject_Z (us.2 - them.2) * gt5 (dm_gt m)).

(** datamap.py:76-84 [xy_to_latlon] *)
Definition xy_to_latlon (m : datamap) (x y : Z) : Q * Q :=
  let g := dm_gt m in
  let lon := (gt0 g + inject_Z y * gt1 g + inject_Z x * gt2 g)%Q in
  let lat := (gt3 g + inject_Z y * gt4 g + inject_Z x * gt5 g)%Q in
  (lat, lon).

(** Python 3 [round(q)] with one argument: nearest integer, ties to even. *)
Definition py_round (q : Q) : Z :=
  let f := Qfloor q in
  let d := (q - inject_Z f)%Q in
  if Qle_bool (1 # 2) d
  then if Qeq_bool d (1 # 2) then (if Z.even f then f else f + 1) else f + 1
  else f.

(** datamap.py:86-94 [latlong_to_xy] *)
Definition latlong_to_xy (m : datamap) (lat lon : Q) : res (Z * Z) :=
  let g := dm_gt m in
  if Qeq_bool (gt1 g) 0 then Err ZeroDivisionError
  else
    let numpy_y := py_round ((lon - gt0 g) / gt1 g) in
    if Qeq_bool (gt5 g) 0 then Err ZeroDivisionError
    else
      let numpy_x := py_round ((lat - gt3 g) / gt5 g) in
      Ok (numpy_x, numpy_y).

(** datamap.py:96-104 [elevation] *)
Definition dm_elevation (m : datamap) (lat lon : Q) : res Z :=
  let* xy := latlong_to_xy m lat lon in
  dm_get m xy.1 xy.2.

(** datamap.py:144-158, the corner properties. *)
Definition upper_left (m : datamap) := xy_to_latlon m 0 0.
Definition lower_left (m : datamap) := xy_to_latlon m (dm_max_x m) 0.
Definition upper_right (m : datamap) := xy_to_latlon m 0 (dm_max_y m).
Definition lower_right (m : datamap) := xy_to_latlon m (dm_max_x m) (dm_max_y m).
