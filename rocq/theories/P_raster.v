(** Properties C01-C04: the raster layer. *)
From Verif Require Import Base_model Raster_model Raster_spec Raster_proof Raster_facts Off_map_proof Order_proof Example_maps.
Local Open Scope Z_scope.

(** C01.  The full iteration succeeds for every raster and coordinate and
    yields the eight adjacent cells, each once, clockwise from the one above,
    with the stored value inside the map and the nodata marker outside. *)
Theorem C01_iterate_full m x y :
  exists l, iterateFull m x y = Ok l /\ NoDup (map fst l) /\ length l = 8%nat /\
    (forall q v, (q, v) ∈ l <-> adj8 (x, y) q /\ reported m q v) /\
    map fst l = [(x - 1, y); (x - 1, y + 1); (x, y + 1); (x + 1, y + 1);
                 (x + 1, y); (x + 1, y - 1); (x, y - 1); (x - 1, y - 1)].
Proof. exact (full_exact m x y). Qed.
Print Assumptions C01_iterate_full.

Theorem C01_iterate_orthogonal m x y :
  exists l, iterateOrthogonal m x y = Ok l /\ NoDup (map fst l) /\ length l = 4%nat /\
    (forall q v, (q, v) ∈ l <-> adj4 (x, y) q /\ reported m q v) /\
    map fst l = [(x - 1, y); (x, y + 1); (x + 1, y); (x, y - 1)].
Proof. exact (orthogonal_order m x y). Qed.
Print Assumptions C01_iterate_orthogonal.

Theorem C01_iterate_diagonal m x y :
  exists l, iterateDiagonal m x y = Ok l /\ NoDup (map fst l) /\ length l = 4%nat /\
    (forall q v, (q, v) ∈ l <-> adjD (x, y) q /\ reported m q v) /\
    map fst l = [(x - 1, y + 1); (x + 1, y + 1); (x + 1, y - 1); (x - 1, y - 1)].
Proof. exact (diagonal_order m x y). Qed.
Print Assumptions C01_iterate_diagonal.

(** A corner of a raster: three neighbours inside, five outside. *)
Example C01_case :
  iterateFull map_a 0 4 =
  Ok [((-1, 4), Some (-99)); ((-1, 5), Some (-99)); ((0, 5), Some (-99)); ((1, 5), Some (-99));
      ((1, 4), Some 1); ((1, 3), Some 8); ((0, 3), Some 1); ((-1, 3), Some (-99))].
Proof. vm_compute. reflexivity. Qed.

(** C02.  Pixel -> latitude/longitude -> pixel is the identity without rotation. *)
Theorem C02_round_trip m x y :
  north_up m ->
  latlong_to_xy m (xy_to_latlon m x y).1 (xy_to_latlon m x y).2 = Ok (x, y).
Proof. exact (fun '(conj H2 (conj H4 (conj H1 H5))) => latlon_round_trip m x y H2 H4 H1 H5). Qed.
Print Assumptions C02_round_trip.

(** C02.  Asking for the elevation at a cell's position gives that cell's value. *)
Theorem C02_elevation_at_position m x y :
  north_up m -> in_map m (x, y) ->
  dm_elevation m (xy_to_latlon m x y).1 (xy_to_latlon m x y).2 = Ok (elev m (x, y)).
Proof. exact (latlon_elevation m x y). Qed.
Print Assumptions C02_elevation_at_position.

Example C02_case :
  north_up (row_map [[1; 2]; [3; 4]] None (GT (-70 # 1) (1 # 3600) 0 (44 # 1) 0 (- 1 # 3600))) /\
  in_map (row_map [[1; 2]; [3; 4]] None (GT (-70 # 1) (1 # 3600) 0 (44 # 1) 0 (- 1 # 3600))) (1, 1).
Proof. repeat split; vm_compute; congruence. Qed.

(** C02.  Beyond the last row or column asking for the elevation at a grid
    position fails.  Before the first one it fails only if the position is more than
    the size of the map away; otherwise it gives, without an error, the
    value of the cell that lies one map size further. *)
Theorem C02_off_map m x y : north_up m ->
  match dm_elevation m (xy_to_latlon m x y).1 (xy_to_latlon m x y).2 with
  | Ok e => exists i j, in_map m (i, j) /\ (x = i \/ x = i - (dm_max_x m + 1)) /\ (y = j \/ y = j - (dm_max_y m + 1)) /\ e = elev m (i, j)
  | Err e => e = IndexError /\ (x < - (dm_max_x m + 1) \/ dm_max_x m < x \/ y < - (dm_max_y m + 1) \/ dm_max_y m < y)
  end.
Proof. exact (off_map m x y). Qed.
Print Assumptions C02_off_map.

Example C02_off_map_case :
  let m := row_map [[1; 2]; [3; 4]] None (GT (-70 # 1) (1 # 3600) 0 (44 # 1) 0 (- 1 # 3600)) in
  north_up m /\ dm_elevation m (xy_to_latlon m (-1) 0).1 (xy_to_latlon m (-1) 0).2 = Ok 3 /\
  dm_elevation m (xy_to_latlon m 2 0).1 (xy_to_latlon m 2 0).2 = Err IndexError.
Proof. repeat split; vm_compute; congruence. Qed.

(** C02, last sentence: with a rotation term the round trip fails. *)
Theorem C02_rotation_refuted :
  exists m x y, in_map m (x, y) /\
    (~ gt1 (dm_gt m) == 0)%Q /\ (~ gt5 (dm_gt m) == 0)%Q /\
    latlong_to_xy m (xy_to_latlon m x y).1 (xy_to_latlon m x y).2 <> Ok (x, y).
Proof.
  exists (row_map [[1; 2]; [3; 4]] None (GT 0 1 1 0 0 1)), 1, 0.
  repeat split; vm_compute; congruence.
Qed.
Print Assumptions C02_rotation_refuted.

(** C03.  In exact arithmetic, among neighbours that are not lower the query
    returns one of maximal slope; nothing exactly when all are lower or absent; strictly higher if any
    neighbour is. *)
Theorem C03_steepest m x y :
  north_up m -> slopes_exact m -> in_map m (x, y) ->
  exists r, steepestNeighbor m x y = Ok r /\
    (r = None <-> forall q e, adj8 (x, y) q -> reported m q (Some e) -> e < elev m (x, y)) /\
    (forall q e, r = Some (q, e) ->
       adj8 (x, y) q /\ reported m q (Some e) /\ elev m (x, y) <= e /\
       (forall q' e', adj8 (x, y) q' -> reported m q' (Some e') -> elev m (x, y) <= e' ->
          slope_le (elev m (x, y)) e' (ground2 m (x, y) q') e (ground2 m (x, y) q)) /\
       ((exists q' e', adj8 (x, y) q' /\ reported m q' (Some e') /\ elev m (x, y) < e') ->
          elev m (x, y) < e)).
Proof. exact (steepest_exact m x y). Qed.
Print Assumptions C03_steepest.

(** C03.  The result is the first neighbour of maximal slope in iteration order. *)
Theorem C03_steepest_first m x y q e :
  north_up m -> slopes_exact m -> in_map m (x, y) -> steepestNeighbor m x y = Ok (Some (q, e)) ->
  exists l i, iterateFull m x y = Ok l /\ l !! i = Some (q, Some e) /\
    forall j q' e', (j < i)%nat -> l !! j = Some (q', Some e') -> elev m (x, y) <= e' ->
      slope_lt (elev m (x, y)) e' (ground2 m (x, y) q') e (ground2 m (x, y) q).
Proof. exact (steepest_first m x y q e). Qed.
Print Assumptions C03_steepest_first.

Example C03_case :
  north_up map_a /\ slopes_exact map_a /\ in_map map_a (1, 2) /\ steepestNeighbor map_a 1 2 = Ok (Some (1, 1, 9)).
Proof. repeat split; vm_compute; congruence. Qed.

(** C03, last sentence: the result may lie outside the map. *)
Theorem C03_off_map_refuted :
  exists m x y q e, north_up m /\ slopes_exact m /\ in_map m (x, y) /\
    steepestNeighbor m x y = Ok (Some (q, e)) /\ ~ in_map m q.
Proof.
  exists (row_map [[1; 2]; [3; 4]] (Some 32767) unit_gt), 0, 0, (-1, 0), 32767.
  repeat split; try (vm_compute; congruence). intros [[H _] _]. vm_compute in H. congruence.
Qed.
Print Assumptions C03_off_map_refuted.

(** C04.  The map distance (given by its square) is symmetric, non-negative and
    zero only on the diagonal. *)
Theorem C04_distance_metric m :
  (~ gt1 (dm_gt m) == 0)%Q -> (~ gt5 (dm_gt m) == 0)%Q ->
  (forall a b, (distance2 m a b == distance2 m b a)%Q) /\
  (forall a b, (0 <= distance2 m a b)%Q) /\
  (forall a b, (distance2 m a b == 0)%Q <-> a = b).
Proof. exact (distance_metric m). Qed.
Print Assumptions C04_distance_metric.

(** C04.  Triangle inequality, in squared form. *)
Theorem C04_distance_triangle m a b c :
  (0 <= distance2 m a c - distance2 m a b - distance2 m b c ->
   (distance2 m a c - distance2 m a b - distance2 m b c) *
   (distance2 m a c - distance2 m a b - distance2 m b c)
   <= 4 * distance2 m a b * distance2 m b c)%Q.
Proof. exact (distance_triangle_sq m a b c). Qed.
Print Assumptions C04_distance_triangle.

(** C04.  The map distance is the distance of the geographic positions for all
    pairs of cells exactly when the pixels are square. *)
Theorem C04_distance_geographic m :
  north_up m ->
  (forall a b, (distance2 m a b == ground2 m a b)%Q) <->
  (gt1 (dm_gt m) * gt1 (dm_gt m) == gt5 (dm_gt m) * gt5 (dm_gt m))%Q.
Proof. exact (distance_geographic_iff m). Qed.
Print Assumptions C04_distance_geographic.

(** Both kinds of raster exist. *)
Example C04_case_square : north_up map_a /\
  (gt1 (dm_gt map_a) * gt1 (dm_gt map_a) == gt5 (dm_gt map_a) * gt5 (dm_gt map_a))%Q.
Proof. repeat split; vm_compute; congruence. Qed.
Example C04_case_oblong :
  exists m, north_up m /\ ~ (distance2 m (1, 0)%Z (0, 0)%Z == ground2 m (1, 0)%Z (0, 0)%Z)%Q.
Proof.
  exists (row_map [[1; 2]; [3; 4]] None (GT 0 2 0 0 0 (-1))).
  repeat split; vm_compute; congruence.
Qed.
