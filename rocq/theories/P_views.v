(** Properties C56-C58: conversions and views, outlines of cells, windows of maps. *)
From Verif Require Import Base_model Raster_model Raster_spec Views_model Views_spec Views_proof Views_example.
Local Open Scope Z_scope.

(** C56.  A grid point turned into a spot elevation and back is the same grid point. *)
Theorem C56_conversion m p : north_up m -> spot_to_gp m (gp_to_spot m p) = Ok p.
Proof. exact (conversion m p). Qed.
Print Assumptions C56_conversion.

(** C56.  The grid points of a domain are its own points. *)
Theorem C56_grid_points m pts : on_map m pts -> sd_gridPoint m pts = Ok pts.
Proof. exact (gridPoint_view m pts). Qed.
Print Assumptions C56_grid_points.

(** C56.  The spot elevations of a domain are its points in order, each with the
    elevation of its cell and at a position that leads back to the cell. *)
Theorem C56_spot_elevations m pts :
  north_up m -> on_map m pts ->
  exists l, sd_spotElevation m pts = Ok l /\ length l = length pts /\
    forall i s p, l !! i = Some s -> pts !! i = Some p -> s.2 = elev m p.1 /\ spot_to_gp m s = Ok p.
Proof. exact (spot_view_facts m pts). Qed.
Print Assumptions C56_spot_elevations.

(** C56.  The positions of a flat area lead back to its cells, in order. *)
Theorem C56_flat_positions m pts : north_up m ->
  length (mp_pointsLatLong m pts) = length pts /\
  forall i q p, mp_pointsLatLong m pts !! i = Some q -> pts !! i = Some p -> latlong_to_xy m q.1 q.2 = Ok p.
Proof. exact (flat_positions m pts). Qed.
Print Assumptions C56_flat_positions.

Example C56_case :
  north_up view_map /\ on_map view_map [((1, 2), 7); ((2, 0), 9)] /\
  sd_gridPoint view_map [((1, 2), 7); ((2, 0), 9)] = Ok [((1, 2), 7); ((2, 0), 9)].
Proof.
  split; [repeat split; vm_compute; congruence|]. split; [|reflexivity].
  intros p. rewrite !elem_of_cons. intros [->|[->|H]]; [split; [split; vm_compute; split; congruence|reflexivity]..|].
  by apply elem_of_nil in H.
Qed.

(** C56.  The plain coordinates of a domain are its row and column numbers taken
    as latitude and longitude, in order; its plain grid points are the cells that
    these degrees lead to. *)
Theorem C56_base_views m pts : north_up m ->
  exists cells, sd_baseGridPoint m pts = Ok cells /\ length cells = length pts /\ length (sd_baseCoordinate pts) = length pts /\
    forall i p, pts !! i = Some p -> exists q c, sd_baseCoordinate pts !! i = Some q /\ cells !! i = Some c /\
      (q.1 == inject_Z p.1.1)%Q /\ (q.2 == inject_Z p.1.2)%Q /\ latlong_to_xy m q.1 q.2 = Ok c.
Proof. exact (base_views m pts). Qed.
Print Assumptions C56_base_views.

(** C56, last sentence: the two plain views do not describe the domain.  The
    coordinates are not the positions of the cells and the grid points are not
    its cells. *)
Theorem C56_base_views_refuted :
  exists m pts cells, north_up m /\ on_map m pts /\
    sd_baseCoordinate pts <> map (fun p : pte => xy_to_latlon m p.1.1 p.1.2) pts /\
    sd_baseGridPoint m pts = Ok cells /\ (forall c, c ∈ cells -> ~ in_map m c).
Proof.
  exists view_map, [((1, 2), 7)], [(86, 216)].
  split; [repeat split; vm_compute; congruence|]. split.
  { intros p. rewrite elem_of_list_singleton. intros ->. split; [split; vm_compute; split; congruence|reflexivity]. }
  split; [vm_compute; congruence|]. split; [reflexivity|].
  intros c. rewrite elem_of_list_singleton. intros ->. unfold in_map. intros [[_ H] _]. by vm_compute in H.
Qed.
Print Assumptions C56_base_views_refuted.

(** C57.  The outline of a cell has four corners and the cell's position inside. *)
Theorem C57_outline m x y : north_up m ->
  exists ring, point_geom m x y = Ok ring /\ length ring = 4%nat /\
    inside ring ((xy_to_latlon m x y).2, (xy_to_latlon m x y).1).
Proof. exact (geom_centre m x y). Qed.
Print Assumptions C57_outline.

(** C57.  Every position inside the outline of a cell is assigned to that cell. *)
Theorem C57_inside m x y ring lat lon :
  north_up m -> point_geom m x y = Ok ring -> inside ring (lon, lat) -> latlong_to_xy m lat lon = Ok (x, y).
Proof. exact (geom_inside m x y ring lat lon). Qed.
Print Assumptions C57_inside.

(** C57.  Every position lies in or on the outline of the cell it is assigned to. *)
Theorem C57_cover m x y lat lon :
  north_up m -> latlong_to_xy m lat lon = Ok (x, y) -> exists ring, point_geom m x y = Ok ring /\ within ring (lon, lat).
Proof. exact (geom_cover m x y lat lon). Qed.
Print Assumptions C57_cover.

(** C57.  Outlines of different cells do not overlap. *)
Theorem C57_disjoint m p q rp rq pos :
  north_up m -> point_geom m p.1 p.2 = Ok rp -> point_geom m q.1 q.2 = Ok rq -> inside rp pos -> inside rq pos -> p = q.
Proof. exact (geom_disjoint m p q rp rq pos). Qed.
Print Assumptions C57_disjoint.

(** C57.  The positions of all cells lie between the corners of the map, which are
    the positions of its four outermost cells. *)
Theorem C57_map_corners m x y : north_up m -> in_map m (x, y) ->
  amid (xy_to_latlon m x y).1 (upper_left m).1 (lower_left m).1 /\
  amid (xy_to_latlon m x y).1 (upper_right m).1 (lower_right m).1 /\
  amid (xy_to_latlon m x y).2 (upper_left m).2 (upper_right m).2 /\
  amid (xy_to_latlon m x y).2 (lower_left m).2 (lower_right m).2.
Proof. exact (corners_box m x y). Qed.
Print Assumptions C57_map_corners.

Theorem C57_corner_cells m : map_ok m ->
  exists p q r s, in_map m p /\ in_map m q /\ in_map m r /\ in_map m s /\
    upper_left m = xy_to_latlon m p.1 p.2 /\ lower_left m = xy_to_latlon m q.1 q.2 /\
    upper_right m = xy_to_latlon m r.1 r.2 /\ lower_right m = xy_to_latlon m s.1 s.2.
Proof.
  intros [Hx Hy]. exists (0, 0), (dm_max_x m, 0), (0, dm_max_y m), (dm_max_x m, dm_max_y m).
  unfold in_map. cbn [fst snd]. repeat split; (done || lia).
Qed.
Print Assumptions C57_corner_cells.

(** A cell at the corner of the map, where three of the four diagonal cells are
    outside: its outline is complete. *)
Example C57_case : exists ring,
  point_geom view_map 0 0 = Ok ring /\ inside ring (-6990 # 100, 4410 # 100)%Q.
Proof.
  destruct (C57_outline view_map 0 0) as (ring & H & _); [repeat split; vm_compute; congruence|].
  exists ring. split; [done|]. vm_compute in H. injection H as <-. right. intros a b.
  cbn [edges combine app]. rewrite !elem_of_cons.
  intros [[= -> ->]|[[= -> ->]|[[= -> ->]|[[= -> ->]|Hx]]]]; [vm_compute; reflexivity..|]. by apply elem_of_nil in Hx.
Qed.

(** C58.  A window of a map holds exactly the cells asked for, each with the value
    it has in the map. *)
Theorem C58_cells translate m x y xs ys :
  copies_window translate -> 0 <= x -> 0 <= y -> 0 < xs -> 0 < ys ->
  x + xs <= dm_max_x m + 1 -> y + ys <= dm_max_y m + 1 ->
  let s := dm_subset translate m x y xs ys in
  (forall i j, in_map s (i, j) <-> 0 <= i < xs /\ 0 <= j < ys) /\
  (forall i j, in_map s (i, j) -> in_map m (x + i, y + j) /\ dm_get s i j = dm_get m (x + i) (y + j)) /\
  (forall i j, data_cell s (i, j) <-> (0 <= i < xs /\ 0 <= j < ys) /\ data_cell m (x + i, y + j)).
Proof.
  intros HT Hx Hy Hxs Hys Hfx Hfy s. split; [|split].
  - exact (window_cells translate HT m x y xs ys Hx Hy Hxs Hys Hfx Hfy).
  - intros i j Hi. exact (proj1 (and_comm _ _) (window_read translate HT m x y xs ys Hx Hy Hxs Hys Hfx Hfy i j Hi)).
  - exact (window_data translate HT m x y xs ys Hx Hy Hxs Hys Hfx Hfy).
Qed.
Print Assumptions C58_cells.

(** C58.  Every cell of the window keeps its position on the ground. *)
Theorem C58_positions translate m x y xs ys i j :
  copies_window translate -> 0 <= x -> 0 <= y -> 0 < xs -> 0 < ys ->
  x + xs <= dm_max_x m + 1 -> y + ys <= dm_max_y m + 1 ->
  let s := dm_subset translate m x y xs ys in
  ((xy_to_latlon s i j).1 == (xy_to_latlon m (x + i) (y + j)).1)%Q /\
  ((xy_to_latlon s i j).2 == (xy_to_latlon m (x + i) (y + j)).2)%Q.
Proof.
  intros HT Hx Hy Hxs Hys Hfx Hfy. exact (window_position translate HT m x y xs ys Hx Hy Hxs Hys Hfx Hfy i j).
Qed.
Print Assumptions C58_positions.

(** C58.  A cell away from the border of the window has the neighbours it has in
    the map. *)
Theorem C58_neighbours translate m x y xs ys i j :
  copies_window translate -> 0 <= x -> 0 <= y -> 0 < xs -> 0 < ys ->
  x + xs <= dm_max_x m + 1 -> y + ys <= dm_max_y m + 1 ->
  1 <= i < xs - 1 -> 1 <= j < ys - 1 ->
  exists l, iterateFull (dm_subset translate m x y xs ys) i j = Ok l /\
    iterateFull m (x + i) (y + j) = Ok (map (fun n : xy * option Z => ((x + n.1.1, y + n.1.2), n.2)) l).
Proof.
  intros HT Hx Hy Hxs Hys Hfx Hfy. exact (window_neighbours translate HT m x y xs ys Hx Hy Hxs Hys Hfx Hfy i j).
Qed.
Print Assumptions C58_neighbours.

(** Two rows and three columns of the example map, starting at row 1, column 1. *)
Example C58_case : copies_window copy_window /\
  dm_get (dm_subset copy_window view_map 1 1 2 3) 1 2 = Ok 12 /\
  xy_to_latlon (dm_subset copy_window view_map 1 1 2 3) 0 0 = ((174 # 4), (-627 # 9))%Q.
Proof. split; [|split; vm_compute; reflexivity]. intros m c r cs rs _ _ _ _ _ _. cbn. repeat split; reflexivity. Qed.
