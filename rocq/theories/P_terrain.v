(** Properties C53-C54: the analysis and the terrain. *)
From Verif Require Import Run_model Walk_model Raster_spec Closest_spec Feature_spec Network_spec Climb_spec Graph_spec
  Walk_spec Basin_model Basin_spec Terrain_spec Run_spec Terrain_proof Run_proof Divide_model Climb_facts Closest_proof Walk_example
  Run_example.
Local Open Scope Z_scope.

(** C53.  After discovery and walk, two summits are joined by saddles of
    elevation at least [e] that are not disqualified if and only if their cells
    are joined by cells of elevation at least [e]. *)
Theorem C53_connected fpath fp orc near m su sa ru d s x f a y g b e :
  mpaths_found fpath m -> sound_searches near m -> map_ok m -> north_up m -> climbable m ->
  pixels_in_reach m -> map_in_reach m -> paths_found fp m -> fine_grid m ->
  run_no_rebuild fp orc m = Ok (su, sa, ru) -> dm_run_sparse fpath fp orc near m = Ok (d, s) ->
  su !! x = Some f -> covers f a -> su !! y = Some g -> covers g b -> e <= elev m a -> e <= elev m b ->
  joined (mp_world d) (fun i => e <= ele_at (mp_world d) (Sad i)) x y <-> ground_joined m e a b.
Proof.
  intros H1 H2 H3 H4 H5 H6 H7 H8 H9 Hr Hd Hx Ha Hy Hb.
  rewrite (sparse_walk fpath fp orc near m su sa ru Hr) in Hd.
  apply (terrain fpath fp orc near m H1 H2 H3 H4 H5 H6 H7 H8 H9 su sa ru _ d s Hr (started_found fp orc m H3 H8 su sa ru Hr) Hd);
    [by exists f|by exists g].
Qed.
Print Assumptions C53_connected.

(** C53.  A summit is joined in this way to a higher one if and only if cells of
    elevation at least [e] lead from it to a higher cell: the key saddles of the
    graph are at the elevations of those of the terrain. *)
Theorem C53_higher fpath fp orc near m su sa ru d s x f a e :
  mpaths_found fpath m -> sound_searches near m -> map_ok m -> north_up m -> climbable m ->
  pixels_in_reach m -> map_in_reach m -> paths_found fp m -> fine_grid m ->
  run_no_rebuild fp orc m = Ok (su, sa, ru) -> dm_run_sparse fpath fp orc near m = Ok (d, s) ->
  su !! x = Some f -> covers f a -> e <= elev m a ->
  (exists y g, su !! y = Some g /\ ft_ele f < ft_ele g /\
     joined (mp_world d) (fun i => e <= ele_at (mp_world d) (Sad i)) x y) <->
  (exists c, elev m a < elev m c /\ ground_joined m e a c).
Proof.
  intros H1 H2 H3 H4 H5 H6 H7 H8 H9 Hr Hd Hx Ha He.
  rewrite (sparse_walk fpath fp orc near m su sa ru Hr) in Hd.
  rewrite <-(terrain_higher fpath fp orc near m H1 H2 H3 H4 H5 H6 H7 H8 H9 su sa ru _ d s Hr (started_found fp orc m H3 H8 su sa ru Hr) Hd x a e);
    [|by exists f|done].
  destruct (summit_levels fp orc m H3 H8 su sa ru Hr) as [L1 L2]. split.
  - intros (y & g & Hy & Hlt & HJ). destruct (L2 y g Hy) as [b Hb]. exists y, b. split; [by exists g|].
    split; [|done]. rewrite <-(L1 x f a Hx Ha), <-(L1 y g b Hy Hb). done.
  - intros (y & b & (g & Hy & Hb) & Hlt & HJ). exists y, g. split; [done|]. split; [|done].
    by rewrite (L1 x f a Hx Ha), (L1 y g b Hy Hb).
Qed.
Print Assumptions C53_higher.

Example C53_case :
  mpaths_found fpath_ends loop_map /\ sound_searches search0 loop_map /\ map_ok loop_map /\ north_up loop_map /\
  climbable loop_map /\ pixels_in_reach loop_map /\ map_in_reach loop_map /\ paths_found fp_unit0 loop_map /\
  fine_grid loop_map /\
  exists su sa ru d s f g, run_no_rebuild fp_unit0 orc_id loop_map = Ok (su, sa, ru) /\
    dm_run_sparse fpath_ends fp_unit0 orc_id search0 loop_map = Ok (d, s) /\
    su !! 0%nat = Some f /\ covers f (2, 1) /\ su !! 1%nat = Some g /\ covers g (2, 3) /\
    5 <= elev loop_map (2, 1) /\ 5 <= elev loop_map (2, 3).
Proof.
  destruct loop_usable as (H1 & H2 & H3 & H4 & H5 & H6 & H7 & H8 & H9). do 9 (split; [assumption|]).
  eexists _, _, _, _, _, _, _. split; [vm_compute; reflexivity|]. split; [vm_compute; reflexivity|].
  split; [reflexivity|]. split; [left; split; reflexivity|]. split; [reflexivity|]. split; [left; split; reflexivity|]. split; by vm_compute.
Qed.

(** C54.  A walked map is fit for basin saddle detection, provided that of two
    listed saddles at the same place leading to the same summit neither is a
    child of a border saddle. *)
Theorem C54_fit fpath fp orc near m su sa ru d s :
  mpaths_found fpath m -> sound_searches near m -> map_ok m -> north_up m -> climbable m ->
  pixels_in_reach m -> map_in_reach m -> paths_found fp m -> fine_grid m ->
  run_no_rebuild fp orc m = Ok (su, sa, ru) -> dm_run_sparse fpath fp orc near m = Ok (d, s) ->
  border_apart m (mp_world d) (mp_saddles d) ->
  basin_graph m (mp_world d) (mp_saddles d) /\ no_override (mp_world d).
Proof.
  intros H1 H2 H3 H4 H5 H6 H7 H8 H9 Hr Hd Hap. rewrite (sparse_walk fpath fp orc near m su sa ru Hr) in Hd.
  pose proof (started_found fp orc m H3 H8 su sa ru Hr) as Hs. split.
  - exact (walked_graph fpath fp orc near m H1 H2 H3 H4 H5 H6 H7 H8 H9 su sa ru _ d s Hr Hs Hd Hap).
  - exact (walked_override fpath fp orc near m H1 H2 H3 H4 H5 H6 H7 H8 H9 su sa ru _ d s Hr Hs Hd).
Qed.
Print Assumptions C54_fit.

(** C54.  Without saddles on the border the condition holds. *)
Theorem C54_no_border fpath fp orc near m su sa ru d s :
  mpaths_found fpath m -> sound_searches near m -> map_ok m -> north_up m -> climbable m ->
  pixels_in_reach m -> map_in_reach m -> paths_found fp m -> fine_grid m ->
  run_no_rebuild fp orc m = Ok (su, sa, ru) -> dm_run_sparse fpath fp orc near m = Ok (d, s) ->
  (forall f, f ∈ sa -> ft_edge f = false) -> border_apart m (mp_world d) (mp_saddles d).
Proof.
  intros H1 H2 H3 H4 H5 H6 H7 H8 H9 Hr Hd. rewrite (sparse_walk fpath fp orc near m su sa ru Hr) in Hd.
  pose proof (started_found fp orc m H3 H8 su sa ru Hr) as Hs.
  exact (no_border_apart fpath fp orc near m H1 H2 H3 H4 H5 H6 H7 H8 H9 su sa ru _ d s Hr Hs Hd).
Qed.
Print Assumptions C54_no_border.

(** C54.  Under the condition the whole analysis completes. *)
Theorem C54_completes fpath fp orc near m d s fuel :
  mpaths_found fpath m -> sound_searches near m -> map_ok m -> north_up m -> climbable m ->
  pixels_in_reach m -> map_in_reach m -> paths_found fp m -> fine_grid m ->
  dm_run_sparse fpath fp orc near m = Ok (d, s) -> border_apart m (mp_world d) (mp_saddles d) ->
  (length (mp_saddles d) + length (w_saddles (mp_world d)) < fuel)%nat ->
  exists d', dm_run fpath fp orc near fuel m = Ok d'.
Proof.
  intros H1 H2 H3 H4 H5 H6 H7 H8 H9. exact (run_completes fpath fp orc near m H1 H2 H3 H4 H5 H6 H7 H8 H9 d s fuel).
Qed.
Print Assumptions C54_completes.

(** C54.  The saddles that are left, the border aside, form no closed chain. *)
Theorem C54_forest fpath fp orc near m d s fuel d' :
  mpaths_found fpath m -> sound_searches near m -> map_ok m -> north_up m -> climbable m ->
  pixels_in_reach m -> map_in_reach m -> paths_found fp m -> fine_grid m ->
  dm_run_sparse fpath fp orc near m = Ok (d, s) -> border_apart m (mp_world d) (mp_saddles d) ->
  dm_run fpath fp orc near fuel m = Ok d' -> forall c, ~ closed (open_edge (mp_world d')) c.
Proof.
  intros H1 H2 H3 H4 H5 H6 H7 H8 H9. exact (run_forest fpath fp orc near m H1 H2 H3 H4 H5 H6 H7 H8 H9 d s fuel d').
Qed.
Print Assumptions C54_forest.

(** C54.  Summits are joined by the saddles that are left of elevation at least
    [e] if and only if their cells are joined by cells of elevation at least
    [e]. *)
Theorem C54_terrain fpath fp orc near m su sa ru d s fuel d' x f a y g b e :
  mpaths_found fpath m -> sound_searches near m -> map_ok m -> north_up m -> climbable m ->
  pixels_in_reach m -> map_in_reach m -> paths_found fp m -> fine_grid m ->
  run_no_rebuild fp orc m = Ok (su, sa, ru) -> dm_run_sparse fpath fp orc near m = Ok (d, s) ->
  border_apart m (mp_world d) (mp_saddles d) -> dm_run fpath fp orc near fuel m = Ok d' ->
  su !! x = Some f -> covers f a -> su !! y = Some g -> covers g b -> e <= elev m a -> e <= elev m b ->
  joined (mp_world d') (fun i => e <= ele_at (mp_world d') (Sad i)) x y <-> ground_joined m e a b.
Proof.
  intros H1 H2 H3 H4 H5 H6 H7 H8 H9 Hr Hd Hap Hd' Hx Ha Hy Hb.
  apply (run_terrain fpath fp orc near m H1 H2 H3 H4 H5 H6 H7 H8 H9 su sa ru d s fuel d' x y a b e Hr Hd Hap Hd');
    [by exists f|by exists g].
Qed.
Print Assumptions C54_terrain.

(** The lower of the two saddles is removed. *)
Example C54_case :
  exists su sa ru d s d' f g, run_no_rebuild fp_unit0 orc_id loop_map = Ok (su, sa, ru) /\
    dm_run_sparse fpath_ends fp_unit0 orc_id search0 loop_map = Ok (d, s) /\
    (forall f, f ∈ sa -> ft_edge f = false) /\
    (length (mp_saddles d) + length (w_saddles (mp_world d)) < 20)%nat /\
    dm_run fpath_ends fp_unit0 orc_id search0 20 loop_map = Ok d' /\
    su !! 0%nat = Some f /\ covers f (2, 1) /\ su !! 1%nat = Some g /\ covers g (2, 3) /\
    map (fun o => (ft_ele (sa_feat o), disqualified o)) (w_saddles (mp_world d)) <>
    map (fun o => (ft_ele (sa_feat o), disqualified o)) (w_saddles (mp_world d')) /\
    map disqualified (w_saddles (mp_world d')) = [false; false; false; false; false; false; false; true].
Proof.
  eexists _, _, _, _, _, _, _, _. split; [vm_compute; reflexivity|]. split; [vm_compute; reflexivity|].
  split; [apply Forall_forall; repeat constructor|]. split; [vm_compute; lia|]. split; [vm_compute; reflexivity|].
  split; [reflexivity|]. split; [left; split; reflexivity|]. split; [reflexivity|]. split; [left; split; reflexivity|].
  split; [by vm_compute|]. vm_compute. reflexivity.
Qed.

(** C54.  The condition is needed: with a border saddle between four summits one
    of its pieces joins summits 2 and 3, off the border, but summit 3 does not
    list it, and the exploration of its region finds no divide to the higher
    summit 2. *)
Theorem C54_mutual_refuted : exists m,
  mpaths_found fpath_ends m /\ sound_searches search0 m /\ map_ok m /\ north_up m /\
  climbable m /\ pixels_in_reach m /\ map_in_reach m /\ paths_found fp_unit0 m /\ fine_grid m /\
  exists d, dm_run fpath_ends fp_unit0 orc_id search0 20 m = Ok d /\
    let w := mp_world d in
    open_ w (Sad 9%nat) /\ open_ w (Sum 2%nat) /\ open_ w (Sum 3%nat) /\
    2%nat ∈ summits_of w 9 /\ 3%nat ∈ summits_of w 9 /\ ele_at w (Sum 3%nat) < ele_at w (Sum 2%nat) /\
    9%nat ∈ saddles_of w 2 /\ 9%nat ∉ saddles_of w 3 /\
    lp_at_summit (local_prominent_region m w 3 no_boundaries) 3 = [].
Proof.
  exists lost_map. destruct lost_usable as (H1 & H2 & H3 & H4 & H5 & H6 & H7 & H8 & H9). do 9 (split; [assumption|]).
  eexists _. split; [vm_compute; reflexivity|]. intros w.
  split; [by vm_compute; eexists|]. split; [by vm_compute; eexists|]. split; [by vm_compute; eexists|].
  split; [vm_compute; set_solver|]. split; [vm_compute; set_solver|]. split; [by vm_compute|].
  split; [vm_compute; set_solver|]. split; [vm_compute; set_solver|]. by vm_compute.
Qed.
Print Assumptions C54_mutual_refuted.
