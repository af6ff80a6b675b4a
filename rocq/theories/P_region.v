(** Property C62: the divide tree of a finished analysis. *)
From Verif Require Import Run_model Walk_model Raster_spec Closest_spec Feature_spec Network_spec Climb_spec Graph_spec
  Walk_spec Basin_model Basin_spec Terrain_spec Run_spec Rebuilt_spec Start_proof Terrain_proof Run_proof Rebuilt_proof
  Climb_facts Closest_proof Walk_example Run_example Divide_model Divide_spec Region_spec Divide_proof Region_proof Region_list_proof Region_run_proof
  Divide_example.
Local Open Scope Z_scope.

(** C62.  In a graph whose open nodes form a tree, the exploration from a summit
    off the border that does not hit the depth limit reports exactly the ways
    out: the paths that lead down from the summit without meeting a node twice
    and end at the border or below a summit higher than the last one. *)
Theorem C62_paths m w master t0 q s : tree_graph w -> open_ w (Sum master) ->
  lp_busted (local_prominent_region m w master t0) = [] ->
  (q, s) ∈ lp_paths (local_prominent_region m w master t0) <-> way_out w master q s.
Proof. intros H1 H2 H3. exact (region_paths m w H1 master H2 t0 H3 q s). Qed.
Print Assumptions C62_paths.

(** C62.  Each is reported once, even if the limit is hit. *)
Theorem C62_once m w master t0 : tree_graph w -> open_ w (Sum master) -> NoDup (lp_paths (local_prominent_region m w master t0)).
Proof. intros H1 H2. exact (region_once m w H1 master H2 t0). Qed.
Print Assumptions C62_once.

(** C62.  The edge flag is set exactly if a reported path ends at the border. *)
Theorem C62_edge m w master t0 : tree_graph w -> open_ w (Sum master) ->
  lp_edge (local_prominent_region m w master t0) = true <->
  exists q s, (q, s) ∈ lp_paths (local_prominent_region m w master t0) /\ ends_at w (border_at w) master q s.
Proof. intros H1 H2. exact (region_edge m w H1 master H2 t0). Qed.
Print Assumptions C62_edge.

(** C62.  Where a reported path meets a higher summit, the saddle or an equal one is
    listed as a boundary of the summit, and the summit or an equal one as a
    boundary at the saddle. *)
Theorem C62_listed m w master t0 q s : tree_graph w -> open_ w (Sum master) ->
  (q, s) ∈ lp_paths (local_prominent_region m w master t0) -> ends_at w (divide_at w) master q s ->
  let r := local_prominent_region m w master t0 in
  (exists s', s' ∈ lp_at_summit r master /\ saddle_alike m w s s') /\ (exists a, a ∈ lp_at_saddle r s /\ summit_alike m w master a).
Proof. intros H1 H2 Hq Hd. exact (region_divides m w H1 master H2 t0 q s Hq Hd). Qed.
Print Assumptions C62_listed.

(** C62.  The graph of a finished analysis is such a graph, with or without
    [rebuildSaddles], provided that of two listed saddles at the same place that
    lead to the same summit neither is a child of a border saddle. *)
Theorem C62_graph fpath fp orc near fuel r m d d' :
  mpaths_found fpath m -> sound_searches near m -> map_ok m -> north_up m -> climbable m ->
  pixels_in_reach m -> map_in_reach m -> paths_found fp m -> fine_grid m ->
  dm_run_with fpath fp orc near fuel true false r m = Ok d -> border_apart m (mp_world d) (mp_saddles d) ->
  dm_run_with fpath fp orc near fuel false false r m = Ok d' -> tree_graph (mp_world d').
Proof.
  intros H1 H2 H3 H4 H5 H6 H7 H8 H9 Hd Hap Hd'. destruct (found_run fp orc m H3 H8) as (su & sa & ru & Hrun).
  destruct (with_finish fpath fp orc near m fuel r su sa ru d d' H2 H3 H7 H8 Hrun Hd Hd') as (objs & s & Hs & Hw & Hdet).
  exact (finished_tree fpath fp orc near m H1 H2 H3 H4 H5 H6 H7 H8 H9 su sa ru objs d s fuel d' Hrun Hs Hw Hap Hdet).
Qed.
Print Assumptions C62_graph.

(** C62.  No way to higher ground is missed: if one can go on the map from a
    summit off the border to a higher cell without going below [e], then a path
    is reported on which no saddle is below [e]. *)
Theorem C62_key fpath fp orc near fuel r m su sa ru d d' t h out t' x f a c e p :
  mpaths_found fpath m -> sound_searches near m -> map_ok m -> north_up m -> climbable m ->
  pixels_in_reach m -> map_in_reach m -> paths_found fp m -> fine_grid m ->
  run_no_rebuild fp orc m = Ok (su, sa, ru) ->
  dm_run_with fpath fp orc near fuel true false r m = Ok d -> border_apart m (mp_world d) (mp_saddles d) ->
  dm_run_with fpath fp orc near fuel false false r m = Ok d' ->
  run_tree m (mp_world d') (mp_summits d') t = Ok (h, out, t') -> tr_busted t' = [] -> (x, p) ∈ out ->
  su !! x = Some f -> ft_edge f = false -> covers f a -> ground_joined m e a c -> elev m a < elev m c ->
  exists q i, (q, i) ∈ lp_paths p /\ over (mp_world d') (fun i => e <= ele_at (mp_world d') (Sad i)) q.
Proof.
  intros H1 H2 H3 H4 H5 H6 H7 H8 H9 Hrun Hd Hap Hd' Ht Hb Hin Hx Hf Ha Hj Hlt.
  destruct (with_finish fpath fp orc near m fuel r su sa ru d d' H2 H3 H7 H8 Hrun Hd Hd') as (objs & s & Hs & Hw & Hdet).
  pose proof (finished_tree fpath fp orc near m H1 H2 H3 H4 H5 H6 H7 H8 H9 su sa ru objs d s fuel d' Hrun Hs Hw Hap Hdet) as G.
  destruct (run_tree_region m _ _ t h out t' x p (tg_own _ G) Ht Hb Hin) as (t0 & -> & Hb0).
  exact (finished_key fpath fp orc near m H1 H2 H3 H4 H5 H6 H7 H8 H9 su sa ru objs d s fuel d' Hrun Hs Hw Hap Hdet
    x f a c e t0 Hx Hf Ha Hb0 Hj Hlt).
Qed.
Print Assumptions C62_key.

(** C62.  Where nothing is reported, nothing that can be reached is higher. *)
Theorem C62_alone fpath fp orc near fuel r m su sa ru d d' t h out t' x f a c e p :
  mpaths_found fpath m -> sound_searches near m -> map_ok m -> north_up m -> climbable m ->
  pixels_in_reach m -> map_in_reach m -> paths_found fp m -> fine_grid m ->
  run_no_rebuild fp orc m = Ok (su, sa, ru) ->
  dm_run_with fpath fp orc near fuel true false r m = Ok d -> border_apart m (mp_world d) (mp_saddles d) ->
  dm_run_with fpath fp orc near fuel false false r m = Ok d' ->
  run_tree m (mp_world d') (mp_summits d') t = Ok (h, out, t') -> tr_busted t' = [] -> (x, p) ∈ out ->
  su !! x = Some f -> ft_edge f = false -> covers f a -> lp_paths p = [] -> ground_joined m e a c -> elev m c <= elev m a.
Proof.
  intros H1 H2 H3 H4 H5 H6 H7 H8 H9 Hrun Hd Hap Hd' Ht Hb Hin Hx Hf Ha Hnil Hj.
  apply Z.le_ngt. intros Hlt.
  destruct (C62_key fpath fp orc near fuel r m su sa ru d d' t h out t' x f a c e p H1 H2 H3 H4 H5 H6 H7 H8 H9 Hrun Hd Hap Hd'
    Ht Hb Hin Hx Hf Ha Hj Hlt) as (q & i & Hq & _). rewrite Hnil in Hq. by apply elem_of_nil in Hq.
Qed.
Print Assumptions C62_alone.

(** C62.  Every reported way is a way over the ground: if no saddle on a reported
    path is below [e], one can go from the summit without going below [e] to a
    summit of the reported saddle that is on the border or higher than the other
    summit of that saddle. *)
Theorem C62_ground fpath fp orc near fuel r m su sa ru d d' t h out t' x f a e p q i :
  mpaths_found fpath m -> sound_searches near m -> map_ok m -> north_up m -> climbable m ->
  pixels_in_reach m -> map_in_reach m -> paths_found fp m -> fine_grid m ->
  run_no_rebuild fp orc m = Ok (su, sa, ru) ->
  dm_run_with fpath fp orc near fuel true false r m = Ok d -> border_apart m (mp_world d) (mp_saddles d) ->
  dm_run_with fpath fp orc near fuel false false r m = Ok d' ->
  run_tree m (mp_world d') (mp_summits d') t = Ok (h, out, t') -> tr_busted t' = [] -> (x, p) ∈ out ->
  su !! x = Some f -> ft_edge f = false -> covers f a ->
  (q, i) ∈ lp_paths p -> over (mp_world d') (fun i => e <= ele_at (mp_world d') (Sad i)) q ->
  exists y g z k, su !! y = Some g /\ su !! z = Some k /\
    y ∈ Basin_spec.summits_of (mp_world d') i /\ z ∈ Basin_spec.summits_of (mp_world d') i /\ y <> z /\
    (ft_edge g = true \/ ft_ele k < ft_ele g) /\ forall b, covers g b -> ground_joined m e a b.
Proof.
  intros H1 H2 H3 H4 H5 H6 H7 H8 H9 Hrun Hd Hap Hd' Ht Hb Hin Hx Hf Ha Hq Ho.
  destruct (with_finish fpath fp orc near m fuel r su sa ru d d' H2 H3 H7 H8 Hrun Hd Hd') as (objs & s & Hs & Hw & Hdet).
  pose proof (finished_tree fpath fp orc near m H1 H2 H3 H4 H5 H6 H7 H8 H9 su sa ru objs d s fuel d' Hrun Hs Hw Hap Hdet) as G.
  destruct (run_tree_region m _ _ t h out t' x p (tg_own _ G) Ht Hb Hin) as (t0 & -> & Hb0).
  exact (finished_way fpath fp orc near m H1 H2 H3 H4 H5 H6 H7 H8 H9 su sa ru objs d s fuel d' Hrun Hs Hw Hap Hdet
    x f a q i e t0 Hx Hf Ha Hb0 Hq Ho).
Qed.
Print Assumptions C62_ground.

(** C62.  If the map has a data cell, the tree of a finished analysis can be made,
    and no data cell is higher than the summit it finds to be the highest. *)
Theorem C62_highest fpath fp orc near fuel r m su sa ru d d' t :
  mpaths_found fpath m -> sound_searches near m -> map_ok m -> north_up m -> climbable m ->
  pixels_in_reach m -> map_in_reach m -> paths_found fp m -> fine_grid m ->
  run_no_rebuild fp orc m = Ok (su, sa, ru) ->
  dm_run_with fpath fp orc near fuel true false r m = Ok d -> border_apart m (mp_world d) (mp_saddles d) ->
  dm_run_with fpath fp orc near fuel false false r m = Ok d' -> (exists c, data_cell m c) ->
  exists h f out t', run_tree m (mp_world d') (mp_summits d') t = Ok (h, out, t') /\ su !! h = Some f /\
    forall c, data_cell m c -> elev m c <= ft_ele f.
Proof.
  intros H1 H2 H3 H4 H5 H6 H7 H8 H9 Hrun Hd Hap Hd' Hc.
  destruct (with_finish fpath fp orc near m fuel r su sa ru d d' H2 H3 H7 H8 Hrun Hd Hd') as (objs & s & Hs & Hw & Hdet).
  exact (finished_highest fpath fp orc near m H1 H2 H3 H4 H5 H6 H7 H8 H9 su sa ru objs d s fuel d' Hrun Hs Hw Hap Hdet t Hc).
Qed.
Print Assumptions C62_highest.

(** Two summits and two saddles: the lower saddle is removed; from the higher
    summit nothing is reported, from the lower one the way over the higher
    saddle, which has the level of the highest way over the ground. *)
Example C62_case :
  mpaths_found fpath_ends loop_map /\ sound_searches search0 loop_map /\ map_ok loop_map /\ north_up loop_map /\
  climbable loop_map /\ pixels_in_reach loop_map /\ map_in_reach loop_map /\ paths_found fp_unit0 loop_map /\
  fine_grid loop_map /\
  exists su sa ru d d' out t' f g p0 p1, run_no_rebuild fp_unit0 orc_id loop_map = Ok (su, sa, ru) /\
    dm_run_with fpath_ends fp_unit0 orc_id search0 20 true false false loop_map = Ok d /\
    border_apart loop_map (mp_world d) (mp_saddles d) /\
    dm_run_with fpath_ends fp_unit0 orc_id search0 20 false false false loop_map = Ok d' /\
    run_tree loop_map (mp_world d') (mp_summits d') no_tree = Ok (0%nat, out, t') /\ tr_busted t' = [] /\
    out = [(0%nat, p0); (1%nat, p1)] /\ lp_paths p0 = [] /\ lp_paths p1 = [([0], 6)]%nat /\
    lp_edge p1 = false /\ lp_at_summit p1 1%nat = [6%nat] /\ lp_at_saddle p1 6%nat = [1%nat] /\
    su !! 0%nat = Some f /\ ft_edge f = false /\ covers f (2, 1) /\ su !! 1%nat = Some g /\ ft_edge g = false /\ covers g (2, 3) /\
    over (mp_world d') (fun i => 5 <= ele_at (mp_world d') (Sad i)) [0%nat] /\ ground_joined loop_map 5 (2, 3) (2, 1) /\
    elev loop_map (2, 3) < elev loop_map (2, 1).
Proof.
  destruct loop_usable as (H1 & H2 & H3 & H4 & H5 & H6 & H7 & H8 & H9). do 9 (split; [assumption|]).
  eexists _, _, _, _, _, _, _, _, _, _, _. split; [vm_compute; reflexivity|]. split; [vm_compute; reflexivity|].
  split.
  { intros i j x Hi Hj Hp. exfalso. revert Hp. apply elem_of_list_In in Hi. cbn in Hi.
    destruct Hi as [<-|[<-|[]]]; vm_compute; by intros [? ?]. }
  split; [vm_compute; reflexivity|]. split; [vm_compute; reflexivity|]. split; [reflexivity|]. split; [reflexivity|].
  do 3 (split; [reflexivity|]).
  split; [reflexivity|]. split; [reflexivity|]. split; [reflexivity|]. split; [reflexivity|]. split; [left; split; reflexivity|].
  split; [reflexivity|]. split; [reflexivity|]. split; [left; split; reflexivity|]. split.
  - intros k a s ->%elem_of_list_singleton (l & El & _ & Es & _). vm_compute in El. injection El as <-. cbn in Es. subst s. by vm_compute.
  - split; [|by vm_compute]. unfold ground_joined.
    assert (forall c, bool_decide (data_cell loop_map c /\ 5 <= elev loop_map c) = true -> high loop_map 5 c) as Hh.
    { intros c Hc. by apply bool_decide_eq_true in Hc. }
    eapply Raster_spec.linked_step; [eapply (Raster_spec.linked_step _ _ _ (2, 3) (1, 2))|..].
    + apply Raster_spec.linked_here, Hh. by vm_compute.
    + apply Hh. by vm_compute.
    + apply (bool_decide_unpack _). by vm_compute.
    + apply Hh. by vm_compute.
    + apply (bool_decide_unpack _). by vm_compute.
Qed.
