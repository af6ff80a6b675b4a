(** Property C74: the divide tree of a loaded map. *)
From Verif Require Import Run_model Walk_model Raster_spec Closest_spec Feature_spec Network_spec Climb_spec Graph_spec
  Walk_spec Basin_model Basin_spec Terrain_spec Run_spec Persist_model Persist_spec Store_model Store_spec
  Climb_facts Closest_proof Walk_example Run_example Store_example Divide_model Divide_spec Region_spec Divide_example
  Revive_model Revive_spec Revive_run_proof Revive_example.
Local Open Scope Z_scope.

(** C74.  If no two listed saddles at the same place lead to the same summit, the
    divide tree of the loaded result of an analysis is that of the analysis: it
    has the same highest summit and, for each summit off the border, the same
    paths and edge flag.  Saddles are numbered by their place in the list; [m2],
    [cell_of] and [t2] are arbitrary: no reported path depends on the raster. *)
Theorem C74_tree fpath fp orc near fuel m d su_name sa_name ln_name rim_of doms pts newid md5 v p' cell_of m2 t t2 h out t' :
  mpaths_found fpath m -> sound_searches near m -> map_ok m -> north_up m -> climbable m ->
  pixels_in_reach m -> map_in_reach m -> paths_found fp m -> fine_grid m ->
  dm_run_with fpath fp orc near fuel false false false m = Ok d -> ends_apart m (mp_world d) (mp_saddles d) ->
  naming su_name -> naming sa_name -> naming ln_name -> (forall a, a ∈ doms -> a ∈ mp_summits d) ->
  map_to_dict md5 (store m su_name sa_name ln_name rim_of d doms pts) = Ok v -> map_from_dict newid md5 v = Ok p' ->
  run_tree m (mp_world d) (mp_summits d) t = Ok (h, out, t') -> tr_busted t' = [] ->
  let r := revive cell_of p' in
  exists out2 t2', run_tree m2 (mp_world r) (mp_summits r) t2 = Ok (h, out2, t2') /\ map fst out2 = map fst out /\
    (tr_busted t2' = [] -> forall a r r2, open_ (mp_world d) (Sum a) -> (a, r) ∈ out -> (a, r2) ∈ out2 ->
     (forall q s', (q, s') ∈ lp_paths r2 <-> exists s, mp_saddles d !! s' = Some s /\ (q, s) ∈ lp_paths r) /\ lp_edge r2 = lp_edge r).
Proof.
  intros H1 H2 H3 H4 H5 H6 H7 H8 H9 Hd Hap N1 N2 N3 Hdoms Hv Hp.
  exact (loaded_tree fpath fp orc near m H1 H2 H3 H4 H5 H6 H7 H8 H9 fuel d Hd Hap su_name sa_name ln_name rim_of N1 N2 N3 doms pts Hdoms
    newid md5 v p' Hv Hp cell_of m2 t t2 h out t').
Qed.
Print Assumptions C74_tree.

(** C74.  The open nodes of the loaded map form a tree, so that C62 holds for it. *)
Theorem C74_graph fpath fp orc near fuel m d su_name sa_name ln_name rim_of doms pts newid md5 v p' cell_of :
  mpaths_found fpath m -> sound_searches near m -> map_ok m -> north_up m -> climbable m ->
  pixels_in_reach m -> map_in_reach m -> paths_found fp m -> fine_grid m ->
  dm_run_with fpath fp orc near fuel false false false m = Ok d -> ends_apart m (mp_world d) (mp_saddles d) ->
  naming su_name -> naming sa_name -> naming ln_name -> (forall a, a ∈ doms -> a ∈ mp_summits d) ->
  map_to_dict md5 (store m su_name sa_name ln_name rim_of d doms pts) = Ok v -> map_from_dict newid md5 v = Ok p' ->
  tree_graph (mp_world (revive cell_of p')).
Proof.
  intros H1 H2 H3 H4 H5 H6 H7 H8 H9 Hd Hap N1 N2 N3 Hdoms Hv Hp.
  exact (loaded_graph fpath fp orc near m H1 H2 H3 H4 H5 H6 H7 H8 H9 fuel d Hd Hap su_name sa_name ln_name rim_of N1 N2 N3 doms pts Hdoms
    newid md5 v p' Hv Hp cell_of).
Qed.
Print Assumptions C74_graph.

(** Two summits and two saddles: the way from the lower summit over the higher
    saddle, number 6 of the analysis and 0 of the loaded map. *)
Example C74_case :
  mpaths_found fpath_ends loop_map /\ sound_searches search0 loop_map /\ map_ok loop_map /\ north_up loop_map /\
  climbable loop_map /\ pixels_in_reach loop_map /\ map_in_reach loop_map /\ paths_found fp_unit0 loop_map /\
  fine_grid loop_map /\
  exists d, dm_run_with fpath_ends fp_unit0 orc_id search0 20 false false false loop_map = Ok d /\
    ends_apart loop_map (mp_world d) (mp_saddles d) /\ (forall a, a ∈ [0; 1]%nat -> a ∈ mp_summits d) /\
    open_ (mp_world d) (Sum 1%nat) /\ mp_saddles d = [6; 7]%nat /\
    exists v p', map_to_dict "f" (store_as loop_map d [0; 1]%nat (fun _ => [])) = Ok v /\ map_from_dict "new" "f" v = Ok p' /\
      reported loop_map d = Some (0, [(0, []); (1, [([0], 6)])], [])%nat /\
      reported star_map (revive (fun _ => (0, 0)) p') = Some (0, [(0, []); (1, [([0], 0)])], [])%nat.
Proof.
  destruct loop_usable as (H1 & H2 & H3 & H4 & H5 & H6 & H7 & H8 & H9). do 9 (split; [assumption|]).
  eexists. split; [vm_compute; reflexivity|]. split.
  { intros i j x Hi Hj _ _. apply elem_of_list_In in Hi, Hj. cbn in Hi, Hj.
    destruct Hi as [<-|[<-|[]]], Hj as [<-|[<-|[]]]; vm_compute; intros E; congruence. }
  split; [apply Forall_forall; repeat constructor; apply elem_of_list_In; vm_compute; tauto|].
  split; [eexists; split; reflexivity|]. split; [reflexivity|].
  eexists _, _. split; [vm_compute; reflexivity|]. split; [vm_compute; reflexivity|]. split; vm_compute; reflexivity.
Qed.

(** C74, refuted without the hypothesis: of three summits around a saddle of one
    cell, the lowest has a way out over each of the two pieces of the saddle, but
    only one in the loaded map: of two links of a summit to different saddles at
    one place only the first is loaded. *)
Theorem C74_pieces_refuted :
  exists m fpath fp orc near, mpaths_found fpath m /\ sound_searches near m /\ map_ok m /\ north_up m /\ climbable m /\
    pixels_in_reach m /\ map_in_reach m /\ paths_found fp m /\ fine_grid m /\
    exists fuel d v p' cell_of, dm_run_with fpath fp orc near fuel false false false m = Ok d /\
      map_to_dict "f" (store_as m d (mp_summits d) (fun _ => [])) = Ok v /\ map_from_dict "new" "f" v = Ok p' /\
      mp_saddles d = [5; 6]%nat /\ open_ (mp_world d) (Sum 1%nat) /\
      reported m d = Some (2, [(0, [([2; 3; 1], 5)]); (1, [([1], 5); ([3], 6)]); (2, [([0; 1; 3], 6)])], [])%nat /\
      reported m (revive cell_of p') = Some (2, [(0, [([2; 3; 1], 0)]); (1, [([1], 0)]); (2, [])], [])%nat.
Proof.
  exists star_map, fpath_ends, fp_unit0, orc_id, search0.
  destruct star_usable as (H1 & H2 & H3 & H4 & H5 & H6 & H7 & H8 & H9). do 9 (split; [assumption|]).
  exists 20%nat. eexists _, _, _, (fun _ => (0, 0)). split; [vm_compute; reflexivity|]. split; [vm_compute; reflexivity|].
  split; [vm_compute; reflexivity|]. split; [reflexivity|]. split; [eexists; split; reflexivity|]. split; vm_compute; reflexivity.
Qed.
Print Assumptions C74_pieces_refuted.
