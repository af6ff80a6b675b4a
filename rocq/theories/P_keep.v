(** Property C70: the purged result of an analysis can be saved and loaded. *)
From Verif Require Import Run_model Walk_model Raster_spec Closest_spec Feature_spec Network_spec Climb_spec Graph_spec
  Walk_spec Basin_model Basin_spec Terrain_spec Run_spec Persist_model Persist_spec Store_model Store_spec
  Start_proof Terrain_proof Run_proof Rebuilt_proof Store_proof Stored_proof Like_proof Persist_load_proof Twice_proof Twice_store_proof
  Climb_facts Closest_proof Walk_example Run_example Store_example Cull_spec Cull_proof Cull_run_proof Keep_run_proof Keep_example.
Local Open Scope Z_scope.

(** C70.  All that the listed objects of the purged result refer to is listed,
    unless [allBasinSaddles] is asked for. *)
Theorem C70_whole fpath fp orc near fuel a b m d :
  mpaths_found fpath m -> sound_searches near m -> map_ok m -> north_up m -> climbable m ->
  pixels_in_reach m -> map_in_reach m -> paths_found fp m -> fine_grid m ->
  dm_run_with fpath fp orc near fuel false false false m = Ok d -> whole (purge_saddles m a b false d).
Proof.
  intros H1 H2 H3 H4 H5 H6 H7 H8 H9 Hd.
  exact (proj1 (kept_whole fpath fp orc near m H1 H2 H3 H4 H5 H6 H7 H8 H9 fuel a b d Hd)).
Qed.
Print Assumptions C70_whole.

(** C70.  The purged result can be saved, and what was saved can be loaded and
    is the same map. *)
Theorem C70_saved fpath fp orc near fuel a b m d su_name sa_name ln_name rim_of doms pts newid md5 :
  mpaths_found fpath m -> sound_searches near m -> map_ok m -> north_up m -> climbable m ->
  pixels_in_reach m -> map_in_reach m -> paths_found fp m -> fine_grid m ->
  dm_run_with fpath fp orc near fuel false false false m = Ok d ->
  naming su_name -> naming sa_name -> naming ln_name -> (forall x, x ∈ doms -> x ∈ mp_summits d) ->
  let d' := purge_saddles m a b false d in
  let p := store m su_name sa_name ln_name rim_of d' doms pts in
  exists v p', map_to_dict md5 p = Ok v /\ map_from_dict newid md5 v = Ok p' /\ reloaded p p' /\
    like_analysis m su_name sa_name ln_name rim_of d' doms pts p'.
Proof.
  intros H1 H2 H3 H4 H5 H6 H7 H8 H9 Hd N1 N2 N3 Hdoms d' p.
  destruct (kept_whole fpath fp orc near m H1 H2 H3 H4 H5 H6 H7 H8 H9 fuel a b d Hd) as [Hw Hm].
  destruct (stored_loads m su_name sa_name ln_name rim_of N1 N2 N3 d' doms pts Hw) with (newid := newid) (md5 := md5) as (v & p' & Hv & Hp & Hr).
  { intros x Hx. apply Hdoms in Hx. subst d'. unfold purge_saddles. by destruct (purge_split _ _ _ _ _) as [[? ?] ?]. }
  exists v, p'. split_and!; [done..|]. by apply loaded_like.
Qed.
Print Assumptions C70_saved.

(** C70.  The map that was analysed, purged, saved and loaded joins two summits
    at level [e] if and only if the ground does. *)
Theorem C70_terrain fpath fp orc near fuel a b m su sa ru d0 d su_name sa_name ln_name rim_of doms pts newid md5 v p' x f u y g t e :
  mpaths_found fpath m -> sound_searches near m -> map_ok m -> north_up m -> climbable m ->
  pixels_in_reach m -> map_in_reach m -> paths_found fp m -> fine_grid m ->
  run_no_rebuild fp orc m = Ok (su, sa, ru) ->
  dm_run_with fpath fp orc near fuel true false false m = Ok d0 -> border_apart m (mp_world d0) (mp_saddles d0) ->
  dm_run_with fpath fp orc near fuel false false false m = Ok d ->
  naming su_name -> naming sa_name -> naming ln_name -> (forall x, x ∈ doms -> x ∈ mp_summits d) ->
  map_to_dict md5 (store m su_name sa_name ln_name rim_of (purge_saddles m a b false d) doms pts) = Ok v ->
  map_from_dict newid md5 v = Ok p' ->
  su !! x = Some f -> covers f u -> su !! y = Some g -> covers g t -> e <= elev m u -> e <= elev m t ->
  loaded_joined p' e (su_name x) (su_name y) <-> ground_joined m e u t.
Proof.
  intros H1 H2 H3 H4 H5 H6 H7 H8 H9 Hrun Hd0 Hap Hd N1 N2 N3 Hdoms Hv Hp Hx Hu Hy Ht He He'.
  destruct (C70_saved fpath fp orc near fuel a b m d su_name sa_name ln_name rim_of doms pts newid md5
    H1 H2 H3 H4 H5 H6 H7 H8 H9 Hd N1 N2 N3 Hdoms) as (v' & p2 & Hv' & Hp' & Hr & _).
  rewrite Hv in Hv'. injection Hv' as <-. rewrite Hp in Hp'. injection Hp' as <-.
  destruct (kept_whole fpath fp orc near m H1 H2 H3 H4 H5 H6 H7 H8 H9 fuel a b d Hd) as [_ Hm].
  rewrite (loaded_graph m su_name sa_name ln_name rim_of N1 N2 N3 _ doms pts Hm _ Hr).
  exact (culled_terrain fpath fp orc near m H1 H2 H3 H4 H5 H6 H7 H8 H9 fuel false d0 d Hd0 Hd a b false su sa ru x f u y g t e
    Hap Hrun Hx Hu Hy Ht He He').
Qed.
Print Assumptions C70_terrain.

(** A saddle is purged, and the rest is saved and loaded. *)
Example C70_case :
  mpaths_found fpath_ends loop_map /\ sound_searches search0 loop_map /\ map_ok loop_map /\ north_up loop_map /\
  climbable loop_map /\ pixels_in_reach loop_map /\ map_in_reach loop_map /\ paths_found fp_unit0 loop_map /\
  fine_grid loop_map /\
  exists su sa ru d0 d, run_no_rebuild fp_unit0 orc_id loop_map = Ok (su, sa, ru) /\
    dm_run_with fpath_ends fp_unit0 orc_id search0 20 true false false loop_map = Ok d0 /\
    border_apart loop_map (mp_world d0) (mp_saddles d0) /\
    dm_run_with fpath_ends fp_unit0 orc_id search0 20 false false false loop_map = Ok d /\
    (forall a, a ∈ [0; 1]%nat -> a ∈ mp_summits d) /\ mp_saddles d = [6; 7]%nat /\
    exists v p', map_to_dict "f" (store_as loop_map (purge_saddles loop_map true true false d) [0; 1]%nat (fun _ => [])) = Ok v /\
      map_from_dict "new" "f" v = Ok p' /\ map fst (pm_saddles p') = [name_with "s" 6] /\
      map (fun e => length (pa_links e.2)) (pm_saddles p') = [2%nat].
Proof.
  destruct loop_usable as (H1 & H2 & H3 & H4 & H5 & H6 & H7 & H8 & H9). do 9 (split; [assumption|]).
  eexists _, _, _, _, _. split; [vm_compute; reflexivity|]. split; [vm_compute; reflexivity|].
  split; [|split; [vm_compute; reflexivity|]].
  - intros i j x Hi _ [pa Hpa]. exfalso. apply elem_of_list_In in Hi. destruct Hi as [<-|[<-|[]]]; vm_compute in Hpa; done.
  - split; [apply Forall_forall; repeat constructor; apply elem_of_list_In; vm_compute; tauto|]. split; [by vm_compute|].
    eexists _, _. split; [vm_compute; reflexivity|]. split; [vm_compute; reflexivity|]. split; vm_compute; reflexivity.
Qed.

(** C70, refuted with [allBasinSaddles]: a kept saddle still has a removed saddle
    among its alternatives, and the map is saved but cannot be loaded.  Without
    [allBasinSaddles] the same result is saved and loaded. *)
Theorem C70_all_refuted :
  exists m fpath fp orc near, mpaths_found fpath m /\ sound_searches near m /\ map_ok m /\ north_up m /\ climbable m /\
    pixels_in_reach m /\ map_in_reach m /\ paths_found fp m /\ fine_grid m /\
    exists fuel d v, dm_run_with fpath fp orc near fuel false false false m = Ok d /\
      let d' := purge_saddles m true true true d in
      (exists i j, i ∈ mp_saddles d' /\ j ∈ alts_of (mp_world d') i /\ j ∈ mp_saddles d /\ j ∉ mp_saddles d') /\
      map_to_dict "f" (store_as m d' [] (fun _ => [])) = Ok v /\ map_from_dict "new" "f" v = Err KeyError.
Proof.
  exists tie_map, fpath_ends, fp_unit0, orc_id, search0.
  destruct tie_usable as (H1 & H2 & H3 & H4 & H5 & H6 & H7 & H8 & H9). do 9 (split; [assumption|]).
  exists 60%nat. eexists _, _. split; [vm_compute; reflexivity|]. cbn zeta. split.
  - exists 10%nat, 11%nat. split; [apply elem_of_list_In; vm_compute; tauto|]. split; [apply elem_of_list_In; vm_compute; tauto|].
    split; [apply elem_of_list_In; vm_compute; tauto|]. intros Hin. apply elem_of_list_In in Hin. vm_compute in Hin.
    repeat destruct Hin as [Hin|Hin]; done.
  - split; [vm_compute; reflexivity|]. vm_compute. reflexivity.
Qed.
Print Assumptions C70_all_refuted.
