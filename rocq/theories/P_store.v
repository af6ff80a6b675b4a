(** Properties C60 and C68: the result of an analysis can be saved, and the loaded map
    describes the same terrain. *)
From Verif Require Import Run_model Walk_model Raster_spec Closest_spec Feature_spec Network_spec Climb_spec Graph_spec
  Walk_spec Basin_model Basin_spec Terrain_spec Run_spec Persist_model Persist_spec Store_model Store_spec
  Start_proof Terrain_proof Run_proof Rebuilt_proof Store_proof Stored_proof Store_written_proof Like_proof Persist_load_proof Twice_proof Twice_store_proof
  Climb_facts Closest_proof Walk_example Run_example Store_example.
Local Open Scope Z_scope.

(** C60.  Whatever the options, except [rebuildSaddles], all that the listed
    objects of the result refer to is listed. *)
Theorem C60_whole fpath fp orc near fuel sparse superSparse m d :
  mpaths_found fpath m -> sound_searches near m -> map_ok m -> north_up m -> climbable m ->
  pixels_in_reach m -> map_in_reach m -> paths_found fp m ->
  dm_run_with fpath fp orc near fuel sparse superSparse false m = Ok d -> whole d.
Proof.
  intros H1 H2 H3 H4 H5 H6 H7 H8. exact (run_whole fpath fp orc near m H1 H2 H3 H4 H5 H6 H7 H8 fuel sparse superSparse d).
Qed.
Print Assumptions C60_whole.

(** C60.  Such a result can be saved, whatever the ids, the perimeters, the
    points of the domains and the order of the set of domains; what was saved
    can be loaded with the same raster, and is the same map. *)
Theorem C60_saved fpath fp orc near fuel sparse superSparse m d su_name sa_name ln_name rim_of doms pts newid md5 :
  mpaths_found fpath m -> sound_searches near m -> map_ok m -> north_up m -> climbable m ->
  pixels_in_reach m -> map_in_reach m -> paths_found fp m ->
  dm_run_with fpath fp orc near fuel sparse superSparse false m = Ok d ->
  naming su_name -> naming sa_name -> naming ln_name -> (forall a, a ∈ doms -> a ∈ mp_summits d) ->
  let p := store m su_name sa_name ln_name rim_of d doms pts in
  exists v p', map_to_dict md5 p = Ok v /\ map_from_dict newid md5 v = Ok p' /\ reloaded p p'.
Proof.
  intros H1 H2 H3 H4 H5 H6 H7 H8 Hd N1 N2 N3 Hdoms.
  apply stored_loads; [done..|by eapply (run_whole fpath fp orc near m)|done].
Qed.
Print Assumptions C60_saved.

(** C60.  The loaded map has the objects of the analysis, with their names,
    positions, elevations, flags and relations, each saddle with links to the
    summits it had. *)
Theorem C60_content fpath fp orc near fuel sparse superSparse m d su_name sa_name ln_name rim_of doms pts newid md5 v p' :
  mpaths_found fpath m -> sound_searches near m -> map_ok m -> north_up m -> climbable m ->
  pixels_in_reach m -> map_in_reach m -> paths_found fp m -> fine_grid m ->
  dm_run_with fpath fp orc near fuel sparse superSparse false m = Ok d ->
  naming su_name -> naming sa_name -> naming ln_name -> (forall a, a ∈ doms -> a ∈ mp_summits d) ->
  map_to_dict md5 (store m su_name sa_name ln_name rim_of d doms pts) = Ok v -> map_from_dict newid md5 v = Ok p' ->
  like_analysis m su_name sa_name ln_name rim_of d doms pts p'.
Proof.
  intros H1 H2 H3 H4 H5 H6 H7 H8 H9 Hd N1 N2 N3 Hdoms Hv Hp.
  pose proof (run_whole fpath fp orc near m H1 H2 H3 H4 H5 H6 H7 H8 fuel sparse superSparse d Hd) as Hw.
  destruct (stored_loads m su_name sa_name ln_name rim_of N1 N2 N3 d doms pts Hw Hdoms newid md5) as (v' & p2 & Hv' & Hp' & Hr).
  rewrite Hv in Hv'. injection Hv' as <-. rewrite Hp in Hp'. injection Hp' as <-.
  apply loaded_like; [done..| |exact Hr].
  exact (run_meshed fpath fp orc near m H1 H2 H3 H4 H5 H6 H7 H8 H9 fuel sparse superSparse d Hd).
Qed.
Print Assumptions C60_content.

(** C60.  What is saved names, for each summit and each saddle or runoff, all its
    links, whether or not they are loaded again. *)
Theorem C60_written fpath fp orc near fuel sparse superSparse m d su_name sa_name ln_name rim_of doms pts md5 v :
  mpaths_found fpath m -> sound_searches near m -> map_ok m -> north_up m -> climbable m ->
  pixels_in_reach m -> map_in_reach m -> paths_found fp m ->
  dm_run_with fpath fp orc near fuel sparse superSparse false m = Ok d ->
  map_to_dict md5 (store m su_name sa_name ln_name rim_of d doms pts) = Ok v ->
  let w := mp_world d in
  exists s1 s2 s3 v1 v2 v3, dget v "summits" = Ok s1 /\ dget s1 "summits" = Ok (VSeq v1) /\
    dget v "saddles" = Ok s2 /\ dget s2 "saddles" = Ok (VSeq v2) /\ dget v "runoffs" = Ok s3 /\ dget s3 "runoffs" = Ok (VSeq v3) /\
    Forall2 (fun a x => exists u, w_summits w !! a = Some u /\ dget x "id" = Ok (VStr (su_name a)) /\
      names_in x "saddles" (map ln_name (su_links u))) (mp_summits d) v1 /\
    Forall2 (fun i x => exists o, w_saddles w !! i = Some o /\ dget x "id" = Ok (VStr (sa_name i)) /\
      names_in x "summits" (map ln_name (sa_links o)) /\ names_in x "children" (map sa_name (sa_children o)))
      (mp_saddles d ++ mp_runoffs d) (v2 ++ v3).
Proof.
  intros H1 H2 H3 H4 H5 H6 H7 H8 Hd Hv.
  pose proof (run_whole fpath fp orc near m H1 H2 H3 H4 H5 H6 H7 H8 fuel sparse superSparse d Hd) as Hw.
  exact (store_written m su_name sa_name ln_name rim_of d doms pts md5 v Hw Hv).
Qed.
Print Assumptions C60_written.

(** C60.  In the loaded map two summits are joined by saddles of elevation at
    least [e] that count if and only if they are in the result of the analysis. *)
Theorem C60_graph fpath fp orc near fuel sparse superSparse m d su_name sa_name ln_name rim_of doms pts newid md5 v p' e a b :
  mpaths_found fpath m -> sound_searches near m -> map_ok m -> north_up m -> climbable m ->
  pixels_in_reach m -> map_in_reach m -> paths_found fp m -> fine_grid m ->
  dm_run_with fpath fp orc near fuel sparse superSparse false m = Ok d ->
  naming su_name -> naming sa_name -> naming ln_name -> (forall a, a ∈ doms -> a ∈ mp_summits d) ->
  map_to_dict md5 (store m su_name sa_name ln_name rim_of d doms pts) = Ok v -> map_from_dict newid md5 v = Ok p' ->
  loaded_joined p' e (su_name a) (su_name b) <-> joined (mp_world d) (fun i => e <= ele_at (mp_world d) (Sad i)) a b.
Proof.
  intros H1 H2 H3 H4 H5 H6 H7 H8 H9 Hd N1 N2 N3 Hdoms Hv Hp.
  pose proof (run_whole fpath fp orc near m H1 H2 H3 H4 H5 H6 H7 H8 fuel sparse superSparse d Hd) as Hw.
  destruct (stored_loads m su_name sa_name ln_name rim_of N1 N2 N3 d doms pts Hw Hdoms newid md5) as (v' & p2 & Hv' & Hp' & Hr).
  rewrite Hv in Hv'. injection Hv' as <-. rewrite Hp in Hp'. injection Hp' as <-.
  apply (loaded_graph m su_name sa_name ln_name rim_of N1 N2 N3 d doms pts); [|exact Hr].
  exact (run_meshed fpath fp orc near m H1 H2 H3 H4 H5 H6 H7 H8 H9 fuel sparse superSparse d Hd).
Qed.
Print Assumptions C60_graph.

(** C60.  The map that was analysed, saved and loaded joins two summits at level
    [e] if and only if the ground does. *)
Theorem C60_terrain fpath fp orc near fuel m su sa ru d0 d su_name sa_name ln_name rim_of doms pts newid md5 v p' x f a y g b e :
  mpaths_found fpath m -> sound_searches near m -> map_ok m -> north_up m -> climbable m ->
  pixels_in_reach m -> map_in_reach m -> paths_found fp m -> fine_grid m ->
  run_no_rebuild fp orc m = Ok (su, sa, ru) ->
  dm_run_with fpath fp orc near fuel true false false m = Ok d0 -> border_apart m (mp_world d0) (mp_saddles d0) ->
  dm_run_with fpath fp orc near fuel false false false m = Ok d ->
  naming su_name -> naming sa_name -> naming ln_name -> (forall a, a ∈ doms -> a ∈ mp_summits d) ->
  map_to_dict md5 (store m su_name sa_name ln_name rim_of d doms pts) = Ok v -> map_from_dict newid md5 v = Ok p' ->
  su !! x = Some f -> covers f a -> su !! y = Some g -> covers g b -> e <= elev m a -> e <= elev m b ->
  loaded_joined p' e (su_name x) (su_name y) <-> ground_joined m e a b.
Proof.
  intros H1 H2 H3 H4 H5 H6 H7 H8 H9 Hrun Hd0 Hap Hd N1 N2 N3 Hdoms Hv Hp Hx Ha Hy Hb He He'.
  rewrite (C60_graph fpath fp orc near fuel false false m d su_name sa_name ln_name rim_of doms pts newid md5 v p' e x y
    H1 H2 H3 H4 H5 H6 H7 H8 H9 Hd N1 N2 N3 Hdoms Hv Hp).
  destruct (with_walk fpath fp orc near m H2 H3 H7 H8 fuel false su sa ru d0 Hrun Hd0) as (objs & s & Hs & Hw).
  assert (dm_detect fuel m d0 = Ok d) as Hdet.
  { unfold dm_run_with in Hd, Hd0. rewrite Hrun in Hd, Hd0. cbn [rbind] in Hd, Hd0.
    destruct (dm_walk _ _ _ _) as [[d1 s1]|]; [|done]. cbn [rbind] in Hd, Hd0. by injection Hd0 as <-. }
  apply (parts_terrain fpath fp orc near m H1 H2 H3 H4 H5 H6 H7 H8 H9 su sa ru objs d0 s Hrun Hs Hw Hap fuel d);
    [done|by exists f|by exists g|done|done].
Qed.
Print Assumptions C60_terrain.

(** Two summits and two saddles, of which the second is disqualified, are saved
    and loaded. *)
Example C60_case :
  mpaths_found fpath_ends loop_map /\ sound_searches search0 loop_map /\ map_ok loop_map /\ north_up loop_map /\
  climbable loop_map /\ pixels_in_reach loop_map /\ map_in_reach loop_map /\ paths_found fp_unit0 loop_map /\
  fine_grid loop_map /\
  exists su sa ru d0 d, run_no_rebuild fp_unit0 orc_id loop_map = Ok (su, sa, ru) /\
    dm_run_with fpath_ends fp_unit0 orc_id search0 20 true false false loop_map = Ok d0 /\
    border_apart loop_map (mp_world d0) (mp_saddles d0) /\
    dm_run_with fpath_ends fp_unit0 orc_id search0 20 false false false loop_map = Ok d /\
    (forall a, a ∈ [0; 1]%nat -> a ∈ mp_summits d) /\
    exists v p', map_to_dict "f" (store_as loop_map d [0; 1]%nat (fun _ => [])) = Ok v /\ map_from_dict "new" "f" v = Ok p' /\
      map fst (pm_saddles p') = map (name_with "s") (mp_saddles d) /\
      map (fun e => (pa_single e.2 || pa_basin e.2, length (pa_links e.2))) (pm_saddles p') = [(false, 2%nat); (true, 2%nat)].
Proof.
  destruct loop_usable as (H1 & H2 & H3 & H4 & H5 & H6 & H7 & H8 & H9). do 9 (split; [assumption|]).
  eexists _, _, _, _, _. split; [vm_compute; reflexivity|]. split; [vm_compute; reflexivity|].
  split; [|split; [vm_compute; reflexivity|]].
  - intros i j x Hi _ [pa Hpa]. exfalso. apply elem_of_list_In in Hi. destruct Hi as [<-|[<-|[]]]; vm_compute in Hpa; done.
  - split; [apply Forall_forall; repeat constructor; apply elem_of_list_In; vm_compute; tauto|].
    eexists _, _. split; [vm_compute; reflexivity|]. split; [vm_compute; reflexivity|]. split; vm_compute; reflexivity.
Qed.

(** C60, refuted with [rebuildSaddles]: the map is saved but cannot be loaded. *)
Theorem C60_rebuilt_refuted :
  exists m fpath fp orc near, mpaths_found fpath m /\ sound_searches near m /\ map_ok m /\ north_up m /\ climbable m /\
    pixels_in_reach m /\ map_in_reach m /\ paths_found fp m /\
    exists fuel d v, dm_run_with fpath fp orc near fuel true false true m = Ok d /\
      map_to_dict "f" (store_as m d [] (fun _ => [])) = Ok v /\ map_from_dict "new" "f" v = Err KeyError.
Proof.
  exists ring_map, fpath_ends, fp_unit0, orc_id, search0.
  destruct ring_walkable as (H1 & H2 & H3 & H4 & H5 & H6 & H7 & H8). do 8 (split; [assumption|]).
  exists 30%nat. eexists _, _. split; [vm_compute; reflexivity|]. split; [vm_compute; reflexivity|]. vm_compute. reflexivity.
Qed.
Print Assumptions C60_rebuilt_refuted.

(** C68.  The result of an analysis, once saved and loaded, is not changed by
    saving and loading it again.  (C60_case meets the hypotheses, with the summits
    0 and 1 as [doms].) *)
Theorem C68_analysis fpath fp orc near fuel sparse superSparse m d su_name sa_name ln_name rim_of doms pts newid md5 newid' md5' v p1 :
  mpaths_found fpath m -> sound_searches near m -> map_ok m -> north_up m -> climbable m ->
  pixels_in_reach m -> map_in_reach m -> paths_found fp m -> fine_grid m ->
  dm_run_with fpath fp orc near fuel sparse superSparse false m = Ok d ->
  naming su_name -> naming sa_name -> naming ln_name -> NoDup doms -> (forall a, a ∈ doms -> a ∈ mp_summits d) ->
  map_to_dict md5 (store m su_name sa_name ln_name rim_of d doms pts) = Ok v -> map_from_dict newid md5 v = Ok p1 ->
  exists v', map_to_dict md5' p1 = Ok v' /\ map_from_dict newid' md5' v' = Ok p1.
Proof.
  intros H1 H2 H3 H4 H5 H6 H7 H8 H9 Hd N1 N2 N3 Hnd Hdoms Hv Hp.
  pose proof (run_whole fpath fp orc near m H1 H2 H3 H4 H5 H6 H7 H8 fuel sparse superSparse d Hd) as Hw.
  pose proof (run_meshed fpath fp orc near m H1 H2 H3 H4 H5 H6 H7 H8 H9 fuel sparse superSparse d Hd) as Hm.
  pose proof (stored_ids m su_name sa_name ln_name rim_of N1 N2 N3 d doms pts Hw) as Hi.
  destruct (stored_loads m su_name sa_name ln_name rim_of N1 N2 N3 d doms pts Hw Hdoms newid md5) as (v' & p2 & Hv' & Hp' & Hr).
  rewrite Hv in Hv'. injection Hv' as <-. rewrite Hp in Hp'. injection Hp' as <-.
  apply (same_again newid md5 _ v p1 Hi Hv Hp newid' md5').
  exact (firsts_all _ _ _ (rl_domains _ _ Hr) (stored_apart m su_name sa_name ln_name rim_of N1 d doms pts Hm Hnd)).
Qed.
Print Assumptions C68_analysis.
