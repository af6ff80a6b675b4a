(** Property C72: walking from chosen saddles. *)
From Verif Require Import Run_model Walk_model Part_model Raster_spec Closest_spec Feature_spec Network_spec Climb_spec Graph_spec
  Walk_spec Basin_spec Terrain_spec Run_spec Persist_model Persist_spec Store_model Part_spec Walked_proof Found_proof Part_proof Part_run_proof
  Climb_facts Closest_proof Walk_example Run_example Store_example Links_proof Run_proof.
Local Open Scope nat_scope.

(** C72.  Walking from a list of saddles leaves the lists of summits, saddles and
    runoffs of the map as they are, and all saddles that were not given. *)
Theorem C72_others fpath near m given d d' out s : given <> [] -> dm_walk_given fpath near m given d = Ok (d', out, s) ->
  mp_summits d' = mp_summits d /\ mp_saddles d' = mp_saddles d /\ mp_runoffs d' = mp_runoffs d /\
  others_kept given (mp_world d) (mp_world d').
Proof.
  intros Hne E. destruct (given_walk fpath near m given d d' out s Hne E) as (Ec & -> & _ & -> & -> & -> & _).
  split_and!; try done; apply (walk_kept fpath near m _ _ _ _ Ec).
Qed.
Print Assumptions C72_others.

(** C72.  It returns what the walk made of the given saddles, runoffs apart.  The
    map's list of links is replaced by the links of this walk. *)
Theorem C72_returned fpath near m given d d' out s :
  mpaths_found fpath m -> sound_searches near m -> map_ok m -> north_up m -> climbable m ->
  pixels_in_reach m -> map_in_reach m -> walk_input m (mp_world d) (mp_summits d) given -> given <> [] ->
  dm_walk_given fpath near m given d = Ok (d', out, s) ->
  exists sa ru, out = Some (sa, ru) /\
    (forall i, i ∈ sa -> Walk_model.is_runoff (mp_world d') i = false) /\ (forall i, i ∈ ru -> Walk_model.is_runoff (mp_world d') i = true) /\
    walk_links m (summit_cell (mp_world d) (mp_summits d)) (domain_saddles (mp_world d)) (length (w_links (mp_world d)))
      (mp_world d') (sa ++ ru) (mp_linkers d') /\
    (exists out', out' ≡ₚ sa ++ ru /\ walk_output (mp_world d) (mp_world d') given out') /\
    (all_peaks m (mp_world d) (mp_summits d) ->
       all_linked m (summit_cell (mp_world d) (mp_summits d)) (mp_world d) (mp_world d') given (sa ++ ru)).
Proof.
  intros H1 H2 H3 H4 H5 H6 H7 I Hne E.
  destruct (given_walk fpath near m given d d' out s Hne E) as (Ec & -> & -> & _ & _ & _ & sa & ru & -> & Hp & Ha & Hb).
  pose proof (walk_claims fpath near m H1 H2 H3 H4 H5 H6 H7 _ _ _ I) as H. rewrite Ec in H. destruct H as ([A1 A2 A3 A4 A5] & B & C).
  exists sa, ru. split; [done|]. split; [done|]. split; [done|]. split_and!.
  - split; try done. intros k l Hk Hn. destruct (A2 k l Hk Hn) as (o & u & ds & K1 & K2 & K3 & K4 & K5).
    exists o, u, ds. split; [done|]. split; [done|]. split; [done|]. split; [by rewrite Hp|done].
  - by exists (ws_feats s).
  - intros Hpk i o Hi Ho. destruct (C Hpk i o Hi Ho) as (ps & K1 & K2). exists ps. split; [done|]. intros p Hin.
    destruct (K2 p Hin). by rewrite Hp.
Qed.
Print Assumptions C72_returned.

(** C72.  So after a walk from an interior saddle with two groups, all peaks being
    registered, the map's list of links has one to a saddle that the map does
    not list. *)
Theorem C72_unlisted fpath near m given d d' out s i o :
  mpaths_found fpath m -> sound_searches near m -> map_ok m -> north_up m -> climbable m ->
  pixels_in_reach m -> map_in_reach m -> walk_input m (mp_world d) (mp_summits d) given ->
  all_peaks m (mp_world d) (mp_summits d) -> (forall j, j ∈ mp_saddles d ++ mp_runoffs d -> j < length (w_saddles (mp_world d))) ->
  dm_walk_given fpath near m given d = Ok (d', out, s) ->
  i ∈ given -> w_saddles (mp_world d) !! i = Some o -> ft_edge (sa_feat o) = false -> 2 <= length (ft_hpn (sa_feat o)) ->
  exists k l, k ∈ mp_linkers d' /\ w_links (mp_world d') !! k = Some l /\ ln_saddle l ∉ mp_saddles d' ++ mp_runoffs d'.
Proof.
  intros H1 H2 H3 H4 H5 H6 H7 I Hpk Hlt E Hi Ho He Hl.
  destruct (given_unlisted fpath near m H1 H2 H3 H4 H5 H6 H7 given d d' out s i o I Hpk E Hi Ho He Hl) as (k & l & Hk & Hkl & Hge).
  exists k, l. split; [done|]. split; [done|]. intros Hin.
  destruct (C72_others fpath near m given d d' out s ltac:(by intros ->; apply elem_of_nil in Hi) E) as (_ & E1 & E2 & _).
  rewrite E1, E2 in Hin. apply Hlt in Hin. lia.
Qed.
Print Assumptions C72_unlisted.

(** C72.  After an analysis, with or without basin saddle detection, a walk from
    any saddles empties the map's lists of links and of domains and links
    nothing. *)
Theorem C72_analysed fpath fp orc near fuel sparse r m d given d' out s :
  mpaths_found fpath m -> sound_searches near m -> map_ok m -> north_up m -> climbable m ->
  pixels_in_reach m -> map_in_reach m -> paths_found fp m ->
  dm_run_with fpath fp orc near fuel sparse false r m = Ok d -> given <> [] ->
  dm_walk_given fpath near m given d = Ok (d', out, s) ->
  mp_linkers d' = [] /\ ws_doms s = [] /\ w_links (mp_world d') = w_links (mp_world d) /\
  w_summits (mp_world d') = w_summits (mp_world d) /\ same_lists (mp_world d) (mp_world d').
Proof.
  intros H1 H2 H3 H4 H5 H6 H7 H8 Hd Hne E.
  destruct (analysed_ready fpath near m H1 H2 H3 H4 H5 H6 H7 fp orc H8 fuel sparse r d Hd) as [K1 K2].
  exact (given_late fpath near m H1 H2 H3 H4 H5 H6 H7 given d d' out s Hne K1 K2 E).
Qed.
Print Assumptions C72_analysed.

(** A map after discovery and one after the analysis, each with a saddle to walk
    from. *)
Example C72_case :
  mpaths_found fpath_ends loop_map /\ sound_searches search0 loop_map /\ map_ok loop_map /\ north_up loop_map /\
  climbable loop_map /\ pixels_in_reach loop_map /\ map_in_reach loop_map /\ paths_found fp_unit0 loop_map /\
  (exists d o d' out s, dm_run_with fpath_ends fp_unit0 orc_id search0 20 false true false loop_map = Ok d /\
    walk_input loop_map (mp_world d) (mp_summits d) [1] /\ all_peaks loop_map (mp_world d) (mp_summits d) /\
    (forall j, j ∈ mp_saddles d ++ mp_runoffs d -> j < length (w_saddles (mp_world d))) /\
    dm_walk_given fpath_ends search0 loop_map [1] d = Ok (d', out, s) /\
    w_saddles (mp_world d) !! 1 = Some o /\ ft_edge (sa_feat o) = false /\ length (ft_hpn (sa_feat o)) = 2 /\
    mp_saddles d' = [0; 1] /\ out = Some ([6], []) /\ mp_linkers d' = [0; 1]) /\
  (exists d d' s, dm_run_with fpath_ends fp_unit0 orc_id search0 20 false false false loop_map = Ok d /\
    dm_walk_given fpath_ends search0 loop_map [6] d = Ok (d', Some ([8], []), s) /\
    mp_linkers d = [0; 1; 2; 3] /\ mp_linkers d' = []).
Proof.
  destruct loop_usable as (H1 & H2 & H3 & H4 & H5 & H6 & H7 & H8 & _). do 8 (split; [assumption|]). split.
  - destruct (found_run fp_unit0 orc_id loop_map H3 H8) as (su & sa & ru & Hrun).
    destruct (start_input loop_map fp_unit0 orc_id H3 H8 su sa ru Hrun) as ([I1 I2 I3 I4 I5 I6 I7 I8 I9 I10 I11] & Hpk & _).
    assert (dm_run_with fpath_ends fp_unit0 orc_id search0 20 false true false loop_map = Ok (dm_start su sa ru)) as Hd.
    { unfold dm_run_with. by rewrite Hrun. }
    assert (exists o d' out s, 1 ∈ mp_saddles (dm_start su sa ru) ++ mp_runoffs (dm_start su sa ru) /\
      dm_walk_given fpath_ends search0 loop_map [1] (dm_start su sa ru) = Ok (d', out, s) /\
      w_saddles (mp_world (dm_start su sa ru)) !! 1 = Some o /\ ft_edge (sa_feat o) = false /\ length (ft_hpn (sa_feat o)) = 2 /\
      mp_saddles d' = [0; 1] /\ out = Some ([6], []) /\ mp_linkers d' = [0; 1]) as (o & d' & out & s & Hin & H).
    { clear - Hrun. vm_compute in Hrun. injection Hrun as <- <- <-. eexists _, _, _, _. split; [apply elem_of_list_In; vm_compute; tauto|].
      split; [vm_compute; reflexivity|]. split; [vm_compute; reflexivity|]. split_and!; vm_compute; reflexivity. }
    exists (dm_start su sa ru), o, d', out, s. split; [exact Hd|]. split; [|split; [exact Hpk|split; [|exact H]]].
    + split; [exact I1|exact I2|exact I3|exact I4|exact I5|exact I6|apply NoDup_singleton| |exact I9|exact I10|exact I11].
      intros i Hi. apply elem_of_list_singleton in Hi as ->. exact (I8 1 Hin).
    + intros j Hj. apply lookup_lt_is_Some. exact (I8 j Hj).
  - eexists _, _, _. split; [vm_compute; reflexivity|]. split; [vm_compute; reflexivity|]. split; vm_compute; reflexivity.
Qed.

(** C72, "don't modify the DomainMap" refuted: the map made by discovery cannot
    be loaded after it was walked from one saddle and saved, although it could
    before. *)
Theorem C72_saved_refuted :
  exists d d' out s, dm_run_with fpath_ends fp_unit0 orc_id search0 20 false true false loop_map = Ok d /\
    dm_walk_given fpath_ends search0 loop_map [1] d = Ok (d', out, s) /\
    (exists v p, map_to_dict "f" (store_as loop_map d [] (fun _ => [])) = Ok v /\ map_from_dict "new" "f" v = Ok p) /\
    exists v, map_to_dict "f" (store_as loop_map d' [] (fun _ => [])) = Ok v /\ map_from_dict "new" "f" v = Err KeyError.
Proof.
  eexists _, _, _, _. split; [vm_compute; reflexivity|]. split; [vm_compute; reflexivity|]. split.
  - eexists _, _. split; [vm_compute; reflexivity|]. vm_compute; reflexivity.
  - eexists. split; [vm_compute; reflexivity|]. vm_compute; reflexivity.
Qed.
Print Assumptions C72_saved_refuted.

(** C72, refuted likewise after the analysis: saved and loaded, the map has no
    links any more. *)
Theorem C72_lost_refuted :
  exists d d' out s, dm_run_with fpath_ends fp_unit0 orc_id search0 20 false false false loop_map = Ok d /\
    dm_walk_given fpath_ends search0 loop_map [6] d = Ok (d', out, s) /\
    (exists v p, map_to_dict "f" (store_as loop_map d [] (fun _ => [])) = Ok v /\ map_from_dict "new" "f" v = Ok p /\
       map (fun e => length (pa_links e.2)) (pm_saddles p) = [2; 2]) /\
    exists v p, map_to_dict "f" (store_as loop_map d' [] (fun _ => [])) = Ok v /\ map_from_dict "new" "f" v = Ok p /\
       map (fun e => length (pa_links e.2)) (pm_saddles p) = [0; 0].
Proof.
  eexists _, _, _, _. split; [vm_compute; reflexivity|]. split; [vm_compute; reflexivity|]. split.
  - eexists _, _. split; [vm_compute; reflexivity|]. split; vm_compute; reflexivity.
  - eexists _, _. split; [vm_compute; reflexivity|]. split; vm_compute; reflexivity.
Qed.
Print Assumptions C72_lost_refuted.
