(** Properties C23-C25 and C44: walking from saddles to summits. *)
From Verif Require Import Walk_model Raster_spec Closest_spec Feature_spec Network_spec Climb_spec Graph_spec
  Walk_spec Walk_proof Again_proof Walked_proof Climb_facts Closest_proof Walk_example.
Local Open Scope Z_scope.

(** C23.  A walk over any lists of summits and saddles in any state that can be
    walked ends, and raises an exception only if some peak is not registered.
    Otherwise every new link is proper: it leads uphill from a group of its
    saddle (and then the summit is higher) or from the cell of a saddle without
    groups, the saddle is in the domain of the summit, and the lists of both
    ends contain it or an equal link; the lists contain nothing else that is
    new.  If all peaks are registered then every group of every piece of every
    saddle is linked. *)
Theorem C23_links fpath near m w summits feats :
  mpaths_found fpath m -> sound_searches near m -> map_ok m -> north_up m -> climbable m ->
  pixels_in_reach m -> map_in_reach m -> walk_input m w summits feats ->
  match climb_from_saddles fpath near m w summits feats with
  | Ok s =>
      walk_links m (summit_cell w summits) (domain_saddles w) (length (w_links w)) (ws_world s)
        (ws_feats s) (ws_linkers s) /\
      (all_peaks m w summits ->
         all_linked m (summit_cell w summits) w (ws_world s) feats (ws_feats s))
  | Err e => e <> OutOfFuel /\ ~ all_peaks m w summits
  end.
Proof.
  intros H1 H2 H3 H4 H5 H6 H7 I. pose proof (walk_claims fpath near m H1 H2 H3 H4 H5 H6 H7 w summits feats I) as H.
  destruct (climb_from_saddles fpath near m w summits feats); [|exact H].
  destruct H as (A & _ & B). exact (conj A B).
Qed.
Print Assumptions C23_links.

(** C23.  Discovery followed by a walk never raises an exception, and all this
    holds for its result. *)
Theorem C23_discovered fpath fp orc near m :
  mpaths_found fpath m -> sound_searches near m -> map_ok m -> north_up m -> climbable m ->
  pixels_in_reach m -> map_in_reach m -> paths_found fp m ->
  exists su sa ru d s, run_no_rebuild fp orc m = Ok (su, sa, ru) /\
    dm_run_sparse fpath fp orc near m = Ok (d, s) /\ ws_world s = mp_world d /\
    mp_saddles d ++ mp_runoffs d ≡ₚ ws_feats s /\
    let dom := fun d t => exists f, su !! d = Some f /\ covers f t in
    let d0 := dm_start su sa ru in
    walk_links m dom (fun _ => []) 0 (mp_world d) (ws_feats s) (mp_linkers d) /\
    walk_output (mp_world d0) (mp_world d) (mp_saddles d0 ++ mp_runoffs d0) (ws_feats s) /\
    all_linked m dom (mp_world d0) (mp_world d) (mp_saddles d0 ++ mp_runoffs d0) (ws_feats s).
Proof. exact (fun H1 H2 H3 H4 H5 H6 H7 => run_walk fpath near m H1 H2 H3 H4 H5 H6 H7 fp orc). Qed.
Print Assumptions C23_discovered.

(** C23.  Two links of the table can share one entry: link 1 of saddle 6 is in
    neither list, the equal link 0 is. *)
Theorem C23_shared_entry_refuted :
  exists d s o su, dm_run_sparse fpath_ends fp_unit0 orc_id search0 ring_map = Ok (d, s) /\
    1%nat ∈ mp_linkers d /\ w_links (mp_world d) !! 1%nat = Some (Link 0 6 false) /\
    w_saddles (mp_world d) !! 6%nat = Some o /\ w_summits (mp_world d) !! 0%nat = Some su /\
    1%nat ∉ sa_links o /\ 1%nat ∉ su_links su /\ 0%nat ∈ sa_links o /\ 0%nat ∈ su_links su /\
    equal_links ring_map (mp_world d) 1 0 /\ sa_parent o = Some 0%nat.
Proof.
  eexists _, _, _, _. split; [vm_compute; reflexivity|].
  cbn [mp_linkers mp_world w_links w_saddles w_summits lookup list_lookup].
  split; [by right; left|]. split; [reflexivity|]. split; [reflexivity|]. split; [reflexivity|].
  cbn [sa_links su_links sa_parent].
  split; [set_solver|]. split; [set_solver|]. split; [set_solver|]. split; [set_solver|].
  split; [by vm_compute|reflexivity].
Qed.
Print Assumptions C23_shared_entry_refuted.

(** C24.  The output of a walk is made of one piece of output per walked
    feature: the pieces of an interior saddle; the pieces of a border feature
    followed by the feature itself, which is disqualified and the parent of the
    pieces; only a runoff without groups that gets no link is listed alone. *)
Theorem C24_output fpath near m w summits feats s :
  mpaths_found fpath m -> sound_searches near m -> map_ok m -> north_up m -> climbable m ->
  pixels_in_reach m -> map_in_reach m -> walk_input m w summits feats ->
  climb_from_saddles fpath near m w summits feats = Ok s ->
  walk_output w (ws_world s) feats (ws_feats s).
Proof.
  intros H1 H2 H3 H4 H5 H6 H7 I E. pose proof (walk_claims fpath near m H1 H2 H3 H4 H5 H6 H7 w summits feats I) as H.
  rewrite E in H. destruct H as (_ & A & _). exact A.
Qed.
Print Assumptions C24_output.

(** C24.  Hence a border runoff that gets a link, or has groups, is listed twice
    and is its own parent and child. *)
Theorem C24_runoff_twice fpath near m w summits feats s i o o' k :
  mpaths_found fpath m -> sound_searches near m -> map_ok m -> north_up m -> climbable m ->
  pixels_in_reach m -> map_in_reach m -> walk_input m w summits feats ->
  climb_from_saddles fpath near m w summits feats = Ok s ->
  i ∈ feats -> w_saddles w !! i = Some o -> ft_kind (sa_feat o) = KRunoff -> ft_edge (sa_feat o) = true ->
  w_saddles (ws_world s) !! i = Some o' ->
  (k ∈ sa_links o' /\ (length (w_links w) <= k)%nat) \/ ft_hpn (sa_feat o) <> [] ->
  (exists l1 l2, ws_feats s = l1 ++ [i; i] ++ l2) /\
  parent_of (ws_world s) i = Some i /\ i ∈ children_of (ws_world s) i /\ sa_over o' = Some true.
Proof.
  exact (fun H1 H2 H3 H4 H5 H6 H7 I E =>
    runoff_twice w feats s i o o' k
      (C24_output fpath near m w summits feats s H1 H2 H3 H4 H5 H6 H7 I E)).
Qed.
Print Assumptions C24_runoff_twice.

(** C25.  After a walk, a second walk over the same summits and any list of
    saddles links nothing: the table it returns is empty, no list of links
    changes, and the saddles it adds have none.  It may raise an exception. *)
Theorem C25_second_walk fpath near m w summits feats s feats' :
  mpaths_found fpath m -> sound_searches near m -> map_ok m -> north_up m -> climbable m ->
  pixels_in_reach m -> map_in_reach m -> walk_input m w summits feats ->
  climb_from_saddles fpath near m w summits feats = Ok s ->
  match climb_from_saddles fpath near m (ws_world s) summits feats' with
  | Ok s' => ws_linkers s' = [] /\ w_links (ws_world s') = w_links (ws_world s) /\
      w_summits (ws_world s') = w_summits (ws_world s) /\ same_lists (ws_world s) (ws_world s')
  | Err e => e <> OutOfFuel
  end.
Proof.
  exact (fun H1 H2 H3 H4 H5 H6 H7 I E =>
    walk_twice fpath near m H1 H2 H3 H4 H5 H6 H7 w summits feats s I E feats').
Qed.
Print Assumptions C25_second_walk.

(** C25.  In particular for the map made by discovery and a first walk. *)
Theorem C25_discovered fpath fp orc near m d s :
  mpaths_found fpath m -> sound_searches near m -> map_ok m -> north_up m -> climbable m ->
  pixels_in_reach m -> map_in_reach m -> paths_found fp m ->
  dm_run_sparse fpath fp orc near m = Ok (d, s) ->
  match dm_walk fpath near m d with
  | Ok (d', _) => mp_linkers d' = [] /\ w_links (mp_world d') = w_links (mp_world d) /\
      w_summits (mp_world d') = w_summits (mp_world d) /\ same_lists (mp_world d) (mp_world d')
  | Err e => e <> OutOfFuel
  end.
Proof. exact (fun H1 H2 H3 H4 H5 H6 H7 => run_twice fpath near m H1 H2 H3 H4 H5 H6 H7 fp orc d s). Qed.
Print Assumptions C25_discovered.

(** C25.  The exception is real: with a flat summit the second walk fails. *)
Theorem C25_second_walk_fails :
  exists d s, dm_run_sparse fpath_ends fp_unit0 orc_id search0 mesa_map = Ok (d, s) /\
    mp_linkers d <> [] /\ exists e, dm_walk fpath_ends search0 mesa_map d = Err e.
Proof.
  eexists _, _. split; [vm_compute; reflexivity|]. split; [done|]. eexists. vm_compute. reflexivity.
Qed.
Print Assumptions C25_second_walk_fails.

(** C44.  The internal shortest path of a saddle with at least two groups is a
    path that was computed between points [u], [t] of its first two groups, and
    the result is the first, last and middle point of it.  It is a shortest one
    among those that do not start at the first point of the first group; when
    that is the only point, it is the path to the last point of the second
    group. *)
Theorem C44_considered fpath m f g0 g1 gs nodes :
  ft_hpn f = g0 :: g1 :: gs -> g0 <> [] -> g1 <> [] -> hpath_nodes m f = Ok nodes ->
  (forall u t, u ∈ g0 -> t ∈ g1 -> exists ns c,
     fpath m nodes (as_mpoint u) (as_mpoint t) = Some (ns, c) /\ ns <> []) ->
  exists r u t ns c, hpn_shortest_path fpath m f = Ok r /\ u ∈ g0 /\ t ∈ g1 /\
    fpath m nodes (as_mpoint u) (as_mpoint t) = Some (ns, c) /\ ends_of ns r /\
    (length g0 = 1%nat -> last g1 = Some t) /\
    ((2 <= length g0)%nat -> u ∈ tail g0 /\
       forall u' t' ns' c', u' ∈ tail g0 -> t' ∈ g1 ->
         fpath m nodes (as_mpoint u') (as_mpoint t') = Some (ns', c') -> (c <= c')%Q).
Proof. exact (hpn_path_spec fpath m f g0 g1 gs nodes). Qed.
Print Assumptions C44_considered.

(** C44.  The result need not be shortest: the path to (1,3) of cost 3 is
    computed, the path to (0,3) of cost 17/5 is returned. *)
Theorem C44_shortest_refuted :
  exists fpath m f nodes u t t' ns c ns' c' r, hpath_nodes m f = Ok nodes /\
    ft_hpn f = [[u]; [t'; t]] /\
    fpath m nodes (as_mpoint u) (as_mpoint t) = Some (ns, c) /\
    fpath m nodes (as_mpoint u) (as_mpoint t') = Some (ns', c') /\ (c' < c)%Q /\
    hpn_shortest_path fpath m f = Ok r /\ ends_of ns r /\ r.1.2 = as_mpoint t.
Proof.
  exists fpath_case, path_map, path_saddle.
  eexists _, ((1, 0), 5), ((0, 3), 4), ((1, 3), 6), _, _, _, _, _.
  split; [vm_compute; reflexivity|]. split; [reflexivity|]. split; [vm_compute; reflexivity|].
  split; [vm_compute; reflexivity|]. split; [reflexivity|]. split; [vm_compute; reflexivity|].
  split; [|reflexivity]. repeat split.
Qed.
Print Assumptions C44_shortest_refuted.

Example C23_case :
  mpaths_found fpath_ends ring_map /\ sound_searches search0 ring_map /\ map_ok ring_map /\ north_up ring_map /\
  climbable ring_map /\ pixels_in_reach ring_map /\ map_in_reach ring_map /\ paths_found fp_unit0 ring_map.
Proof. exact ring_walkable. Qed.

Example C25_case :
  exists d s d' s', dm_run_sparse fpath_ends fp_unit0 orc_id search0 ring_map = Ok (d, s) /\
    length (mp_linkers d) = 5%nat /\ ws_feats s = [6; 0; 1; 1; 2; 3; 4; 4; 5; 5]%nat /\
    dm_walk fpath_ends search0 ring_map d = Ok (d', s') /\ mp_linkers d' = [] /\
    ws_feats s' = [7; 8; 0; 1; 1; 2; 3; 4; 4; 5; 5]%nat.
Proof.
  eexists _, _, _, _. split; [vm_compute; reflexivity|]. split; [reflexivity|]. split; [reflexivity|].
  split; [vm_compute; reflexivity|]. split; reflexivity.
Qed.
