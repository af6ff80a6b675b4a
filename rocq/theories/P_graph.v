(** Properties C30-C33: the saddle/summit object graph. *)
From Verif Require Import Graph_model Graph_spec Graph_proof Purge_proof Graph_example Region_spec Register_spec Register_proof.
Local Open Scope Z_scope.

(** C30.  After any history of assignments and disqualifications (newest first)
    the flags of a saddle are the values they were last given, and the saddle
    counts as disqualified according to the override if there is one, and
    otherwise if one of the two flags is set. *)
Theorem C30_state_machine h w i s : w_saddles w !! i = Some s ->
  exists s', w_saddles (foldr do_op w h) !! i = Some s' /\
    sa_single s' = latest gives_single i (sa_single s) h /\
    sa_basin s' = latest gives_basin i (sa_basin s) h /\
    sa_over s' = latest gives_over i (sa_over s) h /\
    disqualified s' = match latest gives_over i (sa_over s) h with
                      | Some b => b
                      | None => latest gives_single i (sa_single s) h ||
                                latest gives_basin i (sa_basin s) h
                      end.
Proof. exact (flags_history h w i s). Qed.
Print Assumptions C30_state_machine.

(** C30.  Disqualifying a saddle with its links marks exactly its own links and
    touches no other saddle and no summit. *)
Theorem C30_own_links basin single w i s : w_saddles w !! i = Some s ->
  let w' := disqualify_self_and_linkers basin single i w in
  w_saddles w' !! i = Some (Saddle (sa_feat s) (sa_links s) (sa_parent s) (sa_children s)
    (sa_single s || single) (sa_basin s || basin) (sa_alts s)
    (if basin || single then sa_over s else Some true)) /\
  (forall j, j <> i -> w_saddles w' !! j = w_saddles w !! j) /\
  length (w_saddles w') = length (w_saddles w) /\
  w_summits w' = w_summits w /\
  forall k, w_links w' !! k =
    (fun l => Link (ln_summit l) (ln_saddle l) (ln_disq l || bool_decide (k ∈ sa_links s))) <$> w_links w !! k.
Proof. exact (disqualify_spec basin single i w s). Qed.
Print Assumptions C30_own_links.

Example C30_case :
  exists s s', w_saddles w_apart !! 2%nat = Some s /\
    w_saddles (foldr do_op w_apart [(2%nat, OSingle false); (2%nat, ODisq true false);
       (1%nat, OOver (Some false))]) !! 2%nat = Some s' /\
    sa_single s = true /\ sa_single s' = false /\ disqualified s' = true /\ sa_over s' = None.
Proof. by eexists _, _. Qed.

(** C31.  Emancipating saddle [i] clears its parent and removes from its
    parent's children exactly those at the place of [i]; nothing else changes. *)
Theorem C31_emancipate m i w s : w_saddles w !! i = Some s ->
  w_summits (emancipate m i w) = w_summits w /\ w_links (emancipate m i w) = w_links w /\
  length (w_saddles (emancipate m i w)) = length (w_saddles w) /\
  forall j a, w_saddles w !! j = Some a ->
    exists b, w_saddles (emancipate m i w) !! j = Some b /\ same_but_family a b /\
      sa_parent b = (if decide (j = i) then None else sa_parent a) /\
      sa_children b `sublist_of` sa_children a /\
      forall x, x ∈ sa_children b <->
        x ∈ sa_children a /\ (sa_parent s = Some j -> ~ same_place m w x i).
Proof.
  exact (fun H => match emancipate_spec m i w s H with
                  | conj (conj A (conj B (conj C _))) E => conj A (conj B (conj C E)) end).
Qed.
Print Assumptions C31_emancipate.

(** C31.  Disowning clears the children of [i] and the parent of each of them;
    another saddle only loses children that are at the place of a child of [i]
    which has this saddle as parent. *)
Theorem C31_disown m i w s : w_saddles w !! i = Some s ->
  forall j a, w_saddles w !! j = Some a ->
    exists b, w_saddles (disown_children m i w) !! j = Some b /\
      sa_parent b = (if decide (j ∈ sa_children s) then None else sa_parent a) /\
      (j = i -> sa_children b = []) /\
      (j <> i -> sa_children b `sublist_of` sa_children a /\
        (forall x, x ∈ sa_children a -> x ∉ sa_children b ->
           exists c, c ∈ sa_children s /\ parent_of w c = Some j /\ same_place m w x c) /\
        (forall c, c ∈ sa_children s -> parent_of w c = Some j -> c ∉ sa_children b)).
Proof. exact (fun H => proj2 (disown_spec m i w s H)). Qed.
Print Assumptions C31_disown.

(** C31.  When siblings (and alternatives of one saddle) are at different
    places, parents and children keep referring to each other, and a deleted
    saddle disappears from all families and lists of alternatives. *)
Theorem C31_soft_delete m i w s :
  family w -> siblings_apart m w -> w_saddles w !! i = Some s ->
  family (soft_delete m i w) /\ siblings_apart m (soft_delete m i w) /\
  (forall c, parent_of (soft_delete m i w) c =
     if decide (c = i \/ parent_of w c = Some i) then None else parent_of w c) /\
  (forall p x, x ∈ children_of (soft_delete m i w) p <-> x ∈ children_of w p /\ p <> i /\ x <> i) /\
  (forall b x, x ∈ alts_of (soft_delete m i w) b <-> x ∈ alts_of w b /\ b <> i /\ x <> i).
Proof. exact (soft_delete_family m i w s). Qed.
Print Assumptions C31_soft_delete.

(** C31.  Deleting a saddle overrides it as disqualified, marks exactly its own
    links, and changes no flags, features or link lists of others. *)
Theorem C31_soft_delete_rest m i w s : w_saddles w !! i = Some s ->
  deleted [i] w (soft_delete m i w) /\
  exists b, w_saddles (soft_delete m i w) !! i = Some b /\
    sa_parent b = None /\ sa_children b = [] /\ sa_alts b = [].
Proof. exact (soft_delete_spec m i w s). Qed.
Print Assumptions C31_soft_delete_rest.

(** C31.  With two children at one place, emancipating one drops the other from
    the parent's list although it still names the parent. *)
Theorem C31_shared_place_refuted :
  exists m w i j p, i <> j /\ i ∈ children_of w p /\ j ∈ children_of w p /\
    parent_of (emancipate m i w) j = Some p /\ j ∉ children_of (emancipate m i w) p.
Proof.
  exists ex_map, w_shared, 1%nat, 2%nat, 0%nat. split; [done|].
  split; [apply elem_of_list_In; vm_compute; tauto|].
  split; [apply elem_of_list_In; vm_compute; tauto|].
  split; [by vm_compute|]. vm_compute. intros H. by apply elem_of_nil in H.
Qed.
Print Assumptions C31_shared_place_refuted.

Example C31_case : family w_apart /\ siblings_apart ex_map w_apart /\
  is_Some (w_saddles w_apart !! 0%nat) /\
  children_of (emancipate ex_map 1 w_apart) 0 = [2%nat] /\
  alts_of (soft_delete ex_map 0 w_apart) 3 = [] /\ parent_of (soft_delete ex_map 0 w_apart) 2 = None.
Proof.
  split; [exact w_apart_family|]. split; [exact w_apart_siblings|].
  split; [by eexists|]. split_and!; by vm_compute.
Qed.

(** C32.  Purging keeps exactly the saddles it was not asked to remove, in order,
    and the link table becomes the lists of links of the kept saddles; the
    removed saddles are deleted, are without family, and are in no domain of a
    summit they are linked to; the kept ones keep their state, and do not refer
    to removed ones. *)
Theorem C32_purge m a b c d :
  let d' := purge_saddles m a b c d in
  let w := mp_world d in let w' := mp_world d' in
  mp_summits d' = mp_summits d /\ mp_runoffs d' = mp_runoffs d /\
  mp_saddles d' = filter (fun i => stays a b c w i = true) (mp_saddles d) /\
  mp_linkers d' = concat (map (links_at w) (mp_saddles d')) /\
  deleted (filter (fun i => goes a b c w i = true) (mp_saddles d)) w w' /\
  (forall i, i ∈ mp_saddles d -> goes a b c w i = true ->
     exists s, w_saddles w' !! i = Some s /\ sa_parent s = None /\ sa_children s = [] /\ sa_alts s = [] /\
       forall k l, k ∈ sa_links s -> w_links w' !! k = Some l -> i ∉ domain_saddles w' (ln_summit l)) /\
  (family w -> siblings_apart m w -> family w' /\
     forall i j, i ∈ mp_saddles d -> goes a b c w i = true ->
       parent_of w' j <> Some i /\ i ∉ children_of w' j /\ i ∉ alts_of w' j).
Proof. exact (purge_spec m a b c d). Qed.
Print Assumptions C32_purge.

(** C32.  The links of everything that is not in the saddle container, such as
    runoffs, are dropped from the link table. *)
Theorem C32_runoff_links_dropped m a b c d k l : linked_up (mp_world d) ->
  w_links (mp_world d) !! k = Some l -> ln_saddle l ∉ mp_saddles d ->
  k ∉ mp_linkers (purge_saddles m a b c d).
Proof. exact (purge_runoff_links m a b c d k l). Qed.
Print Assumptions C32_runoff_links_dropped.

Example C32_case :
  family (mp_world ex_dmap) /\ siblings_apart ex_map (mp_world ex_dmap) /\ linked_up (mp_world ex_dmap) /\
  mp_saddles (purge_saddles ex_map true true false ex_dmap) = [0; 1]%nat /\
  mp_saddles (purge_saddles ex_map false true true ex_dmap) = [1; 2]%nat /\
  mp_linkers (purge_saddles ex_map true true false ex_dmap) = [0; 1; 2; 3]%nat.
Proof.
  split; [exact w_apart_family|]. split; [exact w_apart_siblings|]. split; [exact w_apart_linked|].
  split_and!; by vm_compute.
Qed.

(** C33.  The prominence of a link is the height of the summit over the saddle. *)
Theorem C33_prominence w k l su sa : w_links w !! k = Some l -> w_summits w !! ln_summit l = Some su ->
  w_saddles w !! ln_saddle l = Some sa ->
  exists p, prom w k = Some p /\ ft_ele (sa_feat sa) + p = ft_ele (su_feat su).
Proof. exact (prom_spec w k l su sa). Qed.
Print Assumptions C33_prominence.

(** C33.  The query for the saddles at the summit of link [k] gives nothing if
    [k] itself may not be followed, and otherwise the saddles of exactly those
    links at this summit that may be followed, in the order of the summit's
    list. *)
Theorem C33_via_summit w skip exempt k l : linked_up w -> w_links w !! k = Some l ->
  (~ follow w skip exempt k l -> saddles_connected_via_summit w skip exempt k = []) /\
  (follow w skip exempt k l -> exists su js, w_summits w !! ln_summit l = Some su /\
     js `sublist_of` su_links su /\
     (forall j, j ∈ js <-> exists lj, follow w skip exempt j lj /\ ln_summit lj = ln_summit l) /\
     Forall2 (fun j x => exists lj, w_links w !! j = Some lj /\ x = ln_saddle lj) js
       (saddles_connected_via_summit w skip exempt k)).
Proof. exact (via_summit_spec w skip exempt k l). Qed.
Print Assumptions C33_via_summit.

(** C33.  The same for the summits at the saddle of [k]. *)
Theorem C33_via_saddle w skip exempt k l : linked_up w -> w_links w !! k = Some l ->
  (~ follow w skip exempt k l -> summits_connected_via_saddle w skip exempt k = []) /\
  (follow w skip exempt k l -> exists sa js, w_saddles w !! ln_saddle l = Some sa /\
     js `sublist_of` sa_links sa /\
     (forall j, j ∈ js <-> exists lj, follow w skip exempt j lj /\ ln_saddle lj = ln_saddle l) /\
     Forall2 (fun j x => exists lj, w_links w !! j = Some lj /\ x = ln_summit lj) js
       (summits_connected_via_saddle w skip exempt k)).
Proof. exact (via_saddle_spec w skip exempt k l). Qed.
Print Assumptions C33_via_saddle.

(** C33.  The queries for links return exactly the links at the same summit
    (saddle) that may be followed, without [k] itself when asked, in order. *)
Theorem C33_linkers w skip k l excludeSelf : linked_up w -> w_links w !! k = Some l ->
  (exists su, w_summits w !! ln_summit l = Some su /\
    linkers_to_saddles_connected_via_summit w excludeSelf skip k `sublist_of` su_links su /\
    forall j, j ∈ linkers_to_saddles_connected_via_summit w excludeSelf skip k <->
      (exists lj, follow w skip (fun _ => false) j lj /\ ln_summit lj = ln_summit l) /\
      (excludeSelf = true -> j <> k)) /\
  (exists sa, w_saddles w !! ln_saddle l = Some sa /\
    linkers_to_summits_connected_via_saddle w excludeSelf skip k `sublist_of` sa_links sa /\
    forall j, j ∈ linkers_to_summits_connected_via_saddle w excludeSelf skip k <->
      (exists lj, follow w skip (fun _ => false) j lj /\ ln_saddle lj = ln_saddle l) /\
      (excludeSelf = true -> j <> k)).
Proof. exact (fun Hup Hl => linkers_via_spec w skip k l Hup Hl excludeSelf). Qed.
Print Assumptions C33_linkers.

(** C33.  The neighbours of a saddle are exactly the saddles that share a summit
    with it through two links that may be followed (the saddle itself
    included); likewise for summits. *)
Theorem C33_neighbors w fd i x : linked_up w ->
  (forall s, w_saddles w !! i = Some s ->
    x ∈ saddle_all_neighbors w fd i <->
    exists k l j lj, follow w fd (fun _ => false) k l /\ ln_saddle l = i /\
      follow w fd (fun _ => false) j lj /\ ln_summit lj = ln_summit l /\ ln_saddle lj = x) /\
  (forall s, w_summits w !! i = Some s ->
    x ∈ summit_all_neighbors w fd i <->
    exists k l j lj, follow w fd (fun _ => false) k l /\ ln_summit l = i /\
      follow w fd (fun _ => false) j lj /\ ln_saddle lj = ln_saddle l /\ ln_summit lj = x).
Proof.
  exact (fun Hup => conj (fun s => saddle_neighbors_spec w fd i s x Hup)
                         (fun s => summit_neighbors_spec w fd i s x Hup)).
Qed.
Print Assumptions C33_neighbors.

Example C33_case : linked_up w_apart /\ prom w_apart 1 = Some 4 /\
  saddles_connected_via_summit w_apart true (fun _ => false) 0 = [0; 1; 3]%nat /\
  saddles_connected_via_summit w_apart false (fun _ => false) 0 = [0; 1; 2; 3]%nat /\
  linkers_to_summits_connected_via_saddle w_apart true true 0 = [1]%nat /\
  saddle_all_neighbors w_apart true 1 = [0; 1; 3; 0; 1; 3]%nat.
Proof. split; [exact w_apart_linked|]. split_and!; by vm_compute. Qed.

(** C33.  Registering a link appends it to the list of its summit and to that of
    its saddle, in each case unless copies are to be ignored and the list has a
    link whose ends count as equal; nothing else changes. *)
Theorem C33_register m w ign k l su sa :
  w_links w !! k = Some l -> w_summits w !! ln_summit l = Some su -> w_saddles w !! ln_saddle l = Some sa ->
  let w' := add_to_remote m ign k w in
  w_links w' = w_links w /\
  (exists ks, w_summits w' = <[ln_summit l := Summit (su_feat su) ks (su_domain su)]> (w_summits w) /\ registered m w ign k (su_links su) ks) /\
  (exists ks, w_saddles w' = <[ln_saddle l := set_links ks sa]> (w_saddles w) /\ registered m w ign k (sa_links sa) ks).
Proof. exact (register_spec m w ign k l su sa). Qed.
Print Assumptions C33_register.

(** A second link between the same objects, and one that is new. *)
Example C33_register_case :
  let w k := World (w_saddles w_apart) (w_summits w_apart) (w_links w_apart ++ [k]) in
  let lists m ign k := let w' := add_to_remote m ign 7 (w k) in (map su_links (w_summits w'), map sa_links (w_saddles w')) in
  lists ex_map true (Link 1 1 false) = (map su_links (w_summits w_apart), map sa_links (w_saddles w_apart)) /\
  lists ex_map false (Link 1 1 false) = ([[0; 2; 4; 5]; [1; 3; 6; 7]], [[0; 1]; [2; 3; 7]; [4]; [5; 6]])%nat /\
  lists ex_map true (Link 1 2 false) = ([[0; 2; 4; 5]; [1; 3; 6; 7]], [[0; 1]; [2; 3]; [4; 7]; [5; 6]])%nat.
Proof. cbn zeta. split_and!; by vm_compute. Qed.
