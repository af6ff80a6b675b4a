(** Properties C18, C19, C52: splitting saddles. *)
From Verif Require Import Tree_spec Network_model Raster_spec Closest_spec Feature_spec Network_spec
  Tree_proof Closest_proof Rebuild_proof Rebuild_facts Example_maps Placed_spec Placed_proof.
From Coq Require Import Reals Qreals.
Local Open Scope nat_scope.

(** C18.  The internal network of N >= 2 groups succeeds and consists of N - 1
    links between different groups that form a spanning tree. *)
Theorem C18_spanning_tree near m hpn :
  nearest_query near -> 2 <= length hpn -> (forall g, g ∈ hpn -> g <> []) -> in_reach m hpn ->
  exists links es, build_internal_tree (exact_searches near) m hpn = Ok links /\
    Forall2 (joins m hpn) links es /\ spanning_tree (length hpn) es.
Proof. exact (fun H => network_tree near m H hpn). Qed.
Print Assumptions C18_spanning_tree.

(** The child saddles made from it: N - 1 of them, one per link. *)
Theorem C18_children near m f :
  nearest_query near -> plain_head f -> 2 <= length (ft_hpn f) ->
  (forall g, g ∈ ft_hpn f -> g <> []) -> in_reach m (ft_hpn f) ->
  exists cs es, generate_child_saddles (exact_searches near) m f = Ok cs /\
    spanning_tree (length (ft_hpn f)) es /\ Forall2 (split_saddle f) cs es.
Proof. intros H1 H2 H3 H4 H5. apply children_ok; [by apply exact_answered|done]. Qed.
Print Assumptions C18_children.

(** C19.  Against every spanning tree made of cross pairs of points the chosen
    links can be matched so that none is longer than its partner. *)
Theorem C19_matching near m hpn T :
  nearest_query near -> 2 <= length hpn -> (forall g, g ∈ hpn -> g <> []) -> in_reach m hpn ->
  (forall g h, g ∈ hpn -> h ∈ hpn -> length g + length h < 100 \/ square_pixels m) ->
  spanning_tree (length hpn) (map fst T) ->
  (forall i j p q, (i, j, (p, q)) ∈ T ->
     exists g h, hpn !! i = Some g /\ hpn !! j = Some h /\ p ∈ g /\ q ∈ h) ->
  exists links, build_internal_tree (exact_searches near) m hpn = Ok links /\
  dominated (fun l (t : (nat * nat) * (pte * pte)) =>
    (vl_d2 l <= distance2 m (pt_xy t.2.1) (pt_xy t.2.2))%Q) links T.
Proof. exact (fun H => network_minimal near m H hpn T). Qed.
Print Assumptions C19_matching.

(** Hence their total length is least. *)
Theorem C19_total_length near m hpn T :
  nearest_query near -> 2 <= length hpn -> (forall g, g ∈ hpn -> g <> []) -> in_reach m hpn ->
  (forall g h, g ∈ hpn -> h ∈ hpn -> length g + length h < 100 \/ square_pixels m) ->
  spanning_tree (length hpn) (map fst T) ->
  (forall i j p q, (i, j, (p, q)) ∈ T ->
     exists g h, hpn !! i = Some g /\ hpn !! j = Some h /\ p ∈ g /\ q ∈ h) ->
  exists links, build_internal_tree (exact_searches near) m hpn = Ok links /\
  (foldr Rplus 0 (map (fun l => sqrt (Q2R (vl_d2 l))) links) <=
   foldr Rplus 0 (map (fun t : (nat * nat) * (pte * pte) =>
     sqrt (Q2R (distance2 m (pt_xy t.2.1) (pt_xy t.2.2)))) T))%R.
Proof. exact (network_total near m hpn T). Qed.
Print Assumptions C19_total_length.

(** Four groups around a flat area; the square of links 0-1, 1-2, 2-3, 3-0. *)
Definition four : list (list pte) :=
  [[(0, 0, 9)]; [(0, 5, 9); (0, 4, 9)]; [(6, 5, 9)]; [(7, 0, 9)]]%Z.
Example C18_case :
  nearest_query near0 /\ 2 <= length four /\ (forall g, g ∈ four -> g <> []) /\ in_reach map_a four /\
  map vl_d2 (match build_internal_tree search0 map_a four with Ok l => l | _ => [] end) =
    [16; 36; 26]%Q.
Proof.
  split_and!; [apply near0_ok|cbn; lia| | |vm_compute; reflexivity].
  - intros g Hg. repeat (apply elem_of_cons in Hg as [->|Hg]; [done|]). by apply elem_of_nil in Hg.
  - apply in_reach_check. vm_compute. reflexivity.
Qed.
Example C19_case :
  let T : list ((nat * nat) * (pte * pte)) :=
    [((0, 1), ((0, 0, 9), (0, 4, 9))%Z); ((1, 2), ((0, 5, 9), (6, 5, 9))%Z);
     ((3, 0), ((7, 0, 9), (0, 0, 9))%Z)] in
  (forall g h, g ∈ four -> h ∈ four -> length g + length h < 100 \/ square_pixels map_a) /\
  spanning_tree (length four) (map fst T).
Proof.
  intros T. split.
  - intros g h Hg Hh. left.
    repeat (apply elem_of_cons in Hg as [->|Hg];
      [repeat (apply elem_of_cons in Hh as [->|Hh]; [cbn; lia|]); by apply elem_of_nil in Hh|]).
    by apply elem_of_nil in Hg.
  - apply spanning_check; [reflexivity|reflexivity|].
    assert (H01 : joined (map fst T) 0 1) by (apply joined_edge; by left).
    intros [|[|[|[|i]]]] Hi; [apply joined_refl|done| | |cbn in Hi; lia].
    + eapply joined_trans; [exact H01|]. apply joined_edge. by right; left.
    + apply joined_sym, joined_edge. by right; right; left.
Qed.

(** C52.  A full discovery run with splitting succeeds.  Every saddle found is
    replaced by a spanning tree of new saddles (followed by itself,
    disqualified, if it is on the border); away from the border the new saddles
    lie on cells of the same flat area, at its elevation. *)
Theorem C52_run_with_splitting fp orc near m :
  map_ok m -> paths_found fp m -> sound_searches near m -> map_in_reach m ->
  exists su sa ru parts, analyze fp orc m = Ok (su, sa, ru) /\
    run_rebuild fp orc near m = Ok (su, concat parts, ru ++ map (fun c : xy =>
      Feat KRunoff c (elev m c) [] true [(c, elev m c)] [])
      [(dm_max_x m, 0%Z); (dm_max_x m, dm_max_y m); (0%Z, 0%Z); (0%Z, dm_max_y m)]) /\
    Forall2 split_into sa parts /\
    forall i f out, sa !! i = Some f -> parts !! i = Some out ->
      exists p, data_cell m p /\ two_sided m p /\ stands_for m p f /\ components (rim m p) (ft_hpn f) /\
      (~ on_edge m p -> forall pos e h c, New pos e h c ∈ out -> same_flat m p pos /\ e = elev m pos).
Proof. exact (run_rebuild_ok fp orc near m). Qed.
Print Assumptions C52_run_with_splitting.

(** C52.  Splitting any list of saddles: those with fewer than two groups stay as
    they are, every other is replaced as above. *)
Theorem C52_any_saddles near m fs :
  nearest_query near ->
  (forall f, f ∈ fs -> 2 <= length (ft_hpn f) ->
     plain_head f /\ (forall g, g ∈ ft_hpn f -> g <> []) /\ in_reach m (ft_hpn f)) ->
  exists parts, rebuildSaddles (exact_searches near) m fs = Ok (concat parts) /\
    Forall2 (fun f out => (length (ft_hpn f) < 2 /\ out = [Kept f false]) \/
                          (2 <= length (ft_hpn f) /\ split_into f out)) fs parts.
Proof.
  intros H Hf. apply rebuild_any. intros f H1 H2. destruct (Hf f H1 H2) as (H3 & H4 & H5). split; [by apply exact_answered|done].
Qed.
Print Assumptions C52_any_saddles.

(** On the border a new saddle can be placed on a higher cell outside the flat
    area: its recorded elevation is not that of its position. *)
Theorem C52_border_position_refuted :
  exists fp orc near m su sa ru, map_ok m /\ paths_found fp m /\ sound_searches near m /\ map_in_reach m /\
    run_rebuild fp orc near m = Ok (su, sa, ru) /\
    exists pos e h c, New pos e h c ∈ sa /\ (e < elev m pos)%Z.
Proof. exact misplaced_saddle. Qed.
Print Assumptions C52_border_position_refuted.

(** An interior flat area with three pieces of higher ground becomes two saddles. *)
Example C52_case :
  map_ok split_map /\ map_in_reach split_map /\ paths_found fp_unit split_map /\
  exists su ru, run_rebuild fp_unit (fun _ _ i => i) search0 split_map =
    Ok (su, [New (1, 2)%Z 5 [[(1, 1, 9)]; [(1, 3, 7)]]%Z None;
             New (2, 1)%Z 5 [[(3, 1, 8)]; [(1, 1, 9)]]%Z None], ru).
Proof. exact split_map_case. Qed.

(** A saddle with one group stays. *)
Example C52_any_case :
  let f := Feat KSaddle (1, 1)%Z 5 [] false [] [[(0, 0, 9)%Z]] in
  rebuildSaddles search0 split_map [f] = Ok [Kept f false].
Proof. reflexivity. Qed.

(** C52.  The new saddles of a run with exact distances are at cells of the old ones
    nearest to the middle of two points: of closest points of its two groups,
    whose highest points it keeps, or of the two points it keeps. *)
Theorem C52_placed fp orc near m :
  map_ok m -> paths_found fp m -> nearest_query near -> map_in_reach m ->
  exists su sa ru parts ru', analyze fp orc m = Ok (su, sa, ru) /\
    run_rebuild fp orc (exact_searches near) m = Ok (su, concat parts, ru') /\
    Forall2 (placed (closest_in m)) sa parts.
Proof.
  intros Hok Hp Hn Hr. apply (run_placed (Z.max (dm_max_x m) (dm_max_y m) + 1)%Z); [done|done|by apply exact_sound|done|].
  intros f H1 H2 H3 _. apply exact_placing; [done|done|done| |].
  - intros g h p q Hg Hh Hpg Hqh. apply Hr; eauto.
  - intros g z Hg Hz. specialize (H3 g z Hg Hz). unfold in_map, pt_xy in H3. unfold pt_x, pt_y. lia.
Qed.
Print Assumptions C52_placed.

(** A flat saddle of three cells between two summits becomes its middle cell. *)
Definition bridge_map : datamap :=
  row_map [[0; 0; 0; 0; 0; 0; 0]; [0; 9; 5; 5; 5; 8; 0]; [0; 0; 0; 0; 0; 0; 0]]%Z (Some (-99)%Z) unit_gt.
Example C52_placed_case :
  map_ok bridge_map /\ map_in_reach bridge_map /\ paths_found fp_unit bridge_map /\ nearest_query near0 /\
  exists su ru, run_rebuild fp_unit (fun _ _ i => i) (exact_searches near0) bridge_map =
    Ok (su, [New (1, 3)%Z 5 [[(1, 1, 9)]; [(1, 5, 8)]]%Z None], ru).
Proof.
  split; [by vm_compute|]. split; [apply map_in_reach_check; vm_compute; reflexivity|].
  split; [apply fp_unit_ok|]. split; [apply near0_ok|]. eexists _, _. vm_compute. reflexivity.
Qed.
