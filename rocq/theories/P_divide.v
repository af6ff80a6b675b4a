(** Property C49: exploring a divide tree. *)
From Verif Require Import Base_model Graph_model Divide_model Divide_spec Region_spec Divide_proof Limit_proof Region_list_proof Collect_proof Divide_example Basin_example Example_maps.
Local Open Scope Z_scope.

(** C49.  The exploration from a summit (which ends for every graph: it is a
    total function) enters every link at most once, and only links that can be
    reached from the summit by fewer than 400 steps down over saddles that are
    not disqualified and not on the border. *)
Theorem C49_once m w master t0 : own_links w ->
  let r := local_prominent_region m w master t0 in
  NoDup (lp_exempt r) /\ forall k, k ∈ lp_exempt r -> reach_within w 400 master k.
Proof. intros H. destruct (region_sound m w H master t0). by split. Qed.
Print Assumptions C49_once.

(** C49.  If the depth limit is not hit, all such links are entered. *)
Theorem C49_all m w master t0 : own_links w ->
  let r := local_prominent_region m w master t0 in
  lp_busted r = [] -> forall k, k ∈ lp_exempt r <-> reach w master k.
Proof.
  intros H r E k. split; [|exact (region_complete m w H master t0 E k)].
  intros Hk. destruct (so_reach _ _ _ _ (region_sound m w H master t0) k Hk) as (p & b & s & _ & Hr). by exists p, b, s.
Qed.
Print Assumptions C49_all.

Example C49_case : own_links g_tree /\
  let r := local_prominent_region map_a g_tree 0 no_tree in
  lp_busted r = [] /\ lp_exempt r = [0; 1; 2; 4; 5]%nat /\ lp_paths r = [([0; 1; 2], 1)]%nat /\
  lp_edge r = false /\ lp_at_summit r 0%nat = [1%nat] /\ lp_at_saddle r 1%nat = [0%nat].
Proof. split; [by apply own_links_b_sound|]. cbv zeta. split; [by vm_compute|]. split; [by vm_compute|]. split; [by vm_compute|]. split; by vm_compute. Qed.

(** C49.  The limit is hit only if 400 steps down are possible: otherwise no
    summit is added to the busted ones. *)
Theorem C49_limit m w master t0 : own_links w ->
  lp_busted (local_prominent_region m w master t0) = tr_busted t0 \/
  exists p b, length p = (2 * 400)%nat /\ leads w master p b.
Proof. exact (region_hit m w master t0). Qed.
Print Assumptions C49_limit.

(** C49.  If it is hit, links that can be reached are left out: here after 400
    steps down. *)
Theorem C49_depth_refuted : exists w, own_links w /\
  exists k, reach w 0 k /\ k ∉ lp_exempt (local_prominent_region map_a w 0 no_tree).
Proof.
  exists (g_ladder 401). split; [exact (ladder_own 401)|]. exists (2 * 400)%nat. assert (400 < 401)%nat as Hlt by lia.
  split; [exact (ladder_reach 401 400 Hlt)|]. intros Hin. apply (ladder_not 401 400 Hlt).
  exact (so_reach _ _ _ _ (region_sound map_a (g_ladder 401) (ladder_own 401) 0 no_tree) _ Hin).
Qed.
Print Assumptions C49_depth_refuted.

(** C49.  Every reported path leads from the summit down over adjacent links
    and by one more link to the reported saddle, is shorter than twice the
    depth limit, and ends there because of the border or because the saddle
    joins a summit higher than the last one. *)
Theorem C49_paths m w master t0 q s : own_links w -> (q, s) ∈ lp_paths (local_prominent_region m w master t0) ->
  ends_at w (fun b k s => border_at w b k s \/ divide_at w b k s) master q s /\ (length q < 2 * 400)%nat.
Proof. intros H. apply (region_sound m w H master t0). Qed.
Print Assumptions C49_paths.

(** C49.  The edge flag is set only if a reported path ends at the border, and
    always if one ends at a saddle on the border. *)
Theorem C49_edge m w master t0 : own_links w ->
  let r := local_prominent_region m w master t0 in
  (lp_edge r = true -> exists q s, (q, s) ∈ lp_paths r /\ ends_at w (border_at w) master q s) /\
  (forall q s, (q, s) ∈ lp_paths r -> live_saddle w s true -> lp_edge r = true).
Proof. intros H. destruct (region_sound m w H master t0). by split. Qed.
Print Assumptions C49_edge.

(** C49.  The boundary lists gain only saddles (and for a saddle only this
    summit) where a reported path meets a higher summit. *)
Theorem C49_boundary m w master t0 : own_links w ->
  let r := local_prominent_region m w master t0 in
  (forall s, s ∈ lp_at_summit r master -> s ∈ tr_at_summit t0 master \/
     exists q, (q, s) ∈ lp_paths r /\ ends_at w (divide_at w) master q s) /\
  (forall a, a <> master -> lp_at_summit r a = tr_at_summit t0 a) /\
  (forall a s, a ∈ lp_at_saddle r s -> a ∈ tr_at_saddle t0 s \/
     (a = master /\ exists q, (q, s) ∈ lp_paths r /\ ends_at w (divide_at w) master q s)).
Proof. intros H. destruct (region_sound m w H master t0). by split; [|split]. Qed.
Print Assumptions C49_boundary.

(** C49.  Every reported path is accounted for: it ends at the border and the edge
    flag is set, or it meets a higher summit and then the lists of the summit and
    of the saddle hold the other or an equal one. *)
Theorem C49_listed m w master t0 q s : own_links w -> (q, s) ∈ lp_paths (local_prominent_region m w master t0) ->
  let r := local_prominent_region m w master t0 in
  (lp_edge r = true /\ ends_at w (border_at w) master q s) \/
  (ends_at w (divide_at w) master q s /\ (exists s', s' ∈ lp_at_summit r master /\ saddle_alike m w s s') /\
   (exists a, a ∈ lp_at_saddle r s /\ summit_alike m w master a)).
Proof. intros H Hq. exact (region_listed m w H master t0 q s Hq). Qed.
Print Assumptions C49_listed.

Example C49_listed_case : own_links g_rim /\
  let r := local_prominent_region map_a g_rim 0 no_tree in
  lp_paths r = [([0; 1; 2], 1); ([0; 1; 4], 2)]%nat /\ lp_edge r = true /\ lp_at_summit r 0%nat = [1%nat] /\ lp_at_saddle r 1%nat = [0%nat].
Proof. split; [by apply own_links_b_sound|]. cbv zeta. split; [by vm_compute|]. split; [by vm_compute|]. split; by vm_compute. Qed.

(** C49.  The comparison is with the last summit of the path, not with the one
    explored: a boundary saddle need not join anything higher than it. *)
Theorem C49_boundary_refuted : exists w, own_links w /\
  exists s, s ∈ lp_at_summit (local_prominent_region map_a w 2 no_tree) 2 /\
    forall j c, at_saddle w s j -> joins w j c s -> ~ higher w c 2.
Proof.
  exists g_tree. split; [by apply own_links_b_sound|]. exists 0%nat. split; [by apply (bool_decide_unpack _); vm_compute|].
  intros j c _ (l & El & Ec & Es & _) (x & y & (su & E1 & E2) & (su' & E3 & E4) & Hlt).
  vm_compute in E3. injection E3 as <-. cbn in E4. subst y.
  do 6 (destruct j as [|j]; [cbn in El; injection El as <-; cbn in Ec, Es; try discriminate Es; subst c;
    vm_compute in E1; injection E1 as <-; cbn in E2; lia|]). done.
Qed.
Print Assumptions C49_boundary_refuted.

(** C49.  A run over all summits fails only if there is none; otherwise it
    finds the first of the highest summits and explores every summit once, in
    order, each as described above; if the tree ends with no busted summit,
    none of the explorations hit the limit. *)
Theorem C49_run m w summits t : own_links w ->
  match run_tree m w summits t with
  | Err e => summits = [] /\ e = IndexError
  | Ok (h, out, t') =>
      (exists l1 l2, summits = l1 ++ h :: l2 /\ Forall (fun a => summit_ele w a < summit_ele w h) l1 /\
         Forall (fun a => summit_ele w a <= summit_ele w h) l2) /\
      map fst out = summits /\
      forall a p, (a, p) ∈ out -> exists t0, p = local_prominent_region m w a t0 /\ (tr_busted t' = [] -> lp_busted p = [])
  end.
Proof.
  intros H. pose proof (run_tree_spec m w H summits t) as R. destruct (run_tree m w summits t) as [[[h out] t']|e]; [|exact R].
  destruct R as (R1 & R2 & R3). split; [exact (first_highest_spec w summits h R1)|by split].
Qed.
Print Assumptions C49_run.

Example C49_run_case : match run_tree map_a g_tree [0; 1; 2; 3]%nat no_tree with
  | Ok (h, out, t') => h = 2%nat /\ tr_busted t' = [] /\
      map (fun x => (x.1, lp_paths x.2)) out =
        [(0, [([0; 1; 2], 1)]); (1, [([1], 0); ([2], 1)]); (2, [([3; 2; 1], 0)]); (3, [([5], 2)])]%nat
  | Err _ => False
  end.
Proof. vm_compute. by repeat split. Qed.

(** C49.  A run over all summits collects the boundaries: each reported path that
    ends at a higher summit is listed at its summit and at its saddle, the lists
    gain nothing else and lose nothing, and every busted summit is listed. *)
Theorem C49_collected m w summits t h out t' : own_links w -> run_tree m w summits t = Ok (h, out, t') ->
  (forall a p q s, (a, p) ∈ out -> (q, s) ∈ lp_paths p ->
    (lp_edge p = true /\ ends_at w (border_at w) a q s) \/
    (ends_at w (divide_at w) a q s /\ (exists s', s' ∈ tr_at_summit t' a /\ saddle_alike m w s s') /\
     (exists a', a' ∈ tr_at_saddle t' s /\ summit_alike m w a a'))) /\
  (forall a s, s ∈ tr_at_summit t' a -> s ∈ tr_at_summit t a \/
    exists p q, (a, p) ∈ out /\ (q, s) ∈ lp_paths p /\ ends_at w (divide_at w) a q s) /\
  (forall a s, a ∈ tr_at_saddle t' s -> a ∈ tr_at_saddle t s \/
    exists p q, (a, p) ∈ out /\ (q, s) ∈ lp_paths p /\ ends_at w (divide_at w) a q s) /\
  (forall a s, (s ∈ tr_at_summit t a -> s ∈ tr_at_summit t' a) /\ (a ∈ tr_at_saddle t s -> a ∈ tr_at_saddle t' s)) /\
  (forall a, a ∈ tr_busted t' -> a ∈ tr_busted t \/ a ∈ summits) /\
  (forall a, a ∈ tr_busted t -> a ∈ tr_busted t') /\
  (forall a p x, (a, p) ∈ out -> x ∈ lp_busted p -> x ∈ tr_busted t').
Proof. intros H. exact (run_collects m w H summits t h out t'). Qed.
Print Assumptions C49_collected.

Example C49_collected_case : own_links g_tree /\ exists out t', run_tree map_a g_tree [0; 1; 2; 3]%nat no_tree = Ok (2%nat, out, t') /\
  tr_at_saddle t' 0%nat = [1; 2]%nat /\ tr_at_summit t' 1%nat = [0; 1]%nat.
Proof. split; [by apply own_links_b_sound|]. eexists _, _. split; [vm_compute; reflexivity|]. split; vm_compute; reflexivity. Qed.
