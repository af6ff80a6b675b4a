(** Property C59: the analysis with all its options. *)
From Verif Require Import Run_model Walk_model Raster_spec Closest_spec Feature_spec Network_spec Climb_spec Graph_spec
  Walk_spec Basin_model Basin_spec Terrain_spec Run_spec Rebuilt_spec Start_proof Terrain_proof Run_proof Rebuilt_proof
  Climb_facts Closest_proof Walk_example Run_example.
Local Open Scope Z_scope.

(** C59.  With [superSparse] the run ends after discovery: no object has links or
    domains, the summits and runoffs are those found, and so are the saddles or,
    with [rebuildSaddles], the saddles made by splitting them, related to their
    border saddles as parents. *)
Theorem C59_discovery_only fpath fp orc near fuel sparse r m :
  sound_searches near m -> map_ok m -> map_in_reach m -> paths_found fp m ->
  exists su sa ru d, run_no_rebuild fp orc m = Ok (su, sa, ru) /\
    dm_run_with fpath fp orc near fuel sparse true r m = Ok d /\
    unlinked (mp_world d) /\ mp_linkers d = [] /\ families (mp_world d) /\
    map su_feat (w_summits (mp_world d)) = su /\ mp_summits d = seq 0 (length su) /\
    exists objs, w_saddles (mp_world d) = objs ++ map new_saddle ru /\
      mp_saddles d = seq 0 (length objs) /\ mp_runoffs d = seq (length objs) (length ru) /\
      if r then exists parts, Forall2 split_into sa parts /\ Forall2 made (concat parts) objs else map sa_feat objs = sa.
Proof.
  intros H1 H2 H3 H4. destruct (found_run fp orc m H2 H4) as (su & sa & ru & Hrun).
  destruct (begin_objects fp orc near m H1 H2 H3 H4 su sa ru r Hrun) as (objs & Hb & Hs & Hr & Ho).
  exists su, sa, ru, (dm_objects su objs ru). split; [done|]. unfold dm_run_with. fold (dm_begin fp orc near m r). rewrite Hb.
  split; [done|]. split; [exact (objects_unlinked m su sa ru objs Hs)|]. split; [done|]. split; [by apply related_families|].
  split; [cbn; rewrite map_map; apply map_id|]. split; [done|]. by exists objs.
Qed.
Print Assumptions C59_discovery_only.

(** C59.  With [sparse] the walk over what was discovered completes; its links,
    its pieces and their sides are as described for any walk. *)
Theorem C59_walk fpath fp orc near fuel sp r m su sa ru d0 :
  mpaths_found fpath m -> sound_searches near m -> map_ok m -> north_up m -> climbable m ->
  pixels_in_reach m -> map_in_reach m -> paths_found fp m ->
  run_no_rebuild fp orc m = Ok (su, sa, ru) -> dm_run_with fpath fp orc near fuel sp true r m = Ok d0 ->
  let dom := fun x t => exists f, su !! x = Some f /\ covers f t in
  exists d out, dm_run_with fpath fp orc near fuel true false r m = Ok d /\
    mp_saddles d ++ mp_runoffs d ≡ₚ out /\
    walk_links m dom (fun _ => []) 0 (mp_world d) out (mp_linkers d) /\
    walk_output (mp_world d0) (mp_world d) (mp_saddles d0 ++ mp_runoffs d0) out /\
    all_linked m dom (mp_world d0) (mp_world d) (mp_saddles d0 ++ mp_runoffs d0) out.
Proof.
  intros H1 H2 H3 H4 H5 H6 H7 H8 Hrun Hd0 dom.
  destruct (begin_objects fp orc near m H2 H3 H7 H8 su sa ru r Hrun) as (objs & Hb & Hs & _).
  unfold dm_run_with in *. fold (dm_begin fp orc near m r) in *. rewrite Hb in *. cbn in Hd0. injection Hd0 as <-.
  destruct (objects_walk fpath fp orc near m H1 H2 H3 H4 H5 H6 H7 H8 su sa ru objs Hrun Hs) as (d & s & Hd & _ & Hp & Hl & Ho & Ha).
  exists d, (ws_feats s). cbn [rbind]. rewrite Hd. done.
Qed.
Print Assumptions C59_walk.

(** C59.  The graph of the walk describes how the ground is connected. *)
Theorem C59_connected fpath fp orc near fuel r m su sa ru d x f a y g b e :
  mpaths_found fpath m -> sound_searches near m -> map_ok m -> north_up m -> climbable m ->
  pixels_in_reach m -> map_in_reach m -> paths_found fp m -> fine_grid m ->
  run_no_rebuild fp orc m = Ok (su, sa, ru) -> dm_run_with fpath fp orc near fuel true false r m = Ok d ->
  su !! x = Some f -> covers f a -> su !! y = Some g -> covers g b -> e <= elev m a -> e <= elev m b ->
  joined (mp_world d) (fun i => e <= ele_at (mp_world d) (Sad i)) x y <-> ground_joined m e a b.
Proof.
  intros H1 H2 H3 H4 H5 H6 H7 H8 H9 Hrun Hd Hx Ha Hy Hb.
  destruct (with_walk fpath fp orc near m H2 H3 H7 H8 fuel r su sa ru d Hrun Hd) as (objs & s & Hs & Hw).
  apply (terrain fpath fp orc near m H1 H2 H3 H4 H5 H6 H7 H8 H9 su sa ru objs d s Hrun Hs Hw); [by exists f|by exists g].
Qed.
Print Assumptions C59_connected.

(** C59.  If no saddle was found on the border, the whole analysis completes,
    leaves no closed chain, and keeps the connections. *)
Theorem C59_analysis fpath fp orc near fuel r m su sa ru d :
  mpaths_found fpath m -> sound_searches near m -> map_ok m -> north_up m -> climbable m ->
  pixels_in_reach m -> map_in_reach m -> paths_found fp m -> fine_grid m ->
  run_no_rebuild fp orc m = Ok (su, sa, ru) -> (forall f, f ∈ sa -> ft_edge f = false) ->
  dm_run_with fpath fp orc near fuel true false r m = Ok d ->
  (length (mp_saddles d) + length (w_saddles (mp_world d)) < fuel)%nat ->
  exists d', dm_run_with fpath fp orc near fuel false false r m = Ok d' /\
    (forall c, ~ closed (open_edge (mp_world d')) c) /\
    forall x f a y g b e, su !! x = Some f -> covers f a -> su !! y = Some g -> covers g b ->
      e <= elev m a -> e <= elev m b ->
      joined (mp_world d') (fun i => e <= ele_at (mp_world d') (Sad i)) x y <-> ground_joined m e a b.
Proof.
  intros H1 H2 H3 H4 H5 H6 H7 H8 H9 Hrun Hnb Hd Hfuel.
  destruct (with_walk fpath fp orc near m H2 H3 H7 H8 fuel r su sa ru d Hrun Hd) as (objs & s & Hs & Hw).
  pose proof (no_border_apart fpath fp orc near m H1 H2 H3 H4 H5 H6 H7 H8 H9 su sa ru objs d s Hrun Hs Hw Hnb) as Hap.
  destruct (parts_complete fpath fp orc near m H1 H2 H3 H4 H5 H6 H7 H8 H9 su sa ru objs d s Hrun Hs Hw Hap fuel Hfuel) as [d' Hd'].
  exists d'. split; [by apply (with_detect fpath fp orc near m fuel r d d' Hd)|]. split.
  - exact (parts_forest fpath fp orc near m H1 H2 H3 H4 H5 H6 H7 H8 H9 su sa ru objs d s Hrun Hs Hw Hap fuel d' Hd').
  - intros x f a y g b e Hx Ha Hy Hb.
    apply (parts_terrain fpath fp orc near m H1 H2 H3 H4 H5 H6 H7 H8 H9 su sa ru objs d s Hrun Hs Hw Hap fuel d'); [done|by exists f|by exists g].
Qed.
Print Assumptions C59_analysis.

(** C59.  Without options this is the run described by C54. *)
Theorem C59_default fpath fp orc near fuel m :
  dm_run_with fpath fp orc near fuel false false false m = dm_run fpath fp orc near fuel m.
Proof. exact (with_default fpath fp orc near fuel m). Qed.
Print Assumptions C59_default.

(** Two summits and two saddles, rebuilt: the hypotheses of the theorems above. *)
Example C59_case :
  mpaths_found fpath_ends loop_map /\ sound_searches search0 loop_map /\ map_ok loop_map /\ north_up loop_map /\
  climbable loop_map /\ pixels_in_reach loop_map /\ map_in_reach loop_map /\ paths_found fp_unit0 loop_map /\
  fine_grid loop_map /\
  exists su sa ru d0 d d' f g, run_no_rebuild fp_unit0 orc_id loop_map = Ok (su, sa, ru) /\
    dm_run_with fpath_ends fp_unit0 orc_id search0 20 true true true loop_map = Ok d0 /\
    dm_run_with fpath_ends fp_unit0 orc_id search0 20 true false true loop_map = Ok d /\
    dm_run_with fpath_ends fp_unit0 orc_id search0 20 false false true loop_map = Ok d' /\
    (forall f, f ∈ sa -> ft_edge f = false) /\
    (length (mp_saddles d) + length (w_saddles (mp_world d)) < 20)%nat /\
    su !! 0%nat = Some f /\ covers f (2, 1) /\ su !! 1%nat = Some g /\ covers g (2, 3) /\
    mp_saddles d0 = [0; 1]%nat /\ mp_saddles d = [6; 7]%nat /\ length (mp_linkers d) = 4%nat /\
    map disqualified (w_saddles (mp_world d)) = [false; false; false; false; false; false; false; false] /\
    map disqualified (w_saddles (mp_world d')) = [false; false; false; false; false; false; false; true].
Proof.
  destruct loop_usable as (H1 & H2 & H3 & H4 & H5 & H6 & H7 & H8 & H9). do 9 (split; [assumption|]).
  eexists _, _, _, _, _, _, _, _. do 4 (split; [vm_compute; reflexivity|]).
  split; [apply Forall_forall; repeat constructor|]. split; [vm_compute; lia|].
  split; [reflexivity|]. split; [left; split; reflexivity|]. split; [reflexivity|]. split; [left; split; reflexivity|].
  do 4 (split; [vm_compute; reflexivity|]). vm_compute. reflexivity.
Qed.

(** A border saddle, rebuilt: discovery relates the two saddles made from it. *)
Example C59_family_case :
  exists d, dm_run_with fpath_ends fp_unit0 orc_id search0 20 true true true ring_map = Ok d /\
    mp_saddles d = [0; 1]%nat /\ parent_of (mp_world d) 0 = Some 1%nat /\ children_of (mp_world d) 1 = [0%nat].
Proof. eexists. split; [vm_compute; reflexivity|]. repeat split. Qed.

(** C59, refuted: the children of a listed saddle need not be in the map.  With
    [rebuildSaddles], a border saddle names a saddle that the walk replaced. *)
Theorem C59_orphans_refuted :
  exists m fpath fp orc near, mpaths_found fpath m /\ sound_searches near m /\ map_ok m /\ north_up m /\ climbable m /\
    pixels_in_reach m /\ map_in_reach m /\ paths_found fp m /\
    exists fuel d i c, dm_run_with fpath fp orc near fuel true false true m = Ok d /\
      i ∈ mp_saddles d /\ c ∈ children_of (mp_world d) i /\ c ∉ mp_saddles d ++ mp_runoffs d.
Proof.
  exists ring_map, fpath_ends, fp_unit0, orc_id, search0.
  destruct ring_walkable as (H1 & H2 & H3 & H4 & H5 & H6 & H7 & H8). do 8 (split; [assumption|]).
  exists 30%nat. eexists _, 1%nat, 0%nat. split; [vm_compute; reflexivity|].
  split; [apply elem_of_list_In; vm_compute; tauto|]. split; [apply elem_of_list_In; vm_compute; tauto|].
  rewrite elem_of_list_In. vm_compute. intros H. repeat destruct H as [H|H]; try done.
Qed.
Print Assumptions C59_orphans_refuted.
