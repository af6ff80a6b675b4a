(** Property C69: purging the result of an analysis. *)
From Verif Require Import Run_model Walk_model Raster_spec Closest_spec Feature_spec Network_spec Climb_spec Graph_spec
  Walk_spec Basin_model Basin_spec Terrain_spec Run_spec Rebuilt_spec Climb_facts Closest_proof Rebuild_facts Walk_example Run_example Divide_model
  Cull_spec Cull_proof Cull_run_proof Cull_example.
Local Open Scope Z_scope.

(** C69.  If no saddle was forced to be kept, purging removes only saddles that
    were disqualified anyway: the same nodes are open, at the same heights and with the
    same edges, the same summits are connected by saddles that are not
    disqualified, and each listed saddle that is not disqualified stays listed
    with its summits. *)
Theorem C69_network m a b c d : no_override (mp_world d) ->
  let d' := purge_saddles m a b c d in let w := mp_world d in let w' := mp_world d' in
  (forall n, (open_ w' n <-> open_ w n) /\ ele_at w' n = ele_at w n) /\
  (forall n n', edge w' n n' <-> edge w n n') /\
  (forall ok x y, joined w' ok x y <-> joined w ok x y) /\
  (forall i, i ∈ mp_saddles d -> not_disq w i -> i ∈ mp_saddles d' /\ not_disq w' i /\ summits_of w' i = summits_of w i).
Proof. exact (purge_network m a b c d). Qed.
Print Assumptions C69_network.

(** C69.  If moreover the links of flagged saddles are marked, the divide tree of
    the purged map is that of the map. *)
Theorem C69_divide m a b c d : no_override (mp_world d) -> flags_on_links (mp_world d) ->
  forall l t, run_tree m (mp_world (purge_saddles m a b c d)) l t = run_tree m (mp_world d) l t.
Proof. exact (purge_tree m a b c d). Qed.
Print Assumptions C69_divide.

(** C69.  The domain of a summit loses exactly the saddles at the place of a
    removed saddle that is linked to the summit. *)
Theorem C69_domains m a b c d y :
  let w := mp_world d in let w' := mp_world (purge_saddles m a b c d) in
  exists keep : nat -> bool,
    domain_saddles w' y = filter (fun x => keep x = true) (domain_saddles w y) /\
    forall x, keep x = true <-> ~ exists i, i ∈ mp_saddles d /\ goes a b c w i = true /\ y ∈ summits_of w i /\ same_place m w x i.
Proof. exact (purge_domain m a b c d y). Qed.
Print Assumptions C69_domains.

(** C69.  The result of an analysis, with or without [rebuildSaddles], meets both
    conditions: no saddle is forced to be kept, and the links of flagged saddles are marked. *)
Theorem C69_result fpath fp orc near fuel r m d d' :
  mpaths_found fpath m -> sound_searches near m -> map_ok m -> north_up m -> climbable m ->
  pixels_in_reach m -> map_in_reach m -> paths_found fp m -> fine_grid m ->
  dm_run_with fpath fp orc near fuel true false r m = Ok d ->
  dm_run_with fpath fp orc near fuel false false r m = Ok d' ->
  no_override (mp_world d') /\ flags_on_links (mp_world d').
Proof.
  intros H1 H2 H3 H4 H5 H6 H7 H8 H9 Hd Hd'.
  exact (culled_flags fpath fp orc near m H1 H2 H3 H4 H5 H6 H7 H8 H9 fuel r d d' Hd Hd').
Qed.
Print Assumptions C69_result.

(** C69.  In the purged result of an analysis two summits are connected by
    saddles not below [e] exactly if one can go on the map from one to the other
    without going below [e]; the proviso is that of C54 about border saddles. *)
Theorem C69_terrain fpath fp orc near fuel r m d d' a b c su sa ru x f u y g v e :
  mpaths_found fpath m -> sound_searches near m -> map_ok m -> north_up m -> climbable m ->
  pixels_in_reach m -> map_in_reach m -> paths_found fp m -> fine_grid m ->
  dm_run_with fpath fp orc near fuel true false r m = Ok d ->
  dm_run_with fpath fp orc near fuel false false r m = Ok d' ->
  border_apart m (mp_world d) (mp_saddles d) ->
  run_no_rebuild fp orc m = Ok (su, sa, ru) -> su !! x = Some f -> covers f u -> su !! y = Some g -> covers g v ->
  e <= elev m u -> e <= elev m v ->
  let w := mp_world (purge_saddles m a b c d') in
  joined w (fun i => e <= ele_at w (Sad i)) x y <-> ground_joined m e u v.
Proof.
  intros H1 H2 H3 H4 H5 H6 H7 H8 H9 Hd Hd'.
  exact (culled_terrain fpath fp orc near m H1 H2 H3 H4 H5 H6 H7 H8 H9 fuel r d d' Hd Hd' a b c su sa ru x f u y g v e).
Qed.
Print Assumptions C69_terrain.

(** A lower saddle between the same summits is purged; the result meets the
    hypotheses above and the divide tree is the same. *)
Example C69_case : exists d d',
  dm_run_with fpath_ends fp_unit0 orc_id search0 20 true false false loop_map = Ok d /\
  dm_run_with fpath_ends fp_unit0 orc_id search0 20 false false false loop_map = Ok d' /\
  border_apart loop_map (mp_world d) (mp_saddles d) /\
  no_override (mp_world d') /\ flags_on_links (mp_world d') /\
  mp_saddles d' = [6; 7]%nat /\ mp_saddles (purge_saddles loop_map true true false d') = [6]%nat /\
  mp_world (purge_saddles loop_map true true false d') <> mp_world d' /\
  domain_saddles (mp_world d') 0 = [6; 7]%nat /\
  domain_saddles (mp_world (purge_saddles loop_map true true false d')) 0 = [6]%nat.
Proof.
  destruct loop_usable as (H1 & H2 & H3 & H4 & H5 & H6 & H7 & H8 & H9).
  destruct (dm_run_with fpath_ends fp_unit0 orc_id search0 20 true false false loop_map) as [d|e] eqn:Hd; [|by vm_compute in Hd].
  destruct (dm_run_with fpath_ends fp_unit0 orc_id search0 20 false false false loop_map) as [d'|e] eqn:Hd'; [|by vm_compute in Hd'].
  exists d, d'. split; [done|]. split; [done|]. split.
  { vm_compute in Hd. injection Hd as <-. intros i j x Hi _ [pa Hpa] _ _ _. exfalso. cbn [mp_saddles mp_world] in *.
    repeat apply elem_of_cons in Hi as [->|Hi]; [by vm_compute in Hpa..|]. by apply elem_of_nil in Hi. }
  destruct (culled_flags fpath_ends fp_unit0 orc_id search0 loop_map H1 H2 H3 H4 H5 H6 H7 H8 H9 20 false d d' Hd Hd') as [F1 F2].
  split; [done|]. split; [done|]. clear -Hd'. vm_compute in Hd'. injection Hd' as <-.
  split_and!; [by vm_compute..| |by vm_compute|by vm_compute].
  intros H. apply (f_equal (fun w => domain_saddles w 0)) in H. by vm_compute in H.
Qed.

(** C69, refuted: a kept saddle need not stay in the domains of its summits.  Of
    the pieces that the walk makes of one saddle, one is removed because it leads
    to one summit only, and the other, at the same place, is dropped from the
    domain of that summit with it, although it stays linked to the summit. *)
Theorem C69_domain_refuted :
  exists m fpath fp orc near, mpaths_found fpath m /\ sound_searches near m /\ map_ok m /\ north_up m /\ climbable m /\
    pixels_in_reach m /\ map_in_reach m /\ paths_found fp m /\ fine_grid m /\
    exists d i y, dm_run_with fpath fp orc near 20 false false false m = Ok d /\
      let d' := purge_saddles m true true false d in
      i ∈ mp_saddles d' /\ not_disq (mp_world d') i /\ y ∈ mp_summits d' /\ y ∈ summits_of (mp_world d') i /\
      i ∈ domain_saddles (mp_world d) y /\ domain_saddles (mp_world d') y = [].
Proof.
  exists fork_map, fpath_ends, fp_unit0, orc_id, search0.
  destruct fork_usable as (H1 & H2 & H3 & H4 & H5 & H6 & H7 & H8 & H9). do 9 (split; [assumption|]).
  eexists _, 5%nat, 0%nat. split; [vm_compute; reflexivity|]. cbn zeta.
  split; [apply elem_of_list_In; vm_compute; tauto|].
  split; [eexists; split; [vm_compute; reflexivity|reflexivity]|].
  split; [apply elem_of_list_In; vm_compute; tauto|]. split; [apply elem_of_list_In; vm_compute; tauto|].
  split; [apply elem_of_list_In; vm_compute; tauto|]. by vm_compute.
Qed.
Print Assumptions C69_domain_refuted.
