(** Properties C20-C22 and C67: climbing to a summit. *)
From Verif Require Import Climb_model Raster_spec Closest_spec Feature_spec Climb_spec Climb_proof
  Climb_facts Closest_proof Example_maps Shelf_spec Shelf_proof.
Local Open Scope Z_scope.

(** C20.  Whatever lists of cells are registered as domains, and after any
    sequence of climbs, climbing from a data cell ends; if it ends in a domain
    then a path that never descends leads from the start to a registered cell of
    this domain. *)
Theorem C20_climb_terminates near m doms s0 s p :
  sound_searches near m -> map_ok m -> north_up m -> climbable m -> pixels_in_reach m ->
  registered doms s0 -> NoDup (concat doms) -> (forall c, c ∈ concat doms -> data_cell m c) ->
  walked near m s0 s -> data_cell m p ->
  climb near m (p, elev m p) s <> Err OutOfFuel /\
  forall d s', climb near m (p, elev m p) s = Ok (Some d, s') ->
    exists cs t, doms !! d = Some cs /\ t ∈ cs /\ uphill m p t.
Proof. exact (fun Hn Hok Hup Hl Hr => climb_any near m Hn Hok Hup Hl Hr doms s0 s p). Qed.
Print Assumptions C20_climb_terminates.

(** C21.  When the discovered summits are registered, every climb from a data
    cell returns the domain of one of them, reached without descending, and the
    start is recorded under it. *)
Theorem C21_climb_reaches_summit fp orc near m su sa ru s0 s p :
  sound_searches near m -> map_ok m -> north_up m -> climbable m -> pixels_in_reach m ->
  paths_found fp m -> analyze fp orc m = Ok (su, sa, ru) -> prepopulate m su = Ok s0 ->
  walked near m s0 s -> data_cell m p ->
  exists d f t s', climb near m (p, elev m p) s = Ok (Some d, s') /\
    cs_table s' !! p = Some d /\ su !! d = Some f /\ covers f t /\ uphill m p t.
Proof. exact (fun Hn Hok Hup Hl Hr => climb_summit near m Hn Hok Hup Hl Hr fp orc su sa ru s0 s p). Qed.
Print Assumptions C21_climb_reaches_summit.

(** C21.  Climbing from several data cells collects, each once, the domains that
    they lead to: every cell leads to one of them and none is added. *)
Theorem C21_climb_many fp orc near m su sa ru s0 s ps :
  sound_searches near m -> map_ok m -> north_up m -> climbable m -> pixels_in_reach m ->
  paths_found fp m -> analyze fp orc m = Ok (su, sa, ru) -> prepopulate m su = Ok s0 ->
  walked near m s0 s -> (forall p, p ∈ ps -> data_cell m p.1 /\ p.2 = elev m p.1) ->
  exists ds s', climb_points near m ps s = Ok (ds, s') /\ walked near m s0 s' /\ NoDup ds /\
    (forall p, p ∈ ps -> exists d f t, d ∈ ds /\ su !! d = Some f /\ covers f t /\ uphill m p.1 t) /\
    (forall d, d ∈ ds -> exists p f t, p ∈ ps /\ su !! d = Some f /\ covers f t /\ uphill m p.1 t).
Proof.
  exact (fun Hn Hok Hup Hl Hr Hp Ha Hpre Hw Hd => climb_many near m Hn Hok Hup Hl Hr fp orc su sa ru s0 ps Hp Ha Hpre Hd s Hw).
Qed.
Print Assumptions C21_climb_many.

(** C22.  At any time during a walk no cell is listed twice, in one domain or
    in two; a listed cell is recorded, and under the same domain unless it
    belongs to a flat area of several cells with higher ground around it; the
    cells of registered peaks stay recorded under their own domain; a recorded
    cell leads uphill to its domain. *)
Theorem C22_domains_disjoint near m doms s0 s :
  sound_searches near m -> map_ok m -> north_up m -> climbable m -> pixels_in_reach m ->
  registered doms s0 -> NoDup (concat doms) -> (forall c, c ∈ concat doms -> data_cell m c) ->
  walked near m s0 s ->
  NoDup (map snd (cs_log s)) /\
  (forall d c, c ∈ domain_points s d -> cs_table s !! c = Some d \/
     exists d' c' q, cs_table s !! c = Some d' /\ same_flat m c c' /\ c' <> c /\ higher_rim m c q) /\
  (forall d c, in_doms doms d c -> peak m c -> cs_table s !! c = Some d) /\
  (forall d c, cs_table s !! c = Some d -> exists t, in_doms doms d t /\ uphill m c t).
Proof. exact (fun Hn Hok Hup Hl Hr => climb_domains near m Hn Hok Hup Hl Hr doms s0 s). Qed.
Print Assumptions C22_domains_disjoint.

(** C22.  The exception is real: a cell listed in domain 1 is recorded under
    domain 0. *)
Theorem C22_listed_elsewhere_refuted :
  exists su sa s0 s c, analyze fp_unit0 orc_id shelf_map = Ok (su, sa, []) /\
    prepopulate shelf_map su = Ok s0 /\ walked search0 shelf_map s0 s /\
    c ∈ domain_points s 1 /\ cs_table s !! c = Some 0%nat.
Proof.
  eexists _, _, _, _, (4, 2). split; [vm_compute; reflexivity|]. split; [vm_compute; reflexivity|].
  split.
  { eapply (walked_climb _ _ _ _ (2, 2)).
    - eapply (walked_climb _ _ _ _ (4, 2)).
      + apply walked_start.
      + by vm_compute.
      + vm_compute. reflexivity.
    - by vm_compute.
    - vm_compute. reflexivity. }
  split; [|by vm_compute]. apply elem_of_list_In. vm_compute. tauto.
Qed.
Print Assumptions C22_listed_elsewhere_refuted.

Example C20_case :
  sound_searches search0 shelf_map /\ map_ok shelf_map /\ north_up shelf_map /\ climbable shelf_map /\
  pixels_in_reach shelf_map /\ paths_found fp_unit0 shelf_map /\
  exists s, climb_all shelf_map [(2, 2); (4, 2); (3, 0)] = Ok ([Some 0%nat; Some 0%nat; Some 0%nat], s).
Proof.
  split; [apply search0_ok|]. split; [by vm_compute|]. split; [repeat split; by vm_compute|].
  split; [apply climbable_check; [repeat split; by vm_compute|apply row_map_exact|by vm_compute]|].
  split; [apply pixels_in_reach_check; by vm_compute|].
  split; [intros pts a b _; by eexists|].
  eexists. vm_compute. reflexivity.
Qed.

(** Two cells of the same map: the climbs end in different domains and both are
    collected. *)
Example C21_many_case :
  exists su sa s0 s', analyze fp_unit0 orc_id shelf_map = Ok (su, sa, []) /\ prepopulate shelf_map su = Ok s0 /\
    climb_points search0 shelf_map [((2, 2), 5); ((5, 0), 1)] s0 = Ok ([0%nat; 1%nat], s').
Proof. eexists _, _, _, _. split; [vm_compute; reflexivity|]. split; [vm_compute; reflexivity|]. vm_compute. reflexivity. Qed.

(** C67.  When a climb from [p] meets level ground that is not recorded yet, the whole
    flat area is recorded: each cell but [p] under the domain of a higher cell on
    its rim that is nearest to it, and [p] under that of its steepest neighbour. *)
Theorem C67_flat_divided near m p sn s d s' :
  sound_searches near m -> nearest_map near m -> map_ok m -> north_up m -> climbable m -> pixels_in_reach m ->
  data_cell m p -> cs_table s !! p = None ->
  steepestNeighbor m p.1 p.2 = Ok (Some (sn, elev m p)) -> cs_table s !! sn = None ->
  climb near m (p, elev m p) s = Ok (Some d, s') ->
  cs_table s' !! p = Some d /\ cs_table s' !! sn = Some d /\
  forall c, same_flat m p c -> c <> p -> exists t, nearest_rim m p c t /\
    is_Some (cs_table s' !! t) /\ cs_table s' !! c = cs_table s' !! t.
Proof.
  intros Hs Hn Hok Hup Hl Hr Hp Hpn Hst Hsn.
  destruct (steepest_data m p Hup Hl Hp) as (r & Er & Hsp). rewrite Hst in Er. injection Er as <-. destruct Hsp as (Ha & Hd & He & _).
  by apply (climb_divides near m Hn Hok Hs Hr p sn s d s').
Qed.
Print Assumptions C67_flat_divided.

(** C67.  The searches in exact arithmetic find nearest cells. *)
Theorem C67_exact near m : nearest_query near -> pixels_in_reach m -> nearest_map (exact_searches near) m.
Proof. exact (exact_nearest_map near m). Qed.
Print Assumptions C67_exact.

Example C67_case :
  nearest_map search0 shelf_map /\ data_cell shelf_map (1, 2) /\
  steepestNeighbor shelf_map 1 2 = Ok (Some ((2, 2), 5)) /\
  exists su sa s0 s', analyze fp_unit0 orc_id shelf_map = Ok (su, sa, []) /\ prepopulate shelf_map su = Ok s0 /\
    cs_table s0 !! (1, 2) = None /\ cs_table s0 !! (2, 2) = None /\
    climb search0 shelf_map ((1, 2), 5) s0 = Ok (Some 0%nat, s') /\ cs_table s' !! (4, 2) = cs_table s' !! (4, 3).
Proof.
  split; [apply exact_nearest_map; [apply near0_ok|apply pixels_in_reach_check; by vm_compute]|].
  split; [by vm_compute|]. split; [vm_compute; reflexivity|].
  eexists _, _, _, _. split; [vm_compute; reflexivity|]. split; [vm_compute; reflexivity|].
  split; [reflexivity|]. split; [reflexivity|]. split; [vm_compute; reflexivity|vm_compute; reflexivity].
Qed.
