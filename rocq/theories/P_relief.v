(** Property C75: what depends on the order of the elevations only. *)
From Verif Require Import Analyze_model Basin_model Divide_model Graph_spec Feature_spec Basin_spec Raster_spec Relief_spec Relief_proof
  Heights_spec Heights_proof Heights_tree Graph_example Basin_example Divide_example Example_maps P_features.
Local Open Scope Z_scope.

(** C75.  Discovery in two rasters whose cells are in the same order of height
    gives the same features, each with the elevations of its raster. *)
Theorem C75_discovery fp orc m1 m2 : same_relief m1 m2 ->
  (forall pts a b, fp m1 pts a b = fp m2 pts a b) -> map_ok m1 -> paths_found fp m1 ->
  exists su sa ru, analyze fp orc m1 = Ok (su, sa, ru) /\
    analyze fp orc m2 = Ok (map (relevel m2) su, map (relevel m2) sa, map (relevel m2) ru).
Proof. exact (relief fp orc m1 m2). Qed.
Print Assumptions C75_discovery.

(** C75.  In particular this holds when every elevation is replaced in a strictly
    increasing way: other units, another datum. *)
Theorem C75_regraded fp orc g m : (forall a b, a < b -> g a < g b) ->
  (forall pts a b, fp m pts a b = fp (regrade g m) pts a b) -> map_ok m -> paths_found fp m ->
  exists su sa ru, analyze fp orc m = Ok (su, sa, ru) /\
    analyze fp orc (regrade g m) =
      Ok (map (relevel (regrade g m)) su, map (relevel (regrade g m)) sa, map (relevel (regrade g m)) ru).
Proof. intros Hg. exact (relief fp orc m (regrade g m) (regrade_same g m Hg)). Qed.
Print Assumptions C75_regraded.

Example C75_case : let g e := if e <=? 5 then e - 10 else 3 * e in
  (forall a b, a < b -> g a < g b) /\
  (forall pts a b, fp0 map_a pts a b = fp0 (regrade g map_a) pts a b) /\ map_ok map_a /\ paths_found fp0 map_a /\
  analyze fp0 orc0 (regrade g map_a) =
    Ok ([Feat KSummit (1, 1) 27 [] false [] []; Feat KSummit (1, 3) 24 [] false [] []],
        [Feat KSaddle (1, 2) (-6) [] false [] [[(1, 3, 24)]; [(1, 1, 27)]]], []).
Proof. cbv zeta. split; [intros a b H; destruct (Z.leb_spec a 5), (Z.leb_spec b 5); lia|]. split; [done|]. split; [by vm_compute|]. split; [intros pts a b _; eexists; done|]. by vm_compute. Qed.

(** C75.  Detection in two graphs whose features are in the same order of height
    marks the same saddles with the same alternatives, or fails alike. *)
Theorem C75_basins m fuel w1 w2 saddles : same_heights w1 w2 -> (forall i, i ∈ saddles -> there w1 (Sad i)) ->
  match disqualify_basin_saddles m fuel w1 saddles, disqualify_basin_saddles m fuel w2 saddles with
  | Ok w1', Ok w2' => same_heights w1' w2'
  | Err e, Err e' => e = e'
  | _, _ => False
  end.
Proof. exact (heights m m eq_refl fuel w1 w2 saddles). Qed.
Print Assumptions C75_basins.

(** C75.  The divide trees of such graphs are the same. *)
Theorem C75_tree m w1 w2 summits t : same_heights w1 w2 -> (forall a, a ∈ summits -> there w1 (Sum a)) ->
  run_tree m w1 summits t = run_tree m w2 summits t.
Proof. intros H. exact (same_tree m w1 w2 H summits t). Qed.
Print Assumptions C75_tree.

Example C75_graph_case : let g e := 3 * e - 7 in
  same_heights g_ring (regrade_world g g_ring) /\ (forall i, i ∈ [0;1;2;3;4]%nat -> there g_ring (Sad i)) /\
  marks (disqualify_basin_saddles ex_map 12 (regrade_world g g_ring) [0;1;2;3;4]%nat) =
    Some [(false, false, []); (false, true, []); (false, true, []); (false, false, []); (true, false, [])] /\
  same_heights g_tree (regrade_world g g_tree) /\ (forall a, a ∈ [0;1;2;3]%nat -> there g_tree (Sum a)).
Proof.
  cbv zeta. split; [apply regrade_like; lia|]. split; [|split; [by vm_compute|split; [apply regrade_like; lia|]]].
  - intros i Hi. assert (i < 5)%nat by (rewrite !elem_of_cons, elem_of_nil in Hi; lia). vm_compute. lia.
  - intros i Hi. assert (i < 4)%nat by (rewrite !elem_of_cons, elem_of_nil in Hi; lia). vm_compute. lia.
Qed.

(** C75.  The order does not decide where a climb goes: the steepest neighbour
    of a cell is another one in a raster with the same relief. *)
Theorem C75_steepest_refuted : exists m1 m2 p q1 q2, same_relief m1 m2 /\ slopes_exact m1 /\ slopes_exact m2 /\
  dm_gt m1 = dm_gt m2 /\ data_cell m1 p /\ q1 <> q2 /\
  steepestNeighbor m1 p.1 p.2 = Ok (Some (q1, elev m1 q1)) /\ steepestNeighbor m2 p.1 p.2 = Ok (Some (q2, elev m2 q2)).
Proof.
  pose (g e := if e <=? 5 then e else e + 9). pose (m := row_map [[1; 1; 1]; [1; 5; 6]; [1; 1; 8]] (Some 0) unit_gt).
  exists m, (DM 2 2 (fun x y => g (dm_cell m x y)) (Some 0) unit_gt (exact_slope unit_gt)), (1, 1), (2, 2), (1, 2).
  split; [|split; [apply row_map_exact|split; [done|split; [done|]]]].
  - assert (same_relief m (regrade g m)) as [E1 E2 E3 E4]; [|by split].
    apply regrade_same. intros a b H. subst g. cbn. destruct (Z.leb_spec a 5), (Z.leb_spec b 5); lia.
  - split; [by vm_compute|]. split; [done|]. by vm_compute.
Qed.
Print Assumptions C75_steepest_refuted.
