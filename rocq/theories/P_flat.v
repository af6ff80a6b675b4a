(** Property C07: flat-area extraction. *)
From Verif Require Import Base_model Raster_model Raster_spec Blob_model Blob_proof Example_maps.
Local Open Scope Z_scope.

(** C07.  Extraction from any cell with data succeeds; members, higher rim,
    border members, border flag and border neighbours are exact, each listed
    once. *)
Theorem C07_flat_area m x y :
  map_ok m -> data_cell m (x, y) ->
  exists b, equalHeightBlob m x y (elev m (x, y)) = Ok b /\
    bl_elevation b = elev m (x, y) /\
    NoDup (bl_points b) /\ (forall c, c ∈ bl_points b <-> same_flat m (x, y) c) /\
    NoDup (bl_perimeter b) /\
    (forall q e, (q, e) ∈ bl_perimeter b <-> higher_rim m (x, y) q /\ e = elev m q) /\
    (bl_map_edge b = true <-> exists c, same_flat m (x, y) c /\ on_border m c) /\
    NoDup (bl_edge_points b) /\
    (forall c e, (c, e) ∈ bl_edge_points b <->
       same_flat m (x, y) c /\ on_border m c /\ e = elev m (x, y)) /\
    NoDup (bl_map_edge_points b) /\
    (forall q e, (q, e) ∈ bl_map_edge_points b <->
       data_cell m q /\ on_border m q /\ elev m q <> elev m (x, y) /\ e = elev m q /\
       exists c, same_flat m (x, y) c /\ adj8 c q).
Proof. exact (equalHeightBlob_spec m x y). Qed.
Print Assumptions C07_flat_area.

Example C07_case :
  map_ok map_b /\ data_cell map_b (0, 0) /\
  equalHeightBlob map_b 0 0 5 =
    Ok (Blob [(0, 0); (0, 1); (1, 1); (2, 2); (2, 0)] 5 [(0, 2, 7); (1, 2, 6)] true
             [(1, 0, 3); (0, 2, 7); (1, 2, 6); (2, 1, 3)]
             [(0, 0, 5); (0, 1, 5); (2, 2, 5); (2, 0, 5)]).
Proof. repeat split; try (vm_compute; congruence). Qed.
