(** Property C78: where discovery places summits and saddles. *)
From Verif Require Import Base_model Raster_model Analyze_model Anchor_spec Feature_spec Anchor_proof
  Example_maps P_features Raster_spec.
Local Open Scope Z_scope.

(** C78.  Every summit and saddle is placed at the cell of its flat area that
    is described by [place_of_flat]. *)
Theorem C78_place fp orc m : map_ok m -> paths_found fp m ->
  exists su sa ru, analyze fp orc m = Ok (su, sa, ru) /\
    forall f, f ∈ su \/ f ∈ sa -> exists p, covers f p /\ place_of_flat m p (ft_pos f).
Proof. exact (features_placed_at fp orc m). Qed.
Print Assumptions C78_place.

(** C78.  Positions and elevations of the summits and saddles, in order, depend
    neither on the order of the sets nor on the path search. *)
Theorem C78_order fp fp' orc orc' m : map_ok m -> paths_found fp m -> paths_found fp' m ->
  exists su sa ru su' sa' ru',
    analyze fp orc m = Ok (su, sa, ru) /\ analyze fp' orc' m = Ok (su', sa', ru') /\
    map place_ele su = map place_ele su' /\ map place_ele sa = map place_ele sa'.
Proof. exact (places_same fp fp' orc orc' m). Qed.
Print Assumptions C78_order.

(** A ridge whose first cell is (1, 2); it is placed at the cell below, since
    the cells to the right and to the lower right are lower.  The saddle is the
    flat ground around it; its first cell is (1, 1). *)
Definition map_ridge : datamap :=
  row_map [[1; 1; 1; 1; 1; 1];
           [1; 4; 7; 4; 1; 1];
           [1; 4; 7; 4; 9; 1];
           [1; 7; 4; 4; 1; 1];
           [1; 1; 1; 1; 1; 1]] None unit_gt.
Definition orc_last (p : xy) (k i : nat) : nat := Nat.pred i.

Example C78_case :
  map_ok map_ridge /\ paths_found fp0 map_ridge /\
  (exists a b ru, analyze fp0 orc0 map_ridge = Ok (a, b, ru) /\
     map place_ele a = [((2, 2), 7); ((2, 4), 9)] /\ map place_ele b = [((2, 1), 4)] /\
     map ft_multi a = [[((2, 2), None); ((1, 2), None); ((3, 1), None)]; []]) /\
  (exists a b ru, analyze fp0 orc_last map_ridge = Ok (a, b, ru) /\
     map place_ele a = [((2, 2), 7); ((2, 4), 9)] /\ map place_ele b = [((2, 1), 4)]).
Proof.
  split; [by vm_compute|]. split; [intros pts a b _; eexists; done|].
  split; eexists _, _, _; (split; [vm_compute; reflexivity|]); by vm_compute.
Qed.
