(** Property C55: list-like operations of point collections. *)
From Verif Require Import Base_model Raster_model Raster_spec Closest_model Closest_spec Points_model Points_spec Points_proof.
Local Open Scope Z_scope.

(** C55.  A flat area accepts exactly plain grid points and pairs (a grid point
    with elevation is refused), a perimeter exactly grid points with elevation
    and triples; the new member goes to the end. *)
Theorem C55_append l v l' :
  (mp_append l v = Ok l' <-> exists t, a_pair v t /\ l' = l ++ [t]) /\
  (pr_append l v = Ok l' <-> exists t, a_triple v t /\ l' = l ++ [t]).
Proof.
  split.
  - exact (append_spec mp_incoming a_pair l v l' mp_incoming_spec).
  - exact (append_spec pr_incoming a_triple l v l' pr_incoming_spec).
Qed.
Print Assumptions C55_append.

(** C55.  Replacing by index changes exactly the named position, counted from
    the end if negative; anything out of range or of the wrong kind is refused. *)
Theorem C55_setitem l idx v l' :
  (mp_setitem l idx v = Ok l' <-> exists t, a_pair v t /\ replaced l idx t l') /\
  (pr_setitem l idx v = Ok l' <-> exists t, a_triple v t /\ replaced l idx t l').
Proof.
  split.
  - exact (setitem_spec mp_incoming a_pair l idx v l' mp_incoming_spec).
  - exact (setitem_spec pr_incoming a_triple l idx v l' pr_incoming_spec).
Qed.
Print Assumptions C55_setitem.

(** C55.  Reading back, singly and with the elevation of the area. *)
Theorem C55_read l e : Forall (fun t => length t = 2%nat) l ->
  (forall idx p, mp_getitem l idx = Ok p <->
     - Z.of_nat (length l) <= idx < Z.of_nat (length l) /\
     l !! Z.to_nat (idx mod Z.of_nat (length l)) = Some [p.1; p.2]) /\
  exists r, mp_points_with_elevation l e = Ok r /\ map pte_tuple r = map (fun t => t ++ [e]) l.
Proof. intros H. split; [intros idx p; exact (getitem_spec l idx p H)|exact (with_elevation_spec l e H)]. Qed.
Print Assumptions C55_read.

Theorem C55_read_perimeter l idx t : pr_getitem l idx = Ok t <->
  - Z.of_nat (length l) <= idx < Z.of_nat (length l) /\ l !! Z.to_nat (idx mod Z.of_nat (length l)) = Some t.
Proof. exact (py_getitem_spec l idx t). Qed.
Print Assumptions C55_read_perimeter.

Example C55_case :
  mp_append [[0; 1]] (VBase (2, 3)) = Ok [[0; 1]; [2; 3]] /\ mp_append [[0; 1]] (VGrid (2, 3, 9)) = Err OtherError /\
  pr_append [] (VBase (2, 3)) = Err TypeError /\ mp_setitem [[0; 1]; [2; 3]] (-2) (VTuple [7; 8]) = Ok [[7; 8]; [2; 3]] /\
  mp_getitem [[0; 1]; [2; 3]] (-1) = Ok (2, 3) /\ mp_getitem [[0; 1]; [2; 3]] 2 = Err IndexError /\
  Forall (fun t => length t = 2%nat) [[0; 1]; [2; 3]].
Proof. repeat split. repeat constructor. Qed.

(** C55.  After creating a container of grid points and any appends its
    neighbour iterations yield exactly the members next to the given place, of
    several at one place the last, each once. *)
Theorem C55_neighbors l c ops p : gpc_new l = Ok c ->
  let c' := foldl gpc_do c (map GAppend ops) in
  gpc_points c' = grid_points l ++ grid_points ops /\
  (NoDup (gpc_iterNeighborFull c' p) /\
   forall q, q ∈ gpc_iterNeighborFull c' p <-> last_member (gpc_points c') q /\ adj8 p q.1) /\
  (NoDup (gpc_iterNeighborOrthogonal c' p) /\
   forall q, q ∈ gpc_iterNeighborOrthogonal c' p <-> last_member (gpc_points c') q /\ adj4 p q.1).
Proof. exact (full_exact_gp l c ops p). Qed.
Print Assumptions C55_neighbors.

Example C55_neighbors_case : exists c,
  gpc_new [VGrid (0, 0, 5); VGrid (0, 1, 6); VGrid (1, 1, 7)] = Ok c /\
  gpc_iterNeighborFull (foldl gpc_do c (map GAppend [VGrid (0, 1, 8); VOther])) (0, 0) = [(0, 1, Some 8); (1, 1, Some 7)].
Proof. eexists. split; [vm_compute; reflexivity|]. vm_compute. reflexivity. Qed.

(** C55.  Replacing a member by index breaks this: the iteration misses the new
    member and yields the removed one, the latter also after a further append. *)
Theorem C55_replace_refuted : exists c c1 c2 q r,
  gpc_new [VGrid (0, 0, 5); VGrid (0, 1, 6)] = Ok c /\
  c1 = gpc_do c (GSet 1 (VGrid (1, 0, 9))) /\ c2 = gpc_do c1 (GAppend (VGrid (5, 5, 1))) /\
  q ∈ gpc_points c1 /\ adj8 (0, 0) q.1 /\ q ∉ gpc_iterNeighborFull c1 (0, 0) /\
  r ∉ gpc_points c1 /\ r ∈ gpc_iterNeighborFull c1 (0, 0) /\
  r ∉ gpc_points c2 /\ r ∈ gpc_iterNeighborFull c2 (0, 0).
Proof.
  eexists _, _, _, (1, 0, Some 9), (0, 1, Some 6). split; [vm_compute; reflexivity|]. split; [reflexivity|]. split; [reflexivity|].
  split; [vm_compute; set_solver|]. split; [done|]. split_and!; vm_compute; set_solver.
Qed.
Print Assumptions C55_replace_refuted.

(** C55.  Searching a container finds the first equal member, unless a member of
    the other class (with and without elevation) comes before it. *)
Theorem C55_index c p i : gpc_find c p = Some i <->
  exists l1 l2, gpc_points c = l1 ++ p :: l2 /\ length l1 = i /\ p ∉ l1 /\ (forall a, a ∈ l1 -> is_Some a.2 <-> is_Some p.2).
Proof. exact (find_spec c p i). Qed.
Print Assumptions C55_index.

Example C55_index_case :
  gpc_find (GPC [(0, 0, Some 5); (0, 1, Some 6); (0, 1, Some 6)] ∅) (0, 1, Some 6) = Some 1%nat /\
  gpc_find (GPC [(0, 0, None); (0, 1, Some 6)] ∅) (0, 1, Some 6) = None.
Proof. split; reflexivity. Qed.

(** C55.  The closest members of two containers: the first pair, in the order of
    the nested loops, of least pixel distance. *)
Theorem C55_closest us them p0 t0 :
  p0 ∈ us -> t0 ∈ them -> (pixel2 p0.1 t0.1 < maxsize2)%Q ->
  exists p t, gpc_closest us them = GCP (Some p) (Some t) (pixel2 p.1 t.1) /\
    first_least (fun c : gpoint * gpoint => pixel2 c.1.1 c.2.1) (p ← us; t ← them; [(p, t)]) (p, t).
Proof. exact (gpc_closest_spec us them p0 t0). Qed.
Print Assumptions C55_closest.

Example C55_closest_case :
  (0, 0, Some 5) ∈ [(0, 0, Some 5); (4, 4, Some 5)] /\ (4, 6, Some 5) ∈ [(9, 9, Some 1); (4, 6, Some 5); (6, 4, None)] /\
  (pixel2 (0, 0)%Z (4, 6)%Z < maxsize2)%Q /\
  gpc_closest [(0, 0, Some 5); (4, 4, Some 5)] [(9, 9, Some 1); (4, 6, Some 5); (6, 4, None)] =
    GCP (Some (4, 4, Some 5)) (Some (4, 6, Some 5)) (4#1).
Proof. split; [set_solver|]. split; [set_solver|]. split; by vm_compute. Qed.
