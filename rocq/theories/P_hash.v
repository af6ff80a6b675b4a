(** Property C79: hashes of grid-point containers, summit domains and linkers. *)
From Verif Require Import Hash_spec Hash_proof Container_proof.
Local Open Scope Z_scope.

(** C79.  Grid-point containers that are equal have the same hash, whatever the
    hash functions are; if these have no collisions, containers with the same
    hash are equal, that is, agree in order at each elevation. *)
Theorem C79_gridpoints h_pte h_tuple l k :
  (gridpoints_eq l k = true -> gridpoints_hash h_pte h_tuple l = gridpoints_hash h_pte h_tuple k) /\
  (no_collision h_pte -> no_collision h_tuple -> gridpoints_hash h_pte h_tuple l = gridpoints_hash h_pte h_tuple k ->
   level_by_level (fun p => inject_Z p.2) eq l k).
Proof.
  destruct (gridpoints_same h_pte h_tuple l k) as [H1 H2]. split; [|exact H2]. intros H. apply H1. by apply gridpoints_levels.
Qed.
Print Assumptions C79_gridpoints.

(** C79.  The same for containers of plain grid points, where the sum of the
    coordinates plays the role of the elevation. *)
Theorem C79_base_gridpoints h_xy h_tuple l k :
  (base_gridpoints_eq l k = true -> base_gridpoints_hash h_xy h_tuple l = base_gridpoints_hash h_xy h_tuple k) /\
  (no_collision h_xy -> no_collision h_tuple -> base_gridpoints_hash h_xy h_tuple l = base_gridpoints_hash h_xy h_tuple k ->
   level_by_level (fun p => inject_Z (p.1 + p.2)) eq l k).
Proof.
  destruct (base_gridpoints_same h_xy h_tuple l k) as [H1 H2]. split; [|exact H2]. intros H. apply H1. by apply base_gridpoints_levels.
Qed.
Print Assumptions C79_base_gridpoints.

(** C79.  Domains of equal summits have the same hash, so equal domains do. *)
Theorem C79_domains h_loc s sa p s' sa' p' : respects h_loc -> is_saddle (it_cls s) = false -> is_saddle (it_cls s') = false ->
  (same_item s s' -> exists z, domain_hash h_loc s sa p = Ok z /\ domain_hash h_loc s' sa' p' = Ok z) /\
  (domain_eq s sa p s' sa' p' = true -> same_item s s').
Proof.
  intros H H1 H2. split; [exact (domains_same h_loc H s sa p s' sa' p' H1 H2)|].
  unfold domain_eq. rewrite !andb_true_iff. intros [[E _] _]. by apply item_eq_spec.
Qed.
Print Assumptions C79_domains.

(** C79.  If only equal inputs have the same hash, domains with the same hash
    have summits of one elevation whose coordinates agree to six decimals. *)
Theorem C79_domains_apart h_loc s sa p s' sa' p' : tells_apart h_loc ->
  is_saddle (it_cls s) = false -> is_saddle (it_cls s') = false ->
  domain_hash h_loc s sa p = domain_hash h_loc s' sa' p' ->
  round6 (it_lat s) = round6 (it_lat s') /\ round6 (it_lon s) = round6 (it_lon s') /\ (it_ele s == it_ele s')%Q.
Proof. intros H H1 H2. exact (domains_apart h_loc H s sa p s' sa' p' H1 H2). Qed.
Print Assumptions C79_domains_apart.

(** There is such a hash. *)
Definition ex_apart (k : hkey) : Z :=
  match k with
  | HNums x y e => Z.pos (encode (x, y, (Qnum (Qred e), Qden (Qred e))))
  | HPair x y => Z.neg (encode (x, y))
  end.
Example C79_apart_case : tells_apart ex_apart.
Proof.
  intros [x y e|x y] [x' y' e'|x' y']; cbn [ex_apart]; intros E; try discriminate E.
  - injection E as E. apply (inj encode) in E. injection E as -> -> E1 E2. split; [done|]. split; [done|].
    rewrite <-(Qred_correct e), <-(Qred_correct e'). destruct (Qred e), (Qred e'). cbn in E1, E2. by subst.
  - injection E as E. apply (inj encode) in E. by injection E as -> ->.
Qed.

(** C79.  Linkers are equal exactly if both their ends are.  Equal linkers
    between summits and saddles without higher groups have the same hash. *)
Theorem C79_linkers h_loc h_int su sa su' sa' : respects h_loc ->
  is_saddle (lc_cls su) = false -> is_saddle (lc_cls su') = false ->
  is_saddle (lc_cls sa) = true -> is_saddle (lc_cls sa') = true ->
  placed su -> placed su' -> placed sa -> placed sa' -> lc_hpn sa = [] -> lc_hpn sa' = [] ->
  (linker_eq su sa su' sa' = true <-> same_place su su' /\ same_place sa sa') /\
  (linker_eq su sa su' sa' = true -> exists z, linker_hash h_loc h_int su sa = Ok z /\ linker_hash h_loc h_int su' sa' = Ok z).
Proof.
  intros H A1 A2 A3 A4 B1 B2 B3 B4 C1 C2. split; [exact (linker_eq_spec su sa su' sa')|]. intros E.
  apply linker_eq_spec in E as [E1 E2].
  exact (linkers_same h_loc h_int H su sa su' sa' A1 A2 A3 A4 B1 B2 B3 B4 C1 C2 E1 E2).
Qed.
Print Assumptions C79_linkers.

(** C79.  A linker whose saddle has higher groups cannot be hashed. *)
Theorem C79_linker_fails h_loc h_int su sa : is_saddle (lc_cls sa) = true -> lc_hpn sa <> [] ->
  linker_hash h_loc h_int su sa = Err TypeError.
Proof. exact (linker_fails h_loc h_int su sa). Qed.
Print Assumptions C79_linker_fails.

Definition ex_h (k : hkey) : Z := match k with HNums x y _ => x + 3 * y | HPair x y => 5 * x + 7 * y end.
Definition ex_su (x : Q) : location := Loc CSummit (Some x) (Some (-72#1)) (300#1) [].
Definition ex_sa (x : Q) (g : list (list pte)) : location := Loc CSaddle (Some x) (Some (-71#1)) (200#1) g.
Example C79_case :
  respects ex_h /\
  gridpoints_eq [(1, 1, 5); (2, 2, 4); (3, 3, 5)] [(2, 2, 4); (1, 1, 5); (3, 3, 5)] = true /\
  linker_eq (ex_su (44#1)) (ex_sa (43#1) []) (ex_su (440000001#10000000)) (ex_sa (43#1) []) = true /\
  linker_hash ex_h (fun z => z) (ex_su (440000001#10000000)) (ex_sa (43#1) []) = Ok (5 * 43000000 + 7 * -71000000 + (44000000 + 3 * -72000000)) /\
  linker_hash ex_h (fun z => z) (ex_su (44#1)) (ex_sa (43#1) [[(1, 2, 210)]]) = Err TypeError.
Proof.
  split. { intros [|] [|]; cbn; try done; [intros (-> & -> & _)|intros (-> & ->)]; done. }
  split; [by vm_compute|]. split; [by vm_compute|]. split; by vm_compute.
Qed.

(** C79, refuted: containers of the same grid points need not be equal nor have
    the same hash: points of one elevation are not sorted. *)
Theorem C79_order_refuted : exists l k, l ≡ₚ k /\ gridpoints_eq l k = false /\
  forall h_pte h_tuple, no_collision h_pte -> no_collision h_tuple -> gridpoints_hash h_pte h_tuple l <> gridpoints_hash h_pte h_tuple k.
Proof.
  exists [(1, 1, 5); (2, 2, 5)], [(2, 2, 5); (1, 1, 5)]. split; [constructor|]. split; [by vm_compute|].
  intros h_pte h_tuple H1 H2 H. apply H2 in H. cbn in H. injection H as H _. apply H1 in H. done.
Qed.
Print Assumptions C79_order_refuted.
