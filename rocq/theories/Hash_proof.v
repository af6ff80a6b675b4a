(** Proofs for C79. *)
From Verif Require Import Hash_spec Container_proof.
Local Open Scope Z_scope.

Lemma list_same_eq {A} (same : A -> A -> bool) (Hs : forall a b, same a b = true <-> a = b) l k :
  list_same same l k = true <-> l = k.
Proof.
  rewrite list_same_Forall2. split.
  - intros H. induction H as [|x y l k H _ IH]; [done|]. apply Hs in H as ->. by rewrite IH.
  - intros ->. induction k as [|x k IH]; constructor; [by apply Hs|done].
Qed.

Section hashes.
  Context (h_loc : hkey -> Z) (h_int : Z -> Z) (h_xy : xy -> Z) (h_pte : pte -> Z) (h_tuple : list Z -> Z).

  Lemma gridpoints_same l k :
    (level_by_level (fun p => inject_Z p.2) eq l k -> gridpoints_hash h_pte h_tuple l = gridpoints_hash h_pte h_tuple k) /\
    (no_collision h_pte -> no_collision h_tuple -> gridpoints_hash h_pte h_tuple l = gridpoints_hash h_pte h_tuple k ->
     level_by_level (fun p => inject_Z p.2) eq l k).
  Proof.
    rewrite <-gridpoints_levels. unfold gridpoints_eq, sorted_same, gridpoints_hash. rewrite (list_same_eq _ pte_same_eq). split.
    - by intros ->.
    - intros H1 H2 H. apply H2 in H. revert H. generalize (py_sorted gp_lt l) (py_sorted gp_lt k). clear l k.
      intros l. induction l as [|x l IH]; intros [|y k]; intros H; try done. injection H as E H.
      apply H1 in E as ->. by rewrite (IH k H).
  Qed.
  Lemma base_gridpoints_same l k :
    (level_by_level (fun p => inject_Z (p.1 + p.2)) eq l k -> base_gridpoints_hash h_xy h_tuple l = base_gridpoints_hash h_xy h_tuple k) /\
    (no_collision h_xy -> no_collision h_tuple -> base_gridpoints_hash h_xy h_tuple l = base_gridpoints_hash h_xy h_tuple k ->
     level_by_level (fun p => inject_Z (p.1 + p.2)) eq l k).
  Proof.
    rewrite <-base_gridpoints_levels. unfold base_gridpoints_eq, sorted_same, base_gridpoints_hash.
    rewrite (list_same_eq _ xy_same_eq). split.
    - by intros ->.
    - intros H1 H2 H. apply H2 in H. revert H. generalize (py_sorted bgp_lt l) (py_sorted bgp_lt k). clear l k.
      intros l. induction l as [|x l IH]; intros [|y k]; intros H; try done. injection H as E H.
      apply H1 in E as ->. by rewrite (IH k H).
  Qed.

  Lemma item_same_loc a b : same_item a b -> loc_eq (item_loc a) (item_loc b) = true.
  Proof. intros H. apply loc_eq_spec. exact H. Qed.

  Lemma domains_same (H : respects h_loc) s sa p s' sa' p' :
    is_saddle (it_cls s) = false -> is_saddle (it_cls s') = false -> same_item s s' ->
    exists z, domain_hash h_loc s sa p = Ok z /\ domain_hash h_loc s' sa' p' = Ok z.
  Proof.
    intros H1 H2 E. apply item_same_loc in E.
    destruct (loc_eq_hash (item_loc s) (item_loc s') H1 H2) as (k & k' & E1 & E2 & Hk); try (by eexists); [done|].
    exists (h_loc k). unfold domain_hash, loc_hash. rewrite E1, E2. split; [done|]. cbn. by rewrite (H _ _ Hk).
  Qed.

  Lemma domains_apart (H : tells_apart h_loc) s sa p s' sa' p' :
    is_saddle (it_cls s) = false -> is_saddle (it_cls s') = false ->
    domain_hash h_loc s sa p = domain_hash h_loc s' sa' p' ->
    round6 (it_lat s) = round6 (it_lat s') /\ round6 (it_lon s) = round6 (it_lon s') /\ (it_ele s == it_ele s')%Q.
  Proof.
    intros H1 H2. unfold domain_hash, loc_hash, hash_key, item_loc. cbn [lc_lat lc_lon lc_cls lc_ele round_coord rbind].
    rewrite H1, H2. cbn [rbind]. intros [= E]. exact (H _ _ E).
  Qed.

  Lemma saddle_key a b : is_saddle (lc_cls a) = true -> is_saddle (lc_cls b) = true -> placed a -> placed b ->
    lc_hpn a = [] -> lc_hpn b = [] -> loc_eq a b = true ->
    exists k, hash_key a = Ok k /\ hash_key b = Ok k.
  Proof.
    intros Ha Hb [[x Ex] [y Ey]] [[x' Ex'] [y' Ey']] E1 E2. unfold loc_eq, coord_eq, hash_key.
    rewrite Ex, Ey, Ex', Ey', Ha, Hb, E1, E2. cbn. rewrite !andb_true_iff, !bool_decide_eq_true, Qeq_bool_iff. intros [[F1 F2] _].
    apply eq_key_round in F1 as ->. apply eq_key_round in F2 as ->. by eexists.
  Qed.

  Lemma linkers_same (H : respects h_loc) su sa su' sa' :
    is_saddle (lc_cls su) = false -> is_saddle (lc_cls su') = false ->
    is_saddle (lc_cls sa) = true -> is_saddle (lc_cls sa') = true ->
    placed su -> placed su' -> placed sa -> placed sa' -> lc_hpn sa = [] -> lc_hpn sa' = [] ->
    same_place su su' -> same_place sa sa' ->
    exists z, linker_hash h_loc h_int su sa = Ok z /\ linker_hash h_loc h_int su' sa' = Ok z.
  Proof.
    intros A1 A2 A3 A4 [B1 B1'] [B2 B2'] B3 B4 C1 C2 E1 E2. apply loc_eq_spec in E1, E2.
    destruct (loc_eq_hash su su' A1 A2 B1 B1' B2 B2' E1) as (k & k' & F1 & F2 & Hk).
    destruct (saddle_key sa sa' A3 A4 B3 B4 C1 C2 E2) as (j & G1 & G2).
    unfold linker_hash, loc_hash. rewrite F1, F2, G1, G2. cbn. rewrite (H _ _ Hk). by eexists.
  Qed.

  Lemma linker_fails su sa : is_saddle (lc_cls sa) = true -> lc_hpn sa <> [] -> linker_hash h_loc h_int su sa = Err TypeError.
  Proof.
    intros H1 H2. unfold linker_hash, loc_hash, hash_key. rewrite H1.
    destruct (lc_lat sa) as [x|]; [|done]. destruct (lc_lon sa) as [y|]; [|done]. cbn. by destruct (lc_hpn sa).
  Qed.
End hashes.

Lemma linker_eq_spec su sa su' sa' : linker_eq su sa su' sa' = true <-> same_place su su' /\ same_place sa sa'.
Proof. unfold linker_eq. by rewrite andb_true_iff, !loc_eq_spec. Qed.
