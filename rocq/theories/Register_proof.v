(** Proofs about registering a link at its ends. *)
From Verif Require Import Graph_model Graph_spec Graph_proof Region_spec Register_spec Persist_load_proof.

Section register.
  Variables (m : datamap) (w : world).
  Lemma summit_same_alike a b : summit_same m w a b = true <-> summit_alike m w a b.
  Proof.
    unfold summit_same, summit_alike, summit_spot. rewrite orb_true_iff, Nat.eqb_eq.
    destruct (w_summits w !! a) as [x|], (w_summits w !! b) as [y|]; cbn; rewrite ?spot_eq_same; naive_solver.
  Qed.
  Lemma saddle_same_alike a b : saddle_same m w a b = true <-> saddle_alike m w a b.
  Proof.
    unfold saddle_same, saddle_alike, saddle_spot. rewrite orb_true_iff, Nat.eqb_eq.
    destruct (w_saddles w !! a) as [x|], (w_saddles w !! b) as [y|]; cbn; rewrite ?spot_eq_same; naive_solver.
  Qed.
  Lemma link_same_alike k j : link_same m w k j = true <-> link_alike m w k j.
  Proof.
    unfold link_same, link_alike. destruct (w_links w !! k) as [a|], (w_links w !! j) as [b|]; [|naive_solver..].
    rewrite andb_true_iff, summit_same_alike, saddle_same_alike. naive_solver.
  Qed.
  Lemma copy_known k old : existsb (link_same m w k) old = true <-> exists j, j ∈ old /\ link_alike m w k j.
  Proof.
    rewrite existsb_exists. setoid_rewrite link_same_alike. setoid_rewrite elem_of_list_In. done.
  Qed.
  Lemma registered_if ign k old : registered m w ign k old (if ign && existsb (link_same m w k) old then old else old ++ [k]).
  Proof.
    unfold registered. rewrite <-copy_known. destruct ign, (existsb _ old); cbn; split; naive_solver.
  Qed.

  Lemma register_spec ign k l su sa : w_links w !! k = Some l -> w_summits w !! ln_summit l = Some su -> w_saddles w !! ln_saddle l = Some sa ->
    let w' := add_to_remote m ign k w in
    w_links w' = w_links w /\
    (exists ks, w_summits w' = <[ln_summit l := Summit (su_feat su) ks (su_domain su)]> (w_summits w) /\ registered m w ign k (su_links su) ks) /\
    (exists ks, w_saddles w' = <[ln_saddle l := set_links ks sa]> (w_saddles w) /\ registered m w ign k (sa_links sa) ks).
  Proof.
    intros Hl Hu Ha. cbn zeta. unfold add_to_remote. rewrite Hl, Hu, Ha.
    assert (forall (f : summit -> summit), alter f (ln_summit l) (w_summits w) = <[ln_summit l := f su]> (w_summits w)) as Eu.
    { intros f. apply list_eq. intros j. destruct (decide (j = ln_summit l)) as [->|Hne].
      - rewrite list_lookup_alter, Hu, list_lookup_insert; [done|by eapply lookup_lt_Some].
      - by rewrite list_lookup_alter_ne, list_lookup_insert_ne by done. }
    assert (forall (f : saddle -> saddle), alter f (ln_saddle l) (w_saddles w) = <[ln_saddle l := f sa]> (w_saddles w)) as Ea.
    { intros f. apply list_eq. intros j. destruct (decide (j = ln_saddle l)) as [->|Hne].
      - rewrite list_lookup_alter, Ha, list_lookup_insert; [done|by eapply lookup_lt_Some].
      - by rewrite list_lookup_alter_ne, list_lookup_insert_ne by done. }
    pose proof (registered_if ign k (su_links su)) as Ru. pose proof (registered_if ign k (sa_links sa)) as Ra.
    split; [by destruct (ign && _), (ign && _)|]. split.
    - eexists. split; [|exact Ru]. destruct (ign && existsb _ (su_links su)), (ign && existsb _ (sa_links sa)); cbn; rewrite ?Eu; try done;
        symmetry; apply list_insert_id; by destruct su.
    - eexists. split; [|exact Ra]. destruct (ign && existsb _ (su_links su)), (ign && existsb _ (sa_links sa)); cbn; rewrite ?Ea; try done;
        symmetry; apply list_insert_id; by destruct sa.
  Qed.
End register.
