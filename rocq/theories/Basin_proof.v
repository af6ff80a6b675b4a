(** Basin saddle detection: marking and termination. *)
From Verif Require Import Base_model Graph_model Basin_model Graph_spec Basin_spec Graph_proof.
Local Open Scope Z_scope.

(** ** Marking *)

Lemma marked_refl w : marked [] [] [] w w.
Proof.
  split; try done.
  - intros j a H. exists a. split_and!; try done; rewrite elem_of_nil; tauto.
  - intros k l H. exists l. split_and!; try done. split; [by left|].
    intros [H1|(j & a & [H1|H1] & _)]; [done| |]; by apply elem_of_nil in H1.
Qed.

Lemma marked_back S B A w w' j b : marked S B A w w' -> w_saddles w' !! j = Some b ->
  exists a, w_saddles w !! j = Some a.
Proof.
  intros M H. apply lookup_lt_is_Some_2. rewrite <-(mk_len _ _ _ _ _ M). by eapply lookup_lt_Some.
Qed.
Lemma marked_backl S B A w w' k l : marked S B A w w' -> w_links w' !! k = Some l ->
  exists l', w_links w !! k = Some l'.
Proof.
  intros M H. apply lookup_lt_is_Some_2. rewrite <-(mk_lenl _ _ _ _ _ M). by eapply lookup_lt_Some.
Qed.

Lemma marked_trans S B A S' B' A' w1 w2 w3 :
  marked S B A w1 w2 -> marked S' B' A' w2 w3 -> marked (S ++ S') (B ++ B') (A ++ A') w1 w3.
Proof.
  intros M1 M2. split.
  - rewrite (mk_len _ _ _ _ _ M2). apply M1.
  - rewrite (mk_summits _ _ _ _ _ M2). apply M1.
  - intros j a Ha. destruct (mk_saddle _ _ _ _ _ M1 _ _ Ha) as (b & Hb & E1 & E2 & E3 & E4 & E5 & E6 & E7 & E8).
    destruct (mk_saddle _ _ _ _ _ M2 _ _ Hb) as (c & Hc & F1 & F2 & F3 & F4 & F5 & F6 & F7 & F8).
    exists c. rewrite !elem_of_app. split_and!; try congruence; [tauto|tauto|].
    intros H. rewrite F8, E8; tauto.
  - rewrite (mk_lenl _ _ _ _ _ M2). apply M1.
  - intros k l Hl. destruct (mk_link _ _ _ _ _ M1 _ _ Hl) as (l1 & H1 & E1 & E2 & E3).
    destruct (mk_link _ _ _ _ _ M2 _ _ H1) as (l2 & H2 & F1 & F2 & F3).
    exists l2. split_and!; try congruence. rewrite F3, E3. clear F3 E3. split.
    + intros [[H|(j & a & H & H' & H'')]|(j & b & H & H' & H'')]; [by left| |].
      * right. exists j, a. rewrite !elem_of_app. tauto.
      * destruct (marked_back _ _ _ _ _ _ _ M1 H') as (a & Ha).
        destruct (mk_saddle _ _ _ _ _ M1 _ _ Ha) as (b' & Hb & _ & E & _).
        assert (b' = b) as -> by congruence. rewrite E in H''.
        right. exists j, a. rewrite !elem_of_app. tauto.
    + intros [H|(j & a & H & H' & H'')]; [tauto|]. rewrite !elem_of_app in H.
      assert ((j ∈ S \/ j ∈ B) \/ (j ∈ S' \/ j ∈ B')) as [Hj|Hj] by tauto.
      * left. right. by exists j, a.
      * right. destruct (mk_saddle _ _ _ _ _ M1 _ _ H') as (b & Hb & _ & E & _).
        exists j, b. by rewrite E.
Qed.

(** Marking leaves the graph alone. *)
Lemma marked_link_summit S B A w w' k : marked S B A w w' ->
  ln_summit <$> w_links w' !! k = ln_summit <$> w_links w !! k.
Proof.
  intros M. destruct (w_links w !! k) as [l|] eqn:E.
  - destruct (mk_link _ _ _ _ _ M _ _ E) as (l' & -> & H & _). cbn. by rewrite H.
  - destruct (w_links w' !! k) eqn:E'; [|done]. destruct (marked_backl _ _ _ _ _ _ _ M E'). congruence.
Qed.
Lemma marked_link_saddle S B A w w' k : marked S B A w w' ->
  ln_saddle <$> w_links w' !! k = ln_saddle <$> w_links w !! k.
Proof.
  intros M. destruct (w_links w !! k) as [l|] eqn:E.
  - destruct (mk_link _ _ _ _ _ M _ _ E) as (l' & -> & _ & H & _). cbn. by rewrite H.
  - destruct (w_links w' !! k) eqn:E'; [|done]. destruct (marked_backl _ _ _ _ _ _ _ M E'). congruence.
Qed.
Lemma omap_ext_all {X Y} (f g : X -> option Y) (l : list X) : (forall x, f x = g x) -> omap f l = omap g l.
Proof. intros H. induction l as [|x l IH]; [done|]. cbn. rewrite H. by destruct (g x); rewrite IH. Qed.
Lemma marked_summits_of S B A w w' i : marked S B A w w' -> summits_of w' i = summits_of w i.
Proof.
  intros M. unfold summits_of. destruct (w_saddles w !! i) as [a|] eqn:E.
  - destruct (mk_saddle _ _ _ _ _ M _ _ E) as (b & -> & _ & -> & _).
    apply omap_ext_all. intros k. by eapply marked_link_summit.
  - destruct (w_saddles w' !! i) eqn:E'; [|done]. destruct (marked_back _ _ _ _ _ _ _ M E'). congruence.
Qed.
Lemma marked_saddles_of S B A w w' i : marked S B A w w' -> saddles_of w' i = saddles_of w i.
Proof.
  intros M. unfold saddles_of. rewrite (mk_summits _ _ _ _ _ M). destruct (w_summits w !! i) as [a|] eqn:E; [|done].
  apply omap_ext_all. intros k. by eapply marked_link_saddle.
Qed.
Lemma marked_feat S B A w w' n : marked S B A w w' -> node_feat w' n = node_feat w n.
Proof.
  intros M. destruct n as [i|a]; cbn.
  - destruct (w_saddles w !! i) as [a|] eqn:E.
    + destruct (mk_saddle _ _ _ _ _ M _ _ E) as (b & -> & H & _). cbn. by rewrite H.
    + destruct (w_saddles w' !! i) eqn:E'; [|done]. destruct (marked_back _ _ _ _ _ _ _ M E'). congruence.
  - by rewrite (mk_summits _ _ _ _ _ M).
Qed.
Lemma marked_ele S B A w w' n : marked S B A w w' -> node_ele w' n = node_ele w n.
Proof. intros M. unfold node_ele. by rewrite (marked_feat _ _ _ _ _ _ M). Qed.
Lemma marked_edge S B A w w' n n' : marked S B A w w' -> edge w' n n' <-> edge w n n'.
Proof.
  intros M. destruct n, n'; cbn; [done| | |done].
  - by rewrite (marked_summits_of _ _ _ _ _ _ M).
  - by rewrite (marked_saddles_of _ _ _ _ _ _ M).
Qed.
Lemma marked_disq S B A w w' j a b : marked S B A w w' -> w_saddles w !! j = Some a ->
  w_saddles w' !! j = Some b -> disqualified a = true -> disqualified b = true.
Proof.
  intros M Ha Hb. destruct (mk_saddle _ _ _ _ _ M _ _ Ha) as (b' & Hb' & _ & _ & _ & _ & E5 & E6 & E7 & _).
  assert (b' = b) as -> by congruence. unfold disqualified. rewrite E5. destruct (sa_over a) as [[]|]; try done.
  rewrite !orb_true_iff, E6, E7. tauto.
Qed.
Lemma marked_dead S B A w w' n : marked S B A w w' -> dead w n = true -> dead w' n = true.
Proof.
  intros M. destruct n as [i|a]; cbn.
  - destruct (w_saddles w !! i) as [a|] eqn:E.
    + destruct (mk_saddle _ _ _ _ _ M _ _ E) as (b & Hb & Hf & _). rewrite Hb, Hf. rewrite !orb_true_iff.
      intros [H|H]; [left|by right]. by eapply marked_disq.
    + intros _. destruct (w_saddles w' !! i) eqn:E'; [|done]. destruct (marked_back _ _ _ _ _ _ _ M E'). congruence.
  - by rewrite (mk_summits _ _ _ _ _ M).
Qed.

Lemma open_dead w n : open_ w n <-> dead w n = false.
Proof.
  destruct n as [i|a]; cbn.
  - destruct (w_saddles w !! i) as [s|]; [|split; [by intros (s & ? & _)|done]].
    rewrite orb_false_iff. split; [by intros (s' & [= <-] & H)|]. intros H. by exists s.
  - destruct (w_summits w !! a) as [s|]; [|split; [by intros (s & ? & _)|done]].
    split; [by intros (s' & [= <-] & H)|]. intros H. by exists s.
Qed.
Lemma marked_open S B A w w' n : marked S B A w w' -> open_ w' n -> open_ w n.
Proof.
  intros M. rewrite !open_dead. intros H. destruct (dead w n) eqn:E; [|done].
  by rewrite (marked_dead _ _ _ _ _ _ M E) in H.
Qed.
Lemma ele_node w n : node_ele w n = ele_at w n.
Proof. destruct n as [i|a]; cbn; unfold node_ele; cbn; [by destruct (w_saddles w !! i)|by destruct (w_summits w !! a)]. Qed.
Lemma neighbors_edge w n n' : n' ∈ feature_neighbors w n <-> edge w n n'.
Proof.
  destruct n as [i|a]; cbn; unfold summits_of, saddles_of.
  - destruct n' as [j|b].
    + split; [|done]. destruct (w_saddles w !! i); [|by intros H%elem_of_nil].
      intros (k & _ & H)%elem_of_list_omap. by destruct (w_links w !! k).
    + destruct (w_saddles w !! i); [|by rewrite !elem_of_nil].
      rewrite !elem_of_list_omap. apply exist_proper. intros k. destruct (w_links w !! k); cbn; [|naive_solver].
      split; intros [H [= E]]; split; congruence.
  - destruct n' as [j|b].
    + destruct (w_summits w !! a); [|by rewrite !elem_of_nil].
      rewrite !elem_of_list_omap. apply exist_proper. intros k. destruct (w_links w !! k); cbn; [|naive_solver].
      split; intros [H [= E]]; split; congruence.
    + split; [|done]. destruct (w_summits w !! a); [|by intros H%elem_of_nil].
      intros (k & _ & H)%elem_of_list_omap. by destruct (w_links w !! k).
Qed.

(** One disqualification. *)
Lemma mark_one basin single i w s : w_saddles w !! i = Some s -> basin || single = true ->
  marked (if single then [i] else []) (if basin then [i] else []) [] w
    (disqualify_self_and_linkers basin single i w).
Proof.
  intros Hs Hbs. destruct (disqualify_spec basin single i w s Hs) as (H1 & H2 & H3 & H4 & H5).
  set (w' := disqualify_self_and_linkers basin single i w) in *. clearbody w'.
  assert (length (w_links w') = length (w_links w)) as Hlen.
  { apply Nat.le_antisymm; apply Nat.nlt_ge; intros Hlt.
    - apply lookup_lt_is_Some_2 in Hlt as [l Hl]. rewrite H5 in Hl.
      destruct (w_links w !! length (w_links w)) eqn:E; [|done]. apply lookup_lt_Some in E. lia.
    - apply lookup_lt_is_Some_2 in Hlt as [l Hl]. pose proof (H5 (length (w_links w'))) as E.
      rewrite Hl in E. cbn in E. apply lookup_lt_Some in E. lia. }
  split; try done.
  - intros j a Ha. destruct (decide (j = i)) as [->|Hne].
    + assert (a = s) as -> by congruence. eexists. split; [done|]. cbn. rewrite Hbs.
      split_and!; try done; rewrite orb_true_iff; destruct single, basin;
        rewrite ?elem_of_list_singleton, ?elem_of_nil; naive_solver.
    + exists a. rewrite H2 by done. split_and!; try done; destruct single, basin;
        rewrite ?elem_of_list_singleton, ?elem_of_nil; naive_solver.
  - intros k l Hl. rewrite H5, Hl. cbn. eexists. split; [done|]. cbn. split_and!; try done.
    rewrite orb_true_iff, bool_decide_eq_true. split.
    + intros [H|H]; [by left|]. right. exists i, s. split; [|done].
      destruct single, basin; rewrite ?elem_of_list_singleton, ?elem_of_nil; naive_solver.
    + intros [H|(j & a & Hj & Ha & Hk)]; [by left|right].
      assert (j = i) as ->. { destruct single, basin; rewrite ?elem_of_list_singleton, ?elem_of_nil in Hj; tauto. }
      congruence.
Qed.

Lemma mark_alts i f w : (forall s, f s = set_alts (sa_alts (f s)) s) -> marked [] [] [i] w (upd_saddle i f w).
Proof.
  intros Hf. split; try done.
  - cbn. by rewrite alter_length.
  - intros j a Ha. rewrite upd_saddle_lookup, Ha. case_decide as E; cbn.
    + exists (f a). rewrite (Hf a). cbn. split_and!; try done; rewrite ?elem_of_nil; [tauto..|].
      subst. rewrite elem_of_list_singleton. tauto.
    + exists a. split_and!; try done; rewrite ?elem_of_nil; tauto.
  - intros k l H. exists l. split_and!; try done. split; [by left|].
    intros [H1|(j & a & [H1|H1] & _)]; [done| |]; by apply elem_of_nil in H1.
Qed.

(** ** Single-summit saddles *)
Section stubs.
  Variable m : datamap.

  Lemma spot_eq_sym a b : spot_eq a b = spot_eq b a.
  Proof. unfold spot_eq. rewrite Z.eqb_sym. f_equal. f_equal; apply bool_decide_ext; split; congruence. Qed.
  Lemma spot_eq_trans a b c : spot_eq a b = true -> spot_eq b c = true -> spot_eq a c = true.
  Proof.
    unfold spot_eq. rewrite !andb_true_iff, !bool_decide_eq_true, !Z.eqb_eq.
    intros [[-> ->] ->] [[-> ->] ->]. done.
  Qed.
  Lemma summit_same_refl w a : summit_same m w a a = true.
  Proof. unfold summit_same. by rewrite Nat.eqb_refl. Qed.
  Lemma summit_same_sym w a b : summit_same m w a b = true -> summit_same m w b a = true.
  Proof.
    unfold summit_same. rewrite !orb_true_iff, !Nat.eqb_eq. intros [H|H]; [by left|right].
    destruct (summit_spot m w a), (summit_spot m w b); try done. by rewrite spot_eq_sym.
  Qed.
  Lemma summit_same_trans w a b c : summit_same m w a b = true -> summit_same m w b c = true ->
    summit_same m w a c = true.
  Proof.
    unfold summit_same. rewrite !orb_true_iff, !Nat.eqb_eq. intros [->|H] [->|H']; try tauto. right.
    destruct (summit_spot m w a), (summit_spot m w b), (summit_spot m w c); try done. by eapply spot_eq_trans.
  Qed.

  Lemma unique_rep w l a : a ∈ l -> exists b, b ∈ unique_summits m w l /\ summit_same m w b a = true.
  Proof.
    induction l as [|x l IH]; [by intros H%elem_of_nil|]. cbn. intros [->|H]%elem_of_cons.
    - exists x. split; [by left|apply summit_same_refl].
    - destruct (IH H) as (b & Hb & Hs). destruct (summit_same m w x b) eqn:E.
      + exists x. split; [by left|]. by eapply summit_same_trans.
      + exists b. split; [|done]. right. by apply elem_of_list_filter.
  Qed.
  Lemma unique_one w l : (length (unique_summits m w l) <= 1)%nat <->
    forall a b, a ∈ l -> b ∈ l -> summit_same m w a b = true.
  Proof.
    destruct l as [|x l]; cbn; [split; [by intros _ a b H%elem_of_nil|lia]|]. split.
    - intros H. destruct (filter _ _) eqn:E; [|cbn in H; lia].
      assert (forall a, a ∈ x :: l -> summit_same m w x a = true) as Hx.
      { intros a [->|Ha]%elem_of_cons; [apply summit_same_refl|].
        destruct (unique_rep w l a Ha) as (b & Hb & Hs). destruct (summit_same m w x b) eqn:F.
        - by eapply summit_same_trans.
        - assert (b ∈ @nil nat) as Hn by (rewrite <-E; by apply elem_of_list_filter). by apply elem_of_nil in Hn. }
      intros a b Ha Hb. eapply summit_same_trans; [|by apply Hx]. by apply summit_same_sym, Hx.
    - intros H. destruct (filter _ _) as [|y ys] eqn:E; [cbn; lia|].
      assert (y ∈ y :: ys) as Hy by left. rewrite <-E in Hy. apply elem_of_list_filter in Hy as [H1 H2].
      assert (y ∈ l) as Hin.
      { clear -H2. revert y H2. induction l as [|z l IH]; cbn; [done|]. intros y [->|H]%elem_of_cons; [by left|].
        right. apply IH. apply elem_of_list_filter in H. apply H. }
      assert (summit_same m w x y = true); [|congruence]. apply H; [by left|by right].
  Qed.

  Lemma summit_same_marked S B A w w' a b : marked S B A w w' -> summit_same m w' a b = summit_same m w a b.
  Proof. intros M. unfold summit_same, summit_spot. by rewrite (mk_summits _ _ _ _ _ M). Qed.
  Lemma one_summit_marked S B A w w' i : marked S B A w w' -> one_summit m w' i <-> one_summit m w i.
  Proof.
    intros M. unfold one_summit. rewrite (marked_summits_of _ _ _ _ _ _ M).
    split; intros H a b Ha Hb; specialize (H a b Ha Hb); by rewrite (summit_same_marked _ _ _ _ _ _ _ M) in *.
  Qed.

  Lemma single_source_spec w i s : w_saddles w !! i = Some s ->
    single_source m w i = (if decide (length (unique_summits m w (summits_of w i)) <= 1)%nat
                           then disqualify_self_and_linkers false true i w else w).
  Proof.
    intros Hs. unfold single_source, summits_of, linked_summits. rewrite Hs.
    destruct (Nat.leb_spec (length (unique_summits m w (omap (fun k => ln_summit <$> w_links w !! k) (sa_links s)))) 1);
      case_decide; try done; lia.
  Qed.

  Lemma stub_spec features : forall w, NoDup features ->
    exists S, marked S [] [] w (stub_phase m w features) /\
      forall i, i ∈ S <-> i ∈ features /\ not_disq w i /\ one_summit m w i.
  Proof.
    induction features as [|j fs IH]; intros w; cbn [stub_phase foldl].
    - intros _. exists []. split; [apply marked_refl|]. intros i. rewrite elem_of_nil. tauto.
    - intros [Hj Hnd]%NoDup_cons. fold (stub_phase m).
      set (w1 := match w_saddles w !! j with Some s => if disqualified s then w else single_source m w j | None => w end).
      assert (exists S1, marked S1 [] [] w w1 /\ (forall i, i ∈ S1 <-> i = j /\ not_disq w i /\ one_summit m w i)) as (S1 & M1 & H1).
      { unfold w1. destruct (w_saddles w !! j) as [s|] eqn:Hs.
        - destruct (disqualified s) eqn:Hd.
          + exists []. split; [apply marked_refl|]. intros i. rewrite elem_of_nil. split; [done|].
            intros (-> & (s' & H & H') & _). congruence.
          + rewrite (single_source_spec _ _ _ Hs). case_decide as Hu.
            * exists [j]. split; [by apply (mark_one false true _ _ s)|]. intros i. rewrite elem_of_list_singleton.
              split; [|tauto]. intros ->. split; [done|]. split; [by exists s|].
              unfold one_summit. by apply unique_one.
            * exists []. split; [apply marked_refl|]. intros i. rewrite elem_of_nil. split; [done|].
              intros (-> & _ & Ho). apply Hu. by apply unique_one.
        - exists []. split; [apply marked_refl|]. intros i. rewrite elem_of_nil. split; [done|].
          intros (-> & (s' & H & H') & _). congruence. }
      destruct (IH w1 Hnd) as (S2 & M2 & H2). exists (S1 ++ S2). split; [exact (marked_trans _ _ _ _ _ _ _ _ _ M1 M2)|].
      intros i. rewrite elem_of_app, H1, H2, elem_of_cons. rewrite (one_summit_marked _ _ _ _ _ _ M1).
      assert (i ∈ fs -> (not_disq w1 i <-> not_disq w i)) as Hq; [|naive_solver].
      intros Hi. assert (i <> j) as Hne by congruence. unfold not_disq.
      destruct (w_saddles w !! i) as [a|] eqn:Ha.
      + destruct (mk_saddle _ _ _ _ _ M1 _ _ Ha) as (b & Hb & _ & _ & _ & _ & E5 & E6 & E7 & _).
        rewrite Hb. assert (disqualified b = disqualified a) as E.
        { unfold disqualified. rewrite E5. destruct (sa_over a); [done|].
          assert (sa_single b = sa_single a) as ->.
          { apply eq_true_iff_eq. rewrite E6, H1. tauto. }
          assert (sa_basin b = sa_basin a) as ->; [|done].
          apply eq_true_iff_eq. rewrite E7, elem_of_nil. tauto. }
        split; intros (s & [= <-] & H); eexists; (split; [done|congruence]).
      + split; intros (s & H & _); [|done]. destruct (marked_back _ _ _ _ _ _ _ M1 H). congruence.
  Qed.
End stubs.
