(** Proofs about purging and the link queries. *)
From Verif Require Import Graph_model Graph_spec Graph_proof Contig_proof.
Local Open Scope Z_scope.

(** ** Purging *)

Lemma purge_one_spec a b c s : purge_one a b c s = true <-> purged a b c s.
Proof.
  unfold purge_one, purged. destruct (sa_basin s), (sa_single s), a, b, c; cbn; try case_decide; cbn;
    intuition; try discriminate; try congruence.
Qed.

Lemma purge_split_spec a b c w l :
  purge_split a b c w l =
  (filter (fun i => goes a b c w i = true) l, filter (fun i => stays a b c w i = true) l,
   concat (map (links_at w) (filter (fun i => stays a b c w i = true) l))).
Proof.
  unfold purge_split.
  assert (H : forall l r k n, foldl (fun (a0 : list nat * list nat * list nat) i =>
    match w_saddles w !! i with
    | None => a0
    | Some s => if purge_one a b c s then (a0.1.1 ++ [i], a0.1.2, a0.2)
                else (a0.1.1, a0.1.2 ++ [i], a0.2 ++ sa_links s)
    end) (r, k, n) l =
    (r ++ filter (fun i => goes a b c w i = true) l, k ++ filter (fun i => stays a b c w i = true) l,
     n ++ concat (map (links_at w) (filter (fun i => stays a b c w i = true) l)))).
  { clear l. induction l as [|i l IH]; intros r k n; cbn [foldl].
    - by rewrite !filter_nil, !app_nil_r.
    - rewrite !filter_cons. destruct (w_saddles w !! i) as [s|] eqn:Es.
      + cbn [fst snd]. destruct (purge_one a b c s) eqn:Ep.
        * apply purge_one_spec in Ep. rewrite IH.
          rewrite (decide_True (P := goes a b c w i = true)) by
            (unfold goes; rewrite Es; by apply bool_decide_eq_true).
          rewrite (decide_False (P := stays a b c w i = true)) by
            (unfold stays; rewrite Es, bool_decide_eq_true; tauto).
          by rewrite <-app_assoc.
        * assert (Hn : ~ purged a b c s) by (rewrite <-purge_one_spec; congruence). rewrite IH.
          rewrite (decide_False (P := goes a b c w i = true)) by
            (unfold goes; rewrite Es, bool_decide_eq_true; tauto).
          rewrite (decide_True (P := stays a b c w i = true)) by
            (unfold stays; rewrite Es; by apply bool_decide_eq_true).
          cbn [map concat]. unfold links_at at 2. rewrite Es. cbn [from_option].
          by rewrite <-!app_assoc.
      + rewrite IH. rewrite (decide_False (P := goes a b c w i = true)) by (unfold goes; by rewrite Es).
        by rewrite (decide_False (P := stays a b c w i = true)) by (unfold stays; by rewrite Es). }
  apply H.
Qed.

Section purge.
  Variable m : datamap.

  (** The loop over the domains. *)
  Lemma remove_loop i s ks : forall w, w_saddles w !! i = Some s ->
    let w' := foldl (fun w k =>
        match w_links w !! k with
        | None => w
        | Some l => upd_summit (ln_summit l) (fun su =>
            Summit (su_feat su) (su_links su)
              (filter (fun x => saddle_ne m w x i = true) <$> su_domain su)) w
        end) w ks in
    deleted [] w w' /\ w_saddles w' = w_saddles w /\ w_links w' = w_links w /\
    forall k l, k ∈ ks -> w_links w !! k = Some l -> i ∉ domain_saddles w' (ln_summit l).
  Proof.
    induction ks as [|k ks IH]; intros w Hs; cbn [foldl]; cbn zeta.
    - split_and!; [apply deleted_refl|done..|]. intros k l Hk. by apply elem_of_nil in Hk.
    - set (w1 := match w_links w !! k with Some _ => _ | None => _ end).
      assert (H1 : deleted [] w w1 /\ w_saddles w1 = w_saddles w /\ w_links w1 = w_links w /\
        forall l, w_links w !! k = Some l -> i ∉ domain_saddles w1 (ln_summit l)).
      { unfold w1. destruct (w_links w !! k) as [l|]; [|split_and!; [apply deleted_refl|done..]].
        split_and!; [|done..|].
        - split_and!; try done.
          + cbn. apply alter_length.
          + intros j a Ha. exists a. split_and!; try done; [|by left]. intros H. by apply elem_of_nil in H.
          + intros j a Ha. rewrite upd_summit_lookup, Ha. case_decide; cbn.
            * eexists. split_and!; try done. cbn. destruct (su_domain a); cbn; [|done].
              apply filter_sublist_of.
            * exists a. split_and!; try done. by destruct (su_domain a).
          + intros k' l' Hl'. exists l'. split_and!; try done. split; [by left|].
            intros [H|(i' & s' & H & _)]; [done|by apply elem_of_nil in H].
        - intros l' [= <-]. unfold domain_saddles. rewrite upd_summit_lookup, decide_True by done.
          destruct (w_summits w !! ln_summit l) as [su|]; cbn; [|apply not_elem_of_nil].
          destruct (su_domain su) as [ds|]; cbn; [|apply not_elem_of_nil].
          rewrite elem_of_list_filter, (saddle_ne_iff m w i i s Hs). intros [H _]. apply H.
          exists s, s. by split_and!. }
      destruct H1 as (D1 & E1 & E2 & N1). clearbody w1.
      destruct (IH w1) as (D2 & F1 & F2 & N2); [by rewrite E1|].
      split_and!; [|congruence..|].
      + change [] with (@nil nat ++ @nil nat). by eapply deleted_trans.
      + intros k' l' Hk' Hl'. apply elem_of_cons in Hk' as [->|Hk'].
        * specialize (N1 l' Hl'). intros Hin. apply N1. clear -D2 Hin. unfold domain_saddles in *.
          destruct D2 as (_ & L & _ & _ & D & _).
          set (w2 := foldl _ w1 ks) in *. clearbody w2.
          destruct (w_summits w2 !! ln_summit l') as [su2|] eqn:E; [|by apply elem_of_nil in Hin].
          assert (is_Some (w_summits w1 !! ln_summit l')) as [su1 E1].
          { apply lookup_lt_is_Some. rewrite <-L. by eapply lookup_lt_Some. }
          rewrite E1. destruct (D _ _ E1) as (su2' & E' & _ & _ & Hd).
          assert (su2' = su2) as -> by congruence. cbn in *.
          destruct (su_domain su1), (su_domain su2); try done; cbn in *.
          -- eapply elem_of_submseteq; [done|by apply sublist_submseteq].
        * apply (N2 k'); [done|]. by rewrite E2.
  Qed.

  Lemma remove_spec i w s : w_saddles w !! i = Some s ->
    let w' := remove_from_domains m i w in
    deleted [] w w' /\ w_saddles w' = w_saddles w /\
    forall k l, k ∈ sa_links s -> w_links w !! k = Some l -> i ∉ domain_saddles w' (ln_summit l).
  Proof.
    intros Hs. cbn zeta. unfold remove_from_domains. rewrite Hs.
    destruct (remove_loop i s (sa_links s) w Hs) as (H1 & H2 & H3 & H4). done.
  Qed.

  (** Facts about a deleted saddle that survive further deletions. *)
  Definition gone (w : world) (i : nat) : Prop :=
    exists s, w_saddles w !! i = Some s /\ sa_parent s = None /\ sa_children s = [] /\ sa_alts s = [] /\
      forall k l, k ∈ sa_links s -> w_links w !! k = Some l -> i ∉ domain_saddles w (ln_summit l).

  Lemma deleted_domain R w w' d x : deleted R w w' -> x ∈ domain_saddles w' d -> x ∈ domain_saddles w d.
  Proof.
    intros (_ & L & _ & _ & D & _) Hin. unfold domain_saddles in *.
    destruct (w_summits w' !! d) as [su2|] eqn:E; [|by apply elem_of_nil in Hin].
    assert (is_Some (w_summits w !! d)) as [su1 E1].
    { apply lookup_lt_is_Some. rewrite <-L. by eapply lookup_lt_Some. }
    rewrite E1. destruct (D _ _ E1) as (su2' & E' & _ & _ & Hd).
    assert (su2' = su2) as -> by congruence. cbn in *.
    destruct (su_domain su1), (su_domain su2); try done; cbn in *.
    eapply elem_of_submseteq; [done|by apply sublist_submseteq].
  Qed.

  Lemma deleted_link R w w' k l' : deleted R w w' -> w_links w' !! k = Some l' ->
    exists l, w_links w !! k = Some l /\ ln_summit l' = ln_summit l /\ ln_saddle l' = ln_saddle l.
  Proof.
    intros (_ & _ & L & _ & _ & D) H. assert (is_Some (w_links w !! k)) as [l Hl].
    { apply lookup_lt_is_Some. rewrite <-L. by eapply lookup_lt_Some. }
    destruct (D k l Hl) as (l2 & H2 & ?&?&_). assert (l2 = l') as -> by congruence. by exists l.
  Qed.

  Lemma deleted_gone R w w' i : deleted R w w' -> gone w i -> gone w' i.
  Proof.
    intros D (s & Hs & Hp & Hc & Ha & Hd).
    destruct D as (D1 & D2 & D3 & D4 & D5 & D6) eqn:E. clear E.
    destruct (D4 i s Hs) as (b & Hb & _ & Hl & _ & _ & _ & _ & Hc' & Ha' & Hp').
    exists b. split; [done|]. rewrite Hc in Hc'. rewrite Ha in Ha'. apply sublist_nil_r in Hc', Ha'.
    split_and!; [destruct Hp'; congruence|done|done|].
    intros k l Hk Hlk Hin. destruct (deleted_link R w w' k l D Hlk) as (l0 & Hl0 & Es & _).
    rewrite Hl in Hk. apply (Hd k l0 Hk Hl0). rewrite <-Es. by eapply deleted_domain.
  Qed.

  Lemma delete_all rm : forall w, Forall (fun i => is_Some (w_saddles w !! i)) rm ->
    let w' := foldl (fun w i => remove_from_domains m i (soft_delete m i w)) w rm in
    deleted rm w w' /\ Forall (gone w') rm /\
    (family w -> siblings_apart m w -> family w' /\ siblings_apart m w').
  Proof.
    induction rm as [|i rm IH]; intros w Hv; cbn [foldl]; cbn zeta.
    - split_and!; [apply deleted_refl|constructor|done].
    - inversion Hv as [|? ? [s Hs] Hv']; subst.
      destruct (soft_delete_spec m i w s Hs) as (D1 & b & Hb & P1 & P2 & P3).
      destruct (remove_spec i (soft_delete m i w) b Hb) as (D2 & E2 & N2).
      set (w2 := remove_from_domains m i (soft_delete m i w)) in *.
      assert (D12 : deleted [i] w w2) by (change [i] with ([i] ++ []); by eapply deleted_trans).
      assert (G2 : gone w2 i).
      { exists b. rewrite E2. split_and!; try done. intros k l Hk Hl.
        destruct (deleted_link _ _ _ _ _ D2 Hl) as (l0 & Hl0 & Es & _). rewrite Es. by eapply N2. }
      destruct (IH w2) as (D3 & G3 & F3).
      { eapply Forall_impl; [exact Hv'|]. intros j [a Ha].
        destruct D12 as (_ & _ & _ & D & _). destruct (D j a Ha) as (a' & Ha' & _). by exists a'. }
      split_and!.
      + change (i :: rm) with ([i] ++ rm). by eapply deleted_trans.
      + constructor; [|done]. by eapply deleted_gone.
      + intros Hf Hap. destruct (soft_delete_family m i w s Hf Hap Hs) as (F1 & A1 & _).
        apply F3.
        * split; [intros c p|intros x y]; unfold parent_of, children_of, alts_of; rewrite !E2; apply F1.
        * split; [intros p x y|intros p x y]; unfold children_of, alts_of, same_place; rewrite !E2; apply A1.
  Qed.

  Lemma purge_spec a b c d :
    let d' := purge_saddles m a b c d in
    let w := mp_world d in let w' := mp_world d' in
    mp_summits d' = mp_summits d /\ mp_runoffs d' = mp_runoffs d /\
    mp_saddles d' = filter (fun i => stays a b c w i = true) (mp_saddles d) /\
    mp_linkers d' = concat (map (links_at w) (mp_saddles d')) /\
    deleted (filter (fun i => goes a b c w i = true) (mp_saddles d)) w w' /\
    (forall i, i ∈ mp_saddles d -> goes a b c w i = true -> gone w' i) /\
    (family w -> siblings_apart m w -> family w' /\
       forall i j, i ∈ mp_saddles d -> goes a b c w i = true ->
         parent_of w' j <> Some i /\ i ∉ children_of w' j /\ i ∉ alts_of w' j).
  Proof.
    cbn zeta. unfold purge_saddles. rewrite purge_split_spec. cbn [mp_world mp_summits mp_runoffs mp_saddles mp_linkers].
    set (rm := filter (fun i => goes a b c (mp_world d) i = true) (mp_saddles d)).
    destruct (delete_all rm (mp_world d)) as (D & G & F).
    { apply Forall_forall. intros i Hi. apply elem_of_list_filter in Hi as [Hi _].
      unfold goes in Hi. destruct (w_saddles (mp_world d) !! i) as [s|] eqn:E; [by exists s|].
      simpl in Hi. discriminate Hi. }
    assert (G' : forall i, i ∈ mp_saddles d -> goes a b c (mp_world d) i = true ->
      gone (foldl (fun w i => remove_from_domains m i (soft_delete m i w)) (mp_world d) rm) i).
    { intros i H1 H2. rewrite Forall_forall in G. apply G. by apply elem_of_list_filter. }
    split_and!; try done. intros Hf Ha. destruct (F Hf Ha) as [F1 F2]. split; [done|].
    intros i j H1 H2. destruct (G' i H1 H2) as (s & Hs & Hp & Hc & Hal & _).
    set (w' := foldl _ _ rm) in *. clearbody w'.
    assert (Hch : children_of w' i = []) by (unfold children_of; by rewrite Hs).
    assert (Hpa : parent_of w' i = None) by (unfold parent_of; by rewrite Hs).
    assert (Hai : alts_of w' i = []) by (unfold alts_of; by rewrite Hs).
    split_and!.
    - intros H. apply (proj1 F1) in H. rewrite Hch in H. by apply elem_of_nil in H.
    - intros H. apply (proj1 F1) in H. congruence.
    - intros H. apply (proj2 F1) in H. rewrite Hai in H. by apply elem_of_nil in H.
  Qed.

  Lemma purge_runoff_links a b c d k l : linked_up (mp_world d) ->
    w_links (mp_world d) !! k = Some l -> ln_saddle l ∉ mp_saddles d ->
    k ∉ mp_linkers (purge_saddles m a b c d).
  Proof.
    intros (H1 & _ & _) Hl Hn Hk.
    destruct (purge_spec a b c d) as (_ & _ & E1 & E2 & _). rewrite E2 in Hk.
    apply elem_of_concat in Hk as (ls & Hk & Hls). apply elem_of_list_fmap in Hls as (i & -> & Hi).
    rewrite E1 in Hi. apply elem_of_list_filter in Hi as [_ Hi].
    unfold links_at in Hk. destruct (w_saddles (mp_world d) !! i) as [s|] eqn:Es; [|by apply elem_of_nil in Hk].
    cbn in Hk. apply (H1 i s k Es) in Hk as (l' & Hl' & E). congruence.
  Qed.
End purge.

(** ** Link queries *)

Lemma linker_ok_spec w skip exempt k l : w_links w !! k = Some l ->
  linker_ok w skip exempt k = true <-> follow w skip exempt k l.
Proof.
  intros Hl. unfold linker_ok, follow. rewrite Hl.
  destruct skip, (ln_disq l) eqn:Ed, (exempt k) eqn:Ex; cbn; intuition; congruence.
Qed.

(** The links at the same summit (saddle), in the order of its list. *)
Lemma summit_links_spec w k l : linked_up w -> w_links w !! k = Some l ->
  exists su, w_summits w !! ln_summit l = Some su /\ summit_links w k = su_links su /\
    forall j, j ∈ su_links su <-> exists lj, w_links w !! j = Some lj /\ ln_summit lj = ln_summit l.
Proof.
  intros (H1 & H2 & H3) Hl. destruct (H3 k l Hl) as [_ Hlt]. apply lookup_lt_is_Some in Hlt as [su Hsu].
  exists su. unfold summit_links. rewrite Hl, Hsu. split_and!; try done. intros j. apply (H2 _ _ _ Hsu).
Qed.
Lemma saddle_links_spec w k l : linked_up w -> w_links w !! k = Some l ->
  exists sa, w_saddles w !! ln_saddle l = Some sa /\ saddle_links w k = sa_links sa /\
    forall j, j ∈ sa_links sa <-> exists lj, w_links w !! j = Some lj /\ ln_saddle lj = ln_saddle l.
Proof.
  intros (H1 & H2 & H3) Hl. destruct (H3 k l Hl) as [Hlt _]. apply lookup_lt_is_Some in Hlt as [su Hsu].
  exists su. unfold saddle_links. rewrite Hl, Hsu. split_and!; try done. intros j. apply (H1 _ _ _ Hsu).
Qed.

Lemma omap_ends {B} (f : link -> B) w js : (forall j, j ∈ js -> is_Some (w_links w !! j)) ->
  Forall2 (fun j x => exists lj, w_links w !! j = Some lj /\ x = f lj) js
    (omap (fun j => f <$> w_links w !! j) js).
Proof.
  induction js as [|j js IH]; intros H; [constructor|]. cbn.
  destruct (H j) as [lj Hj]; [by left|]. rewrite Hj. cbn. constructor.
  - by exists lj.
  - apply IH. intros i Hi. apply H. by right.
Qed.

Section queries.
  Variables (w : world) (skip : bool) (exempt : nat -> bool) (k : nat) (l : link).
  Hypotheses (Hup : linked_up w) (Hl : w_links w !! k = Some l).

  Lemma via_summit_spec :
    (~ follow w skip exempt k l -> saddles_connected_via_summit w skip exempt k = []) /\
    (follow w skip exempt k l -> exists su js, w_summits w !! ln_summit l = Some su /\
       js `sublist_of` su_links su /\
       (forall j, j ∈ js <-> exists lj, follow w skip exempt j lj /\ ln_summit lj = ln_summit l) /\
       Forall2 (fun j x => exists lj, w_links w !! j = Some lj /\ x = ln_saddle lj) js
         (saddles_connected_via_summit w skip exempt k)).
  Proof.
    unfold saddles_connected_via_summit. rewrite Hl.
    destruct (summit_links_spec w k l Hup Hl) as (su & Hsu & E & Hmem). split.
    - intros Hn. unfold follow in Hn. destruct (skip && ln_disq l) eqn:E1; [done|].
      destruct (exempt k) eqn:E2; [done|]. destruct Hn. split_and!; try done.
      intros ->. by destruct (ln_disq l).
    - intros (_ & Hx & Hs). assert (skip && ln_disq l = false) as ->.
      { destruct skip; [by rewrite Hs|done]. }
      rewrite Hx, E. exists su, (filter (fun j => linker_ok w skip exempt j = true) (su_links su)).
      assert (Hj : forall j, j ∈ filter (fun j => linker_ok w skip exempt j = true) (su_links su) <->
        exists lj, follow w skip exempt j lj /\ ln_summit lj = ln_summit l).
      { intros j. rewrite elem_of_list_filter, Hmem. split.
        - intros (Hok & lj & Hlj & He). exists lj. split; [|done]. by apply linker_ok_spec.
        - intros (lj & Hf & He). pose proof Hf as (Hlj & _). split; [by apply (linker_ok_spec _ _ _ _ lj)|].
          by exists lj. }
      split_and!; [done|apply filter_sublist_of|done|].
      apply (omap_ends ln_saddle). intros j Hin. apply Hj in Hin as (lj & (H & _) & _). by exists lj.
  Qed.

  Lemma via_saddle_spec :
    (~ follow w skip exempt k l -> summits_connected_via_saddle w skip exempt k = []) /\
    (follow w skip exempt k l -> exists sa js, w_saddles w !! ln_saddle l = Some sa /\
       js `sublist_of` sa_links sa /\
       (forall j, j ∈ js <-> exists lj, follow w skip exempt j lj /\ ln_saddle lj = ln_saddle l) /\
       Forall2 (fun j x => exists lj, w_links w !! j = Some lj /\ x = ln_summit lj) js
         (summits_connected_via_saddle w skip exempt k)).
  Proof.
    unfold summits_connected_via_saddle. rewrite Hl.
    destruct (saddle_links_spec w k l Hup Hl) as (su & Hsu & E & Hmem). split.
    - intros Hn. unfold follow in Hn. destruct (skip && ln_disq l) eqn:E1; [done|].
      destruct (exempt k) eqn:E2; [done|]. destruct Hn. split_and!; try done.
      intros ->. by destruct (ln_disq l).
    - intros (_ & Hx & Hs). assert (skip && ln_disq l = false) as ->.
      { destruct skip; [by rewrite Hs|done]. }
      rewrite Hx, E. exists su, (filter (fun j => linker_ok w skip exempt j = true) (sa_links su)).
      assert (Hj : forall j, j ∈ filter (fun j => linker_ok w skip exempt j = true) (sa_links su) <->
        exists lj, follow w skip exempt j lj /\ ln_saddle lj = ln_saddle l).
      { intros j. rewrite elem_of_list_filter, Hmem. split.
        - intros (Hok & lj & Hlj & He). exists lj. split; [|done]. by apply linker_ok_spec.
        - intros (lj & Hf & He). pose proof Hf as (Hlj & _). split; [by apply (linker_ok_spec _ _ _ _ lj)|].
          by exists lj. }
      split_and!; [done|apply filter_sublist_of|done|].
      apply (omap_ends ln_summit). intros j Hin. apply Hj in Hin as (lj & (H & _) & _). by exists lj.
  Qed.

  Lemma linkers_via_spec excludeSelf :
    (exists su, w_summits w !! ln_summit l = Some su /\
      linkers_to_saddles_connected_via_summit w excludeSelf skip k `sublist_of` su_links su /\
      forall j, j ∈ linkers_to_saddles_connected_via_summit w excludeSelf skip k <->
        (exists lj, follow w skip (fun _ => false) j lj /\ ln_summit lj = ln_summit l) /\
        (excludeSelf = true -> j <> k)) /\
    (exists sa, w_saddles w !! ln_saddle l = Some sa /\
      linkers_to_summits_connected_via_saddle w excludeSelf skip k `sublist_of` sa_links sa /\
      forall j, j ∈ linkers_to_summits_connected_via_saddle w excludeSelf skip k <->
        (exists lj, follow w skip (fun _ => false) j lj /\ ln_saddle lj = ln_saddle l) /\
        (excludeSelf = true -> j <> k)).
  Proof.
    assert (Hself : forall j, help_exclude_self k j excludeSelf = true <-> (excludeSelf = true -> j <> k)).
    { intros j. unfold help_exclude_self. destruct excludeSelf; [|split; [intros _ H; discriminate H|done]].
      destruct (Nat.eqb k j) eqn:E; [apply Nat.eqb_eq in E|apply Nat.eqb_neq in E].
      - split; [done|]. intros H. by destruct (H eq_refl).
      - split; [|done]. intros _ _. by intros ->. }
    split.
    - destruct (summit_links_spec w k l Hup Hl) as (su & Hsu & E & Hmem). exists su. split; [done|].
      unfold linkers_to_saddles_connected_via_summit. rewrite E. split; [apply filter_sublist_of|].
      intros j. rewrite elem_of_list_filter, andb_true_iff, Hself, Hmem. split.
      + intros [[Hok He] (lj & Hlj & Hs)]. split; [|done]. exists lj. split; [|done]. by apply linker_ok_spec.
      + intros [(lj & Hf & Hs) He]. pose proof Hf as (Hlj & _). split; [split; [|done]|by exists lj].
        by apply (linker_ok_spec _ _ _ _ lj).
    - destruct (saddle_links_spec w k l Hup Hl) as (su & Hsu & E & Hmem). exists su. split; [done|].
      unfold linkers_to_summits_connected_via_saddle. rewrite E. split; [apply filter_sublist_of|].
      intros j. rewrite elem_of_list_filter, andb_true_iff, Hself, Hmem. split.
      + intros [[Hok He] (lj & Hlj & Hs)]. split; [|done]. exists lj. split; [|done]. by apply linker_ok_spec.
      + intros [(lj & Hf & Hs) He]. pose proof Hf as (Hlj & _). split; [split; [|done]|by exists lj].
        by apply (linker_ok_spec _ _ _ _ lj).
  Qed.
End queries.

Lemma via_summit_mem w skip exempt k l x : linked_up w -> w_links w !! k = Some l ->
  x ∈ saddles_connected_via_summit w skip exempt k <->
  follow w skip exempt k l /\
  exists j lj, follow w skip exempt j lj /\ ln_summit lj = ln_summit l /\ ln_saddle lj = x.
Proof.
  intros Hup Hl. destruct (via_summit_spec w skip exempt k l Hup Hl) as [H1 H2].
  assert (follow w skip exempt k l \/ ~ follow w skip exempt k l) as Hdec.
  { rewrite <-(linker_ok_spec w skip exempt k l Hl). destruct (linker_ok w skip exempt k); [by left|by right]. }
  destruct Hdec as [Hf|Hf].
  - destruct (H2 Hf) as (su & js & Hsu & _ & Hj & HF). split.
    + intros Hx. split; [done|]. apply elem_of_list_lookup in Hx as [n Hn].
      destruct (Forall2_lookup_r _ _ _ _ _ HF Hn) as (j & Hjn & lj & Hlj & ->).
      apply elem_of_list_lookup_2 in Hjn. apply Hj in Hjn as (lj' & Hf' & E).
      exists j, lj'. split_and!; try done. destruct Hf' as (H & _). congruence.
    + intros [_ (j & lj & Hfj & E & <-)]. assert (j ∈ js) as Hin by (apply Hj; by exists lj).
      apply elem_of_list_lookup in Hin as [n Hn].
      destruct (Forall2_lookup_l _ _ _ _ _ HF Hn) as (y & Hy & lj' & Hlj' & ->).
      destruct Hfj as (H & _). assert (lj' = lj) as -> by congruence. by eapply elem_of_list_lookup_2.
  - rewrite (H1 Hf). rewrite elem_of_nil. tauto.
Qed.
Lemma via_saddle_mem w skip exempt k l x : linked_up w -> w_links w !! k = Some l ->
  x ∈ summits_connected_via_saddle w skip exempt k <->
  follow w skip exempt k l /\
  exists j lj, follow w skip exempt j lj /\ ln_saddle lj = ln_saddle l /\ ln_summit lj = x.
Proof.
  intros Hup Hl. destruct (via_saddle_spec w skip exempt k l Hup Hl) as [H1 H2].
  assert (follow w skip exempt k l \/ ~ follow w skip exempt k l) as Hdec.
  { rewrite <-(linker_ok_spec w skip exempt k l Hl). destruct (linker_ok w skip exempt k); [by left|by right]. }
  destruct Hdec as [Hf|Hf].
  - destruct (H2 Hf) as (su & js & Hsu & _ & Hj & HF). split.
    + intros Hx. split; [done|]. apply elem_of_list_lookup in Hx as [n Hn].
      destruct (Forall2_lookup_r _ _ _ _ _ HF Hn) as (j & Hjn & lj & Hlj & ->).
      apply elem_of_list_lookup_2 in Hjn. apply Hj in Hjn as (lj' & Hf' & E).
      exists j, lj'. split_and!; try done. destruct Hf' as (H & _). congruence.
    + intros [_ (j & lj & Hfj & E & <-)]. assert (j ∈ js) as Hin by (apply Hj; by exists lj).
      apply elem_of_list_lookup in Hin as [n Hn].
      destruct (Forall2_lookup_l _ _ _ _ _ HF Hn) as (y & Hy & lj' & Hlj' & ->).
      destruct Hfj as (H & _). assert (lj' = lj) as -> by congruence. by eapply elem_of_list_lookup_2.
  - rewrite (H1 Hf). rewrite elem_of_nil. tauto.
Qed.

(** Two saddles are neighbours when followable links lead to one summit. *)
Lemma saddle_neighbors_spec w fd i s x : linked_up w -> w_saddles w !! i = Some s ->
  x ∈ saddle_all_neighbors w fd i <->
  exists k l j lj, follow w fd (fun _ => false) k l /\ ln_saddle l = i /\
    follow w fd (fun _ => false) j lj /\ ln_summit lj = ln_summit l /\ ln_saddle lj = x.
Proof.
  intros Hup Hs. pose proof Hup as (U1 & U2 & U3). unfold saddle_all_neighbors. rewrite Hs.
  assert (Hgen : forall ks, (forall k, k ∈ ks <-> exists l, w_links w !! k = Some l /\ ln_saddle l = i /\
      (fd = true -> ln_disq l = false)) ->
    x ∈ concat (map (saddles_connected_via_summit w fd (fun _ => false)) ks) <->
    exists k l j lj, follow w fd (fun _ => false) k l /\ ln_saddle l = i /\
      follow w fd (fun _ => false) j lj /\ ln_summit lj = ln_summit l /\ ln_saddle lj = x).
  { intros ks Hks. rewrite elem_of_concat. split.
    - intros (l0 & Hx & Hin). apply elem_of_list_fmap in Hin as (k & -> & Hk).
      apply Hks in Hk as (l & Hl & E & Hd). 
      destruct (proj1 (via_summit_mem w fd _ k l x Hup Hl) Hx) as (Hf & j & lj & H1 & H2 & H3).
      by exists k, l, j, lj.
    - intros (k & l & j & lj & Hf & E & Hfj & E2 & E3). pose proof Hf as (Hl & _ & Hd).
      exists (saddles_connected_via_summit w fd (fun _ => false) k). split.
      + apply (via_summit_mem w fd _ k l x Hup Hl). split; [done|]. by exists j, lj.
      + apply elem_of_list_fmap. exists k. split; [done|]. apply Hks. by exists l. }
  destruct fd; apply Hgen; intros k.
  - rewrite elem_of_list_filter, (U1 _ _ k Hs). split.
    + intros (Hd & l & Hl & E). exists l. rewrite Hl in Hd. cbn in Hd. injection Hd as Hd. done.
    + intros (l & Hl & E & Hd). split; [rewrite Hl; cbn; by rewrite Hd|by exists l].
  - rewrite (U1 _ _ k Hs). split; [intros (l & Hl & E); by exists l|intros (l & Hl & E & _); by exists l].
Qed.
Lemma summit_neighbors_spec w fd i s x : linked_up w -> w_summits w !! i = Some s ->
  x ∈ summit_all_neighbors w fd i <->
  exists k l j lj, follow w fd (fun _ => false) k l /\ ln_summit l = i /\
    follow w fd (fun _ => false) j lj /\ ln_saddle lj = ln_saddle l /\ ln_summit lj = x.
Proof.
  intros Hup Hs. pose proof Hup as (U1 & U2 & U3). unfold summit_all_neighbors. rewrite Hs.
  assert (Hgen : forall ks, (forall k, k ∈ ks <-> exists l, w_links w !! k = Some l /\ ln_summit l = i /\
      (fd = true -> ln_disq l = false)) ->
    x ∈ concat (map (summits_connected_via_saddle w fd (fun _ => false)) ks) <->
    exists k l j lj, follow w fd (fun _ => false) k l /\ ln_summit l = i /\
      follow w fd (fun _ => false) j lj /\ ln_saddle lj = ln_saddle l /\ ln_summit lj = x).
  { intros ks Hks. rewrite elem_of_concat. split.
    - intros (l0 & Hx & Hin). apply elem_of_list_fmap in Hin as (k & -> & Hk).
      apply Hks in Hk as (l & Hl & E & Hd). 
      destruct (proj1 (via_saddle_mem w fd _ k l x Hup Hl) Hx) as (Hf & j & lj & H1 & H2 & H3).
      by exists k, l, j, lj.
    - intros (k & l & j & lj & Hf & E & Hfj & E2 & E3). pose proof Hf as (Hl & _ & Hd).
      exists (summits_connected_via_saddle w fd (fun _ => false) k). split.
      + apply (via_saddle_mem w fd _ k l x Hup Hl). split; [done|]. by exists j, lj.
      + apply elem_of_list_fmap. exists k. split; [done|]. apply Hks. by exists l. }
  destruct fd; apply Hgen; intros k.
  - rewrite elem_of_list_filter, (U2 _ _ k Hs). split.
    + intros (Hd & l & Hl & E). exists l. rewrite Hl in Hd. cbn in Hd. injection Hd as Hd. done.
    + intros (l & Hl & E & Hd). split; [rewrite Hl; cbn; by rewrite Hd|by exists l].
  - rewrite (U2 _ _ k Hs). split; [intros (l & Hl & E); by exists l|intros (l & Hl & E & _); by exists l].
Qed.

Lemma prom_spec w k l su sa : w_links w !! k = Some l -> w_summits w !! ln_summit l = Some su ->
  w_saddles w !! ln_saddle l = Some sa ->
  exists p, prom w k = Some p /\ ft_ele (sa_feat sa) + p = ft_ele (su_feat su).
Proof. intros Hl Hsu Hsa. unfold prom. rewrite Hl, Hsu, Hsa. eexists. split; [done|]. lia. Qed.
