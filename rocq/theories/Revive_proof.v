(** Proofs about the graph of a loaded map. *)
From Verif Require Import Base_model Graph_model Graph_spec Basin_model Divide_model Persist_model Persist_spec Persist_proof
  Persist_load_proof Store_model Store_spec Basin_spec Store_proof Like_proof Divide_spec Region_spec Divide_proof Region_proof Region_list_proof Revive_model Revive_spec.
From Coq Require Import ZifyBool.
Local Open Scope nat_scope.

(** ** Finding objects by id *)
Lemma last_place_none k l : last_place k l = None -> k ∉ l.
Proof.
  induction l as [|x l IH]; cbn; [by intros _ ?%elem_of_nil|]. destruct (last_place k l); [done|]. destruct (decide (x = k)); [done|].
  intros _ [->|H]%elem_of_cons; [done|by apply IH].
Qed.
Lemma last_place_some k l n : last_place k l = Some n <-> l !! n = Some k /\ forall j, n < j -> l !! j <> Some k.
Proof.
  revert n. induction l as [|x l IH]; intros n; cbn.
  - split; [done|]. by intros [? _].
  - destruct (last_place k l) as [i|] eqn:E.
    + destruct (proj1 (IH i) eq_refl) as [H1 H2]. split.
      * intros [= <-]. split; [done|]. intros [|j] Hj; [lia|]. cbn. apply H2. lia.
      * intros [H3 H4]. destruct n as [|n]; [by destruct (H4 (S i) ltac:(lia))|].
        cbn in H3. f_equal. f_equal. destruct (lt_eq_lt_dec i n) as [[H| ->]|H]; [by destruct (H2 n)|done|by destruct (H4 (S i) ltac:(lia))].
    + assert (forall j, l !! j <> Some k) as Hn.
      { intros j Hj. apply (last_place_none k l E). by eapply elem_of_list_lookup_2. }
      destruct (decide (x = k)) as [->|Hx]; split.
      * intros [= <-]. split; [done|]. intros [|j] Hj; [lia|]. cbn. apply Hn.
      * intros [H3 _]. destruct n as [|n]; [done|]. cbn in H3. by destruct (Hn n).
      * done.
      * intros [H3 _]. destruct n as [|n]; cbn in H3; [congruence|]. by destruct (Hn n).
Qed.
Lemma place_last l k n : l !! n = Some k -> (forall j, n < j -> l !! j <> Some k) -> place l k = n.
Proof. intros H1 H2. unfold place. by rewrite (proj2 (last_place_some k l n)). Qed.
Lemma place_once l k n : NoDup l -> l !! n = Some k -> place l k = n.
Proof.
  intros Hnd H. apply place_last; [done|]. intros j Hj Hk. assert (j = n) by (by eapply NoDup_lookup). lia.
Qed.

(** ** Lists without repetitions *)
Lemma snoc_split {A} (l : list A) a l1 x l2 : l ++ [a] = l1 ++ x :: l2 ->
  (l2 = [] /\ x = a /\ l1 = l) \/ exists l3, l2 = l3 ++ [a] /\ l = l1 ++ x :: l3.
Proof.
  intros E. destruct l2 as [|b l2 _] using rev_ind.
  - left. apply app_inj_tail in E as [-> ->]. done.
  - right. exists l2. rewrite app_comm_cons, app_assoc in E. apply app_inj_tail in E as [-> ->]. done.
Qed.

Section firsts.
  Context {A K : Type} (like : A -> A -> Prop) (key : A -> K) (good : A -> Prop).
  Lemma firsts_iff l l' : firsts like l l' -> NoDup l ->
    (forall l1 x l2 y, l = l1 ++ x :: l2 -> good x -> y ∈ l1 -> good y) ->
    (forall x y, x ∈ l -> y ∈ l -> good x -> good y -> like x y <-> key x = key y) ->
    (forall l1 x l2, l = l1 ++ x :: l2 -> good x -> x ∈ l' <-> forall y, y ∈ l1 -> key y <> key x) /\
    (forall y, y ∈ l -> good y -> exists b, b ∈ l' /\ good b /\ key b = key y).
  Proof.
    induction 1 as [|l l' a Hf IH Hn|l l' a b Hf IH Hb Hl]; intros Hnd Hg Hk.
    - split; [by intros [] |by intros y ?%elem_of_nil].
    - apply NoDup_app in Hnd as (Hnd & Hna & _). specialize (Hna) as Hna'.
      destruct IH as [IA IB]; [done|..].
      { intros l1 x l2 y ->. apply (Hg l1 x (l2 ++ [a])). by rewrite <-app_assoc. }
      { intros x y Hx Hy. apply Hk; apply elem_of_app; by left. }
      destruct (firsts_sub _ _ _ Hf) as [F1 _]. split.
      + intros l1 x l2 E Hgx. destruct (snoc_split _ _ _ _ _ E) as [(-> & -> & ->)|(l3 & -> & ->)].
        * split; [|intros _; apply elem_of_app; right; by left]. intros _ y Hy Ey.
          assert (good y) as Hgy by (by apply (Hg l a [] y)). destruct (IB y Hy Hgy) as (c & Hc & Hgc & Ec).
          apply (Hn c Hc). apply Hk; [apply elem_of_app; right; by left|apply elem_of_app; left; by apply F1|done|done|congruence].
        * rewrite <-(IA l1 x l3 eq_refl Hgx), elem_of_app, elem_of_list_singleton. split; [|by left]. intros [?| ->]; [done|].
          exfalso. apply (Hna a); [apply elem_of_app; right; by left|by left].
      + intros y [Hy|Hy%elem_of_list_singleton]%elem_of_app Hgy.
        * destruct (IB y Hy Hgy) as (c & Hc & ?). exists c. split; [apply elem_of_app; by left|done].
        * subst y. exists a. split; [apply elem_of_app; right; by left|done].
    - apply NoDup_app in Hnd as (Hnd & Hna & _).
      destruct IH as [IA IB]; [done|..].
      { intros l1 x l2 y ->. apply (Hg l1 x (l2 ++ [a])). by rewrite <-app_assoc. }
      { intros x y Hx Hy. apply Hk; apply elem_of_app; by left. }
      destruct (firsts_sub _ _ _ Hf) as [F1 _].
      assert (good a -> good b /\ key a = key b) as Hab.
      { intros Hga. assert (good b) as Hgb by (apply (Hg l a [] b); [done|done|by apply F1]). split; [done|].
        apply Hk; [apply elem_of_app; right; by left|apply elem_of_app; left; by apply F1|done|done|done]. }
      split.
      + intros l1 x l2 E Hgx. destruct (snoc_split _ _ _ _ _ E) as [(-> & -> & ->)|(l3 & -> & ->)].
        * split.
          -- intros Ha. exfalso. apply (Hna a); [by apply F1|by left].
          -- intros Hno. destruct (Hab Hgx) as [_ Ek]. by destruct (Hno b (F1 _ Hb)).
        * by apply (IA l1 x l3).
      + intros y [Hy|Hy%elem_of_list_singleton]%elem_of_app Hgy; [by apply IB|].
        subst y. exists b. destruct (Hab Hgy). done.
  Qed.
  Lemma firsts_nodup l l' : firsts like l l' -> NoDup l -> NoDup l'.
  Proof.
    induction 1 as [|l l' a Hf IH _|l l' a b _ IH _ _]; intros Hnd; [done|..].
    - apply NoDup_app in Hnd as (Hnd & Hna & _). apply NoDup_app. split; [by apply IH|]. split; [|apply NoDup_singleton].
      intros x Hx ->%elem_of_list_singleton. apply (Hna a); [by apply (firsts_sub _ _ _ Hf)|by left].
    - apply NoDup_app in Hnd as (Hnd & _). by apply IH.
  Qed.
End firsts.

Lemma filter_before {A} (P : A -> Prop) `{!forall x, Decision (P x)} (T l1 : list A) x l2 y : filter P T = l1 ++ x :: l2 -> y ∈ l1 ->
  exists j k, j < k /\ T !! j = Some y /\ T !! k = Some x.
Proof.
  revert l1. induction T as [|t T IH]; intros l1 E Hy; [by destruct l1|].
  rewrite filter_cons in E. destruct (decide (P t)).
  - destruct l1 as [|z l1]; [by apply elem_of_nil in Hy|]. cbn in E. injection E as -> E. apply elem_of_cons in Hy as [->|Hy].
    + assert (x ∈ T) as [k Hk]%elem_of_list_lookup.
      { assert (x ∈ filter P T) as Hin by (rewrite E; apply elem_of_app; right; by left). by apply elem_of_list_filter in Hin as [_ ?]. }
      exists 0, (S k). split; [lia|done].
    + destruct (IH l1 E Hy) as (j & k & ? & ? & ?). exists (S j), (S k). split; [lia|done].
  - destruct (IH l1 E Hy) as (j & k & ? & ? & ?). exists (S j), (S k). split; [lia|done].
Qed.
Lemma filter_at {A} (P : A -> Prop) `{!forall x, Decision (P x)} (T : list A) k x : T !! k = Some x -> P x ->
  filter P T = filter P (take k T) ++ x :: filter P (drop (S k) T).
Proof.
  intros HT Hx. rewrite <-(take_drop_middle T k x HT) at 1. by rewrite filter_app, filter_cons_True.
Qed.
Lemma take_in {A} (T : list A) k y : y ∈ take k T <-> exists j, j < k /\ T !! j = Some y.
Proof.
  rewrite elem_of_list_lookup. split.
  - intros [j Hj]. apply lookup_take_Some in Hj as [? ?]. eauto.
  - intros (j & Hj & H). exists j. by apply lookup_take_Some.
Qed.

(** ** The objects of the loaded map *)
Section revive.
  Context (m : datamap) (su_name sa_name ln_name : nat -> string) (rim_of : feature -> perimeter * bool * list pte).
  Context (Hsu : naming su_name) (Hsa : naming sa_name) (Hln : naming ln_name).
  Context (d : dmap) (doms : list nat) (pts : nat -> list pte) (Hw : whole d).
  Let p := store m su_name sa_name ln_name rim_of d doms pts.
  Context (Hm : meshed m d) (p' : pmap) (Hr : reloaded p p') (cell_of : spot -> xy).
  Local Notation w := (mp_world d).
  Local Notation w2 := (mp_world (revive cell_of p')).
  Context (G : tree_graph w).
  Context (Hopen : forall i x, not_disq w i -> x ∈ summits_of w i -> open_ w (Sad i)).
  Context (Hfirst : forall k l, w_links w !! k = Some l -> exists o, w_saddles w !! ln_saddle l = Some o /\
    (k ∈ sa_links o \/ exists k' l', k' < k /\ k' ∈ sa_links o /\ w_links w !! k' = Some l' /\ ln_summit l' = ln_summit l)).
  Context (Hchr : forall k l k' l', w_links w !! k = Some l -> w_links w !! k' = Some l' ->
    ln_saddle l ∈ mp_saddles d -> ln_saddle l' ∈ mp_runoffs d -> k < k').
  Context (Hap : ends_apart m w (mp_saddles d)).
  Context (Hlk : mp_linkers d = seq 0 (length (w_links w))) (Hsm : mp_summits d = seq 0 (length (w_summits w))).

  Definition sum_like (a : nat) (e : string * psummit) : Prop := e.1 = su_name a /\ exists u, w_summits w !! a = Some u /\
    pu_at e.2 = ft_spot m (su_feat u) /\ pu_edge e.2 = ft_edge (su_feat u) /\
    exists l, firsts (fun a b => twin p a.2 b.2) (at_end pl_summit p (su_name a)) l /\ pu_links e.2 = map fst l.
  Lemma sum_rel : Forall2 sum_like (mp_summits d) (pm_summits p').
  Proof.
    eapply Forall2_transitive; [|eapply (named_forall su_name _ _ (mp_summits d)); apply Hw|exact (rl_summits _ _ Hr)].
    intros a e e' (Hi & E & u & Hu & Eu) (E' & (K1 & K2 & K3 & K4) & (l & Hl & El) & _). rewrite Eu in K1, K2. cbn in K1, K2.
    split; [congruence|]. exists u. split; [done|]. split; [done|]. split; [done|]. exists l. by rewrite <-E.
  Qed.
  Definition sad_like (i : nat) (e : string * psaddle) : Prop := e.1 = sa_name i /\ exists o, w_saddles w !! i = Some o /\
    pa_at e.2 = ft_spot m (sa_feat o) /\ pa_edge e.2 = ft_edge (sa_feat o) /\
    pa_single e.2 = sa_single o /\ pa_basin e.2 = sa_basin o /\ pa_over e.2 = sa_over o /\
    exists l, firsts (fun a b => twin p a.2 b.2) (at_end pl_saddle p (sa_name i)) l /\ pa_links e.2 = map fst l.
  Lemma sad_rel : Forall2 sad_like (mp_saddles d) (pm_saddles p').
  Proof.
    eapply Forall2_transitive; [|eapply (named_forall sa_name _ _ (mp_saddles d)); intros i Hi; apply (proj2 (wh_saddles d Hw)), elem_of_app; by left|exact (rl_saddles _ _ Hr)].
    intros i e e' (Hi & E & o & Ho & Eo) (E' & (K1 & K2 & K3 & K4 & K5 & K6 & K7 & K8) & (l & Hl & El) & _).
    rewrite Eo in K1, K2, K6, K7, K8. cbn in K1, K2, K6, K7, K8. rewrite E in *.
    split; [done|]. exists o. do 5 (split; [done|]). split; [|by exists l].
    pose proof (me_over m d Hm i o Ho) as Hov; rewrite K8; by destruct (sa_over o) as [[]|].
  Qed.
  Definition run_like (i : nat) (e : string * psaddle) : Prop := e.1 = sa_name i /\ exists o, w_saddles w !! i = Some o /\
    pa_edge e.2 = true /\ pa_single e.2 = sa_single o /\ pa_basin e.2 = sa_basin o /\ pa_over e.2 = sa_over o.
  Lemma run_rel : Forall2 run_like (mp_runoffs d) (pm_runoffs p').
  Proof.
    eapply Forall2_transitive; [|eapply (named_forall sa_name _ _ (mp_runoffs d)); intros i Hi; apply (proj2 (wh_saddles d Hw)), elem_of_app; by right|exact (rl_runoffs _ _ Hr)].
    intros i e e' (Hi & E & o & Ho & Eo) (E' & (K1 & K2 & K3 & K4 & K5 & K6 & K7 & K8) & _).
    rewrite Eo in K1, K2, K6, K7, K8. cbn in K1, K2, K6, K7, K8. rewrite E in *.
    split; [done|]. exists o. do 4 (split; [done|]).
    pose proof (me_over m d Hm i o Ho) as Hov; rewrite K8; by destruct (sa_over o) as [[]|].
  Qed.

  (** *** Numbers *)
  Lemma table k e : pm_linkers p' !! k = Some e <-> exists l, w_links w !! k = Some l /\ e = (ln_name k, stored_link su_name sa_name l).
  Proof.
    rewrite (rl_linkers _ _ Hr). unfold p. cbn.
    pose proof (named_forall ln_name (fun k => w_links w !! k) (fun _ => stored_link su_name sa_name) (mp_linkers d)) as H.
    assert (forall i, i ∈ mp_linkers d -> is_Some (w_links w !! i)) as Hs.
    { intros i Hi. destruct (proj2 (wh_links d Hw) i Hi) as (l & Hl & _). by eexists. }
    specialize (H Hs). split.
    - intros He. destruct (Forall2_lookup_r _ _ _ _ _ H He) as (i & Hi & _ & E1 & l & Hl & E2).
      rewrite Hlk in Hi. apply lookup_seq in Hi as [-> _]. exists l. split; [done|]. destruct e. cbn in *. congruence.
    - intros (l & Hl & ->). assert (mp_linkers d !! k = Some k) as Hi.
      { rewrite Hlk. apply lookup_seq. split; [done|]. by eapply lookup_lt_Some. }
      destruct (Forall2_lookup_l _ _ _ _ _ H Hi) as ([e1 e2] & He & _ & E1 & l' & Hl' & E2). cbn in *.
      assert (l' = l) as -> by congruence. congruence.
  Qed.
  Lemma link_number k l : w_links w !! k = Some l -> place (map fst (pm_linkers p')) (ln_name k) = k.
  Proof.
    intros Hl. apply place_once.
    - rewrite (rl_linkers _ _ Hr). apply named_nodup; [apply Hln|apply Hw].
    - rewrite list_lookup_fmap. rewrite (proj2 (table k _)) by eauto. done.
  Qed.
  Lemma summit_number a : a ∈ mp_summits d -> place (map fst (pm_summits p')) (su_name a) = a.
  Proof.
    intros Ha. assert (mp_summits d !! a = Some a) as Hi.
    { rewrite Hsm in Ha |- *. apply elem_of_seq in Ha. apply lookup_seq. lia. }
    destruct (Forall2_lookup_l _ _ _ _ _ sum_rel Hi) as (e & He & E & _).
    apply place_last; [rewrite list_lookup_fmap, He; cbn; by rewrite E|].
    intros j Hj Hk. rewrite list_lookup_fmap in Hk. destruct (pm_summits p' !! j) as [e'|] eqn:Ej; [|done]. cbn in Hk. injection Hk as Hk.
    destruct (Forall2_lookup_r _ _ _ _ _ sum_rel Ej) as (b & Hb & E' & _). rewrite Hsm in Hb. apply lookup_seq in Hb as [-> _].
    rewrite Hk in E'. apply (proj1 Hsu) in E'. lia.
  Qed.
  Local Notation pos s := (place (map fst (pm_saddles p' ++ pm_runoffs p')) (sa_name s)).
  Lemma both_rel : Forall2 (fun i e => e.1 = sa_name i) (mp_saddles d ++ mp_runoffs d) (pm_saddles p' ++ pm_runoffs p').
  Proof.
    apply Forall2_app.
    - eapply Forall2_impl; [apply sad_rel|]. by intros ? ? [? _].
    - eapply Forall2_impl; [apply run_rel|]. by intros ? ? [? _].
  Qed.
  Lemma both_name n : map fst (pm_saddles p' ++ pm_runoffs p') !! n = sa_name <$> (mp_saddles d ++ mp_runoffs d) !! n.
  Proof.
    rewrite list_lookup_fmap. pose proof both_rel as H.
    destruct ((pm_saddles p' ++ pm_runoffs p') !! n) as [e|] eqn:E.
    - destruct (Forall2_lookup_r _ _ _ _ _ H E) as (i & -> & Ei). cbn. by rewrite Ei.
    - destruct ((mp_saddles d ++ mp_runoffs d) !! n) as [i|] eqn:E'; [|done].
      destruct (Forall2_lookup_l _ _ _ _ _ H E') as (e & He & _). congruence.
  Qed.
  Lemma pos_at s : s ∈ mp_saddles d ++ mp_runoffs d ->
    (mp_saddles d ++ mp_runoffs d) !! pos s = Some s /\ forall j, pos s < j -> (mp_saddles d ++ mp_runoffs d) !! j <> Some s.
  Proof.
    intros [n Hn]%elem_of_list_lookup. unfold place. destruct (last_place _ _) as [i|] eqn:E.
    - apply last_place_some in E as [E1 E2]. cbn. rewrite both_name in E1. split.
      + destruct (_ !! i) as [x|]; [|done]. cbn in E1. injection E1 as E1. apply (proj1 Hsa) in E1. by subst.
      + intros j Hj Hs. apply (E2 j Hj). rewrite both_name, Hs. done.
    - exfalso. apply (last_place_none _ _ E). apply elem_of_list_lookup. exists n. rewrite both_name, Hn. done.
  Qed.
  Lemma pos_saddle s s' : s ∈ mp_saddles d -> pos s = s' <-> mp_saddles d !! s' = Some s.
  Proof.
    intros Hs. assert (s ∈ mp_saddles d ++ mp_runoffs d) as Hs' by (apply elem_of_app; by left).
    destruct (pos_at s Hs') as [H1 _].
    assert (mp_saddles d !! pos s = Some s) as H2.
    { apply lookup_app_Some in H1 as [H1|[_ H1]]; [done|]. exfalso. apply (wh_apart d Hw s Hs). by eapply elem_of_list_lookup_2. }
    split; [by intros <-|]. intros H3. eapply NoDup_lookup; [apply (wh_saddles d Hw)|done|done].
  Qed.
  Lemma pos_runoff s s' : s ∈ mp_runoffs d -> pos s = s' -> mp_saddles d !! s' = None.
  Proof.
    intros Hs <-. assert (s ∈ mp_saddles d ++ mp_runoffs d) as Hs' by (apply elem_of_app; by right).
    destruct (pos_at s Hs') as [H1 _]. apply lookup_app_Some in H1 as [H1|[H1 _]]; [|by apply lookup_ge_None].
    exfalso. apply (wh_apart d Hw s); [by eapply elem_of_list_lookup_2|done].
  Qed.

  Lemma link_ends k l : w_links w !! k = Some l -> ln_summit l ∈ mp_summits d /\ ln_saddle l ∈ mp_saddles d ++ mp_runoffs d /\ k ∈ mp_linkers d.
  Proof.
    intros Hl. assert (k ∈ mp_linkers d) as Hk. { rewrite Hlk. apply elem_of_seq. apply lookup_lt_Some in Hl. lia. }
    destruct (proj2 (wh_links d Hw) k Hk) as (l' & Hl' & H1 & H2). assert (l' = l) as -> by congruence. done.
  Qed.
  Lemma link2 k l2 : w_links w2 !! k = Some l2 <-> exists l, w_links w !! k = Some l /\
    l2 = Link (ln_summit l) (pos (ln_saddle l)) (ln_disq l).
  Proof.
    cbn. rewrite list_lookup_fmap. split.
    - destruct (pm_linkers p' !! k) as [e|] eqn:E; [|done]. cbn. intros [= <-]. apply table in E as (l & Hl & ->). exists l. split; [done|].
      unfold revive_link, stored_link. cbn. rewrite summit_number; [done|by eapply link_ends].
    - intros (l & Hl & ->). rewrite (proj2 (table k _)) by eauto. cbn. unfold revive_link, stored_link. cbn.
      rewrite summit_number; [done|by eapply link_ends].
  Qed.
  Lemma joins2 k a s' : joins w2 k a s' <-> exists s, joins w k a s /\ pos s = s'.
  Proof.
    split.
    - intros (l2 & H & <- & <- & Hd). apply link2 in H as (l & Hl & ->). cbn in *. exists (ln_saddle l). split; [|done]. by exists l.
    - intros (s & (l & Hl & <- & <- & Hd) & <-). exists (Link (ln_summit l) (pos (ln_saddle l)) (ln_disq l)). split; [|done]. apply link2. eauto.
  Qed.

  (** *** Lists of links *)
  Lemma leads_there k l : w_links w !! k = Some l -> ln_summit l ∈ summits_of w (ln_saddle l).
  Proof.
    intros Hl. destruct (me_back m d Hm k l) as (o & k' & l' & Ho & Hk' & Hl' & E); [by eapply link_ends|done|].
    unfold summits_of. rewrite Ho. apply elem_of_list_omap. exists k'. split; [done|]. rewrite Hl'. cbn. by rewrite E.
  Qed.
  Lemma twin_ends k l k' l' : w_links w !! k = Some l -> w_links w !! k' = Some l' ->
    ln_saddle l ∈ mp_saddles d -> ln_saddle l' ∈ mp_saddles d ->
    twin p (stored_link su_name sa_name l) (stored_link su_name sa_name l') <-> ln_summit l = ln_summit l' /\ ln_saddle l = ln_saddle l'.
  Proof.
    intros Hl Hl' Hs Hs'. split.
    - intros Ht. pose proof (same_twin m su_name sa_name ln_name rim_of Hsu d doms pts Hm k l k' l' Hl Hl' Ht) as E. split; [done|].
      destruct Ht as [_ (s1 & s2 & H1 & H2 & Hss)].
      apply (Hap _ _ (ln_summit l)); [done|done|by eapply leads_there|rewrite E; by eapply leads_there|].
      unfold saddle_same, saddle_spot. destruct H1 as (u1 & H1 & <-), H2 as (u2 & H2 & <-). unfold p in H1, H2. cbn in H1, H2.
      assert (forall u i, (sa_name i, u) ∈ named sa_name (fun i => w_saddles w !! i) (fun _ => stored_saddle m sa_name ln_name rim_of) (mp_saddles d) ++
         named sa_name (fun i => w_saddles w !! i) (fun _ => stored_saddle m sa_name ln_name rim_of) (mp_runoffs d) ->
         exists o, w_saddles w !! i = Some o /\ pa_at u = ft_spot m (sa_feat o)) as Hat.
      { intros u i [Hu|Hu]%elem_of_app; apply named_in in Hu as (j & o & _ & Ho & E1 & ->); apply (proj1 Hsa) in E1; subst j; eauto. }
      destruct (Hat _ _ H1) as (o1 & Ho1 & E1), (Hat _ _ H2) as (o2 & Ho2 & E2). rewrite Ho1, Ho2. cbn. rewrite E1, E2 in Hss.
      apply spot_eq_same in Hss. rewrite Hss. apply orb_true_r.
    - intros [E1 E2]. unfold twin. cbn. rewrite <-E1, <-E2.
      destruct (link_ends k l Hl) as (H1 & H2 & _).
      destruct (proj2 (wh_summits d Hw) _ H1) as [u Hu]. destruct (proj2 (wh_saddles d Hw) _ H2) as [o Ho].
      assert (forall a : spot, same_spot a a) as Hrefl.
      { intros a. apply spot_eq_same. unfold spot_eq. rewrite !bool_decide_true by done. by rewrite Z.eqb_refl. }
      split; eexists _, _; (split; [|split; [|apply Hrefl]]).
      + eexists. split; [|reflexivity]. unfold p. cbn. apply named_in. eauto 10.
      + eexists. split; [|reflexivity]. unfold p. cbn. apply named_in. eauto 10.
      + eexists. split; [|reflexivity]. unfold p. cbn. apply elem_of_app. left. apply named_in. eauto 10.
      + eexists. split; [|reflexivity]. unfold p. cbn. apply elem_of_app. left. apply named_in. eauto 10.
  Qed.

  (** Link [k] is the first with its ends. *)
  Definition leader (k : nat) (l : link) : Prop := w_links w !! k = Some l /\ forall k' l', k' < k -> w_links w !! k' = Some l' ->
    ln_summit l' = ln_summit l -> ln_saddle l' <> ln_saddle l.

  Section ends.
    Context (f : plink -> string).
    Context (Hf : forall l l', ln_summit l = ln_summit l' -> ln_saddle l = ln_saddle l' ->
      f (stored_link su_name sa_name l) = f (stored_link su_name sa_name l')).
    Lemma table_nodup : NoDup (pm_linkers p').
    Proof.
      apply (NoDup_fmap_1 fst). rewrite (rl_linkers _ _ Hr). apply named_nodup; [apply Hln|apply Hw].
    Qed.
    Lemma end_nodup id : NoDup (at_end f p id).
    Proof. unfold at_end. rewrite <-(rl_linkers _ _ Hr). apply NoDup_filter, table_nodup. Qed.
    Lemma end_in id e : e ∈ at_end f p id <-> exists k l, w_links w !! k = Some l /\ e = (ln_name k, stored_link su_name sa_name l) /\
      f (stored_link su_name sa_name l) = id.
    Proof.
      unfold at_end. rewrite elem_of_list_filter, <-(rl_linkers _ _ Hr). rewrite elem_of_list_lookup. split.
      - intros [E [k Hk]]. apply table in Hk as (l & Hl & ->). eauto.
      - intros (k & l & Hl & -> & E). split; [done|]. exists k. apply table. eauto.
    Qed.
    Lemma end_leader id L k l : firsts (fun a b => twin p a.2 b.2) (at_end f p id) L -> w_links w !! k = Some l ->
      f (stored_link su_name sa_name l) = id -> ln_saddle l ∈ mp_saddles d ->
      (ln_name k, stored_link su_name sa_name l) ∈ L <-> leader k l.
    Proof.
      intros HL Hl Ef Hs.
      destruct (firsts_iff _ (fun e => (pl_summit e.2, pl_saddle e.2)) (fun e => exists i, i ∈ mp_saddles d /\ pl_saddle e.2 = sa_name i)
        _ _ HL (end_nodup id)) as [H _].
      - intros l1 x l2 y E (i & Hi & Ei) Hy. unfold at_end in E. rewrite <-(rl_linkers _ _ Hr) in E.
        destruct (filter_before _ _ _ _ _ _ E Hy) as (j & k0 & Hjk & Hj & Hk0).
        apply table in Hj as (lj & Hlj & ->). apply table in Hk0 as (lk & Hlk0 & ->). cbn in *. apply (proj1 Hsa) in Ei. subst i.
        exists (ln_saddle lj). split; [|done]. destruct (link_ends j lj Hlj) as (_ & H2 & _). apply elem_of_app in H2 as [?|H2]; [done|].
        pose proof (Hchr k0 lk j lj Hlk0 Hlj Hi H2). lia.
      - intros x y Hx Hy (i & Hi & Ei) (j & Hj & Ej). apply end_in in Hx as (kx & lx & Hlx & -> & _). apply end_in in Hy as (ky & ly & Hly & -> & _).
        cbn in *. apply (proj1 Hsa) in Ei, Ej. subst i j. rewrite (twin_ends kx lx ky ly) by done. split.
        + by intros [-> ->].
        + intros [= E1 E2]. apply (proj1 Hsu) in E1. apply (proj1 Hsa) in E2. done.
      - pose proof (proj2 (table k _) (ex_intro _ l (conj Hl eq_refl))) as Ht.
        assert (at_end f p id = filter (fun k => f k.2 = id) (take k (pm_linkers p')) ++ (ln_name k, stored_link su_name sa_name l) ::
          filter (fun k => f k.2 = id) (drop (S k) (pm_linkers p'))) as E.
        { unfold at_end. rewrite <-(rl_linkers _ _ Hr). by apply filter_at. }
        rewrite (H _ _ _ E) by (cbn; eauto). unfold leader. split.
        + intros Hno. split; [done|]. intros k' l' Hlt Hl' E1 E2.
          apply (Hno (ln_name k', stored_link su_name sa_name l')).
          * apply elem_of_list_filter. split; [cbn; rewrite <-Ef; by apply Hf|]. apply take_in. exists k'. split; [done|]. apply table. eauto.
          * cbn. by rewrite E1, E2.
        + intros [_ Hno] y Hy Ey. apply elem_of_list_filter in Hy as [_ Hy]. apply take_in in Hy as (j & Hj & Hy).
          apply table in Hy as (lj & Hlj & ->). cbn in Ey. injection Ey as E1 E2. apply (proj1 Hsu) in E1. apply (proj1 Hsa) in E2.
          by apply (Hno j lj).
    Qed.
    Lemma end_numbers id L k : firsts (fun a b => twin p a.2 b.2) (at_end f p id) L ->
      k ∈ map (place (map fst (pm_linkers p'))) (map fst L) <-> exists l, w_links w !! k = Some l /\
        f (stored_link su_name sa_name l) = id /\ (ln_name k, stored_link su_name sa_name l) ∈ L.
    Proof.
      intros HL. destruct (firsts_sub _ _ _ HL) as [F1 _]. split.
      - intros (x & E & Hx)%elem_of_list_fmap. apply elem_of_list_fmap in Hx as (e & -> & He).
        pose proof (F1 _ He) as He'. apply end_in in He' as (j & l & Hl & -> & Ei). cbn in E. rewrite (link_number j l Hl) in E. subst j. eauto.
      - intros (l & Hl & Ei & Hin). apply elem_of_list_fmap. exists (ln_name k). split; [by rewrite (link_number k l)|].
        apply elem_of_list_fmap. eexists. split; [|exact Hin]. done.
    Qed.
    Lemma end_once id L : firsts (fun a b => twin p a.2 b.2) (at_end f p id) L -> NoDup (map (place (map fst (pm_linkers p'))) (map fst L)).
    Proof.
      intros HL. destruct (firsts_sub _ _ _ HL) as [F1 _]. pose proof (firsts_nodup _ _ _ HL (end_nodup id)) as Hnd.
      clear HL. induction Hnd as [|e L He _ IH]; [constructor|]. cbn. constructor.
      - intros (x & E & Hx)%elem_of_list_fmap. apply elem_of_list_fmap in Hx as (e' & -> & He').
        destruct (proj1 (end_in id e) (F1 _ (elem_of_list_here _ _))) as (j & l & Hl & -> & _).
        destruct (proj1 (end_in id e') (F1 _ (elem_of_list_further _ _ _ He'))) as (j' & l' & Hl' & -> & _). cbn in E.
        rewrite (link_number j l Hl), (link_number j' l' Hl') in E. subst j'. assert (l' = l) as -> by congruence. done.
      - apply IH. intros a Ha. apply F1. by right.
    Qed.
  End ends.

  (** *** Summits and saddles *)
  Lemma summit2 a u2 : w_summits w2 !! a = Some u2 -> exists u L, w_summits w !! a = Some u /\
    ft_ele (su_feat u2) = ft_ele (su_feat u) /\ ft_edge (su_feat u2) = ft_edge (su_feat u) /\
    firsts (fun a b => twin p a.2 b.2) (at_end pl_summit p (su_name a)) L /\
    su_links u2 = map (place (map fst (pm_linkers p'))) (map fst L).
  Proof.
    cbn. rewrite list_lookup_fmap. destruct (pm_summits p' !! a) as [e|] eqn:E; [|done]. cbn. intros [= <-].
    destruct (Forall2_lookup_r _ _ _ _ _ sum_rel E) as (b & Hb & _ & u & Hu & E1 & E2 & L & HL & EL).
    rewrite Hsm in Hb. apply lookup_seq in Hb as [-> _]. cbn in *. exists u, L. cbn. rewrite E1, E2, EL. done.
  Qed.
  Lemma summit1 a u : w_summits w !! a = Some u -> exists u2, w_summits w2 !! a = Some u2.
  Proof.
    intros Hu. assert (mp_summits d !! a = Some a) as Ha. { rewrite Hsm. apply lookup_seq. split; [done|]. by eapply lookup_lt_Some. }
    destruct (Forall2_lookup_l _ _ _ _ _ sum_rel Ha) as (e & He & _). cbn. rewrite list_lookup_fmap, He. by eexists.
  Qed.
  Lemma saddle2 s' i o2 : mp_saddles d !! s' = Some i -> w_saddles w2 !! s' = Some o2 -> exists o L, w_saddles w !! i = Some o /\
    ft_edge (sa_feat o2) = ft_edge (sa_feat o) /\ disqualified o2 = disqualified o /\
    firsts (fun a b => twin p a.2 b.2) (at_end pl_saddle p (sa_name i)) L /\
    sa_links o2 = map (place (map fst (pm_linkers p'))) (map fst L).
  Proof.
    intros Hi. destruct (Forall2_lookup_l _ _ _ _ _ sad_rel Hi) as (e & He & _ & o & Ho & E1 & E2 & E3 & E4 & E5 & L & HL & EL).
    cbn. rewrite lookup_app_l by (rewrite map_length; by eapply lookup_lt_Some). rewrite list_lookup_fmap, He. cbn. intros [= <-].
    exists o, L. unfold disqualified. cbn. rewrite E2, E3, E4, E5, EL. done.
  Qed.
  Lemma saddle1 s' i : mp_saddles d !! s' = Some i -> exists o2, w_saddles w2 !! s' = Some o2.
  Proof.
    intros Hi. destruct (Forall2_lookup_l _ _ _ _ _ sad_rel Hi) as (e & He & _). cbn.
    rewrite lookup_app_l by (rewrite map_length; by eapply lookup_lt_Some). rewrite list_lookup_fmap, He. by eexists.
  Qed.
  Lemma runoff2 s' o2 : mp_saddles d !! s' = None -> w_saddles w2 !! s' = Some o2 -> exists i o, (mp_saddles d ++ mp_runoffs d) !! s' = Some i /\
    i ∈ mp_runoffs d /\ w_saddles w !! i = Some o /\ ft_edge (sa_feat o2) = true /\ disqualified o2 = disqualified o /\
    (sa_links o2 = [] \/ pos i = s' /\ exists L, firsts (fun a b => twin p a.2 b.2) (at_end pl_saddle p (sa_name i)) L /\
       sa_links o2 = map (place (map fst (pm_linkers p'))) (map fst L)).
  Proof.
    intros Hn. pose proof (Forall2_length _ _ _ sad_rel) as Hlen. apply lookup_ge_None in Hn.
    cbn. rewrite lookup_app_r by (rewrite map_length; lia). rewrite map_length, list_lookup_fmap, <-Hlen.
    destruct (pm_runoffs p' !! (s' - length (mp_saddles d))) as [e|] eqn:E; [|done]. cbn. intros [= <-].
    destruct (Forall2_lookup_r _ _ _ _ _ run_rel E) as (i & Hi & E1 & o & Ho & E2 & E3 & E4 & E5). exists i, o.
    assert ((mp_saddles d ++ mp_runoffs d) !! s' = Some i) as Hi'.
    { rewrite lookup_app_r by lia. done. }
    split; [done|]. split; [by eapply elem_of_list_lookup_2|]. split; [done|]. split; [done|].
    split; [unfold disqualified; cbn; by rewrite E3, E4, E5|]. cbn.
    pose proof (take_drop_middle _ _ _ E) as Esp. symmetry in Esp. pose proof (rl_copies _ _ Hr _ _ _ Esp) as Hc.
    unfold runoff_links in Hc. destruct (decide _) as [Hin|Hin]; [left; by rewrite Hc|right].
    destruct Hc as (L & HL & EL). rewrite E1 in HL. split; [|exists L; by rewrite EL].
    apply place_last; [rewrite both_name, Hi'; done|].
    intros j Hj. rewrite both_name. intros Ej. destruct ((mp_saddles d ++ mp_runoffs d) !! j) as [i'|] eqn:Ei'; [|done]. cbn in Ej.
    injection Ej as Ej. apply (proj1 Hsa) in Ej. subst i'. rewrite lookup_app_r in Ei' by lia.
    destruct (Forall2_lookup_l _ _ _ _ _ run_rel Ei') as (e' & He' & E1' & _). apply Hin. rewrite E1, <-E1'.
    apply elem_of_list_fmap. exists e'. split; [done|]. apply elem_of_list_lookup.
    exists (j - length (mp_saddles d) - S (s' - length (mp_saddles d))). rewrite lookup_drop.
    rewrite <-He'. f_equal. lia.
  Qed.

  Lemma ends_summit l l' : ln_summit l = ln_summit l' -> ln_saddle l = ln_saddle l' ->
    pl_summit (stored_link su_name sa_name l) = pl_summit (stored_link su_name sa_name l').
  Proof. intros E _. cbn. by rewrite E. Qed.
  Lemma ends_saddle l l' : ln_summit l = ln_summit l' -> ln_saddle l = ln_saddle l' ->
    pl_saddle (stored_link su_name sa_name l) = pl_saddle (stored_link su_name sa_name l').
  Proof. intros _ E. cbn. by rewrite E. Qed.

  Lemma own2 : own_links w2.
  Proof.
    split.
    - intros a u2 k Hu Hk. destruct (summit2 a u2 Hu) as (u & L & _ & _ & _ & HL & EL). rewrite EL in Hk.
      destruct (proj1 (end_numbers _ _ _ _ HL) Hk) as (l & Hl & Ea & _). cbn in Ea. apply (proj1 Hsu) in Ea.
      eexists. split; [apply link2; eauto|done].
    - intros s' o2 k Ho Hk. destruct (mp_saddles d !! s') as [i|] eqn:Ei.
      + destruct (saddle2 s' i o2 Ei Ho) as (o & L & _ & _ & _ & HL & EL). rewrite EL in Hk.
        destruct (proj1 (end_numbers _ _ _ _ HL) Hk) as (l & Hl & Ea & _). cbn in Ea. apply (proj1 Hsa) in Ea.
        eexists. split; [apply link2; eauto|]. cbn. rewrite Ea. apply pos_saddle; [by eapply elem_of_list_lookup_2|done].
      + destruct (runoff2 s' o2 Ei Ho) as (i & o & _ & _ & _ & _ & _ & [E|(Ep & L & HL & EL)]); [rewrite E in Hk; by apply elem_of_nil in Hk|].
        rewrite EL in Hk. destruct (proj1 (end_numbers _ _ _ _ HL) Hk) as (l & Hl & Ea & _). cbn in Ea. apply (proj1 Hsa) in Ea.
        eexists. split; [apply link2; eauto|]. cbn. by rewrite Ea.
  Qed.

  Lemma at_summit2 a k l : w_links w !! k = Some l -> ln_summit l = a -> ln_saddle l ∈ mp_saddles d -> at_summit w2 a k <-> leader k l.
  Proof.
    intros Hl Ea Hs. assert (is_Some (w_summits w !! a)) as [u Hu].
    { rewrite <-Ea. apply (wh_summits d Hw). by eapply link_ends. }
    destruct (summit1 a u Hu) as (u2 & Hu2). destruct (summit2 a u2 Hu2) as (_ & L & _ & _ & _ & HL & EL).
    rewrite <-(end_leader _ ends_summit _ _ _ _ HL Hl) by (done || (cbn; by rewrite Ea)). unfold at_summit. split.
    - intros (u' & Hu' & Hk). assert (u' = u2) as -> by congruence. rewrite EL in Hk.
      destruct (proj1 (end_numbers _ _ _ _ HL) Hk) as (l' & Hl' & _ & Hin). congruence.
    - intros Hin. exists u2. split; [done|]. rewrite EL. apply (end_numbers _ _ _ _ HL). exists l. cbn. by rewrite Ea.
  Qed.
  Lemma at_saddle2 s' i k : mp_saddles d !! s' = Some i -> at_saddle w2 s' k <-> exists l, leader k l /\ ln_saddle l = i.
  Proof.
    intros Hi. destruct (saddle1 s' i Hi) as (o2 & Ho2). destruct (saddle2 s' i o2 Hi Ho2) as (_ & L & _ & _ & _ & HL & EL).
    assert (i ∈ mp_saddles d) as Hin by (by eapply elem_of_list_lookup_2). unfold at_saddle. split.
    - intros (o' & Ho' & Hk). assert (o' = o2) as -> by congruence. rewrite EL in Hk.
      destruct (proj1 (end_numbers _ _ _ _ HL) Hk) as (l & Hl & Ei & Hk2). cbn in Ei. apply (proj1 Hsa) in Ei. exists l. split; [|done].
      apply (end_leader _ ends_saddle _ _ _ _ HL Hl); [cbn; by rewrite Ei|by rewrite Ei|done].
    - intros (l & Hld & Ei). exists o2. split; [done|]. rewrite EL. apply (end_numbers _ _ _ _ HL). exists l. destruct Hld as [Hl Hno].
      split; [done|]. split; [cbn; by rewrite Ei|]. apply (end_leader _ ends_saddle _ _ _ _ HL Hl); [cbn; by rewrite Ei|by rewrite Ei|by split].
  Qed.

  (** *** Open saddles *)
  Lemma leader_listed k l : w_links w !! k = Some l -> open_ w (Sad (ln_saddle l)) -> leader k l <-> at_saddle w (ln_saddle l) k.
  Proof.
    intros Hl Ho. split.
    - intros [_ Hno]. destruct (Hfirst k l Hl) as (o & Hso & [Hk|(k' & l' & Hlt & Hk' & Hl' & E)]); [by exists o|].
      exfalso. destruct (proj2 (tg_own _ G) _ _ _ Hso Hk') as (l2 & Hl2 & E2). assert (l2 = l') as -> by congruence.
      by apply (Hno k' l').
    - intros Hk. split; [done|]. intros k' l' Hlt Hl' E1 E2.
      assert (exists k2, k2 < k /\ at_saddle w (ln_saddle l) k2 /\ exists l2, w_links w !! k2 = Some l2 /\ ln_summit l2 = ln_summit l)
        as (k2 & Hlt2 & Hk2 & l2 & Hl2 & El2).
      { destruct (Hfirst k' l' Hl') as (o & Hso & [Hk'|(k2 & l2 & Hlt' & Hk2 & Hl2 & E3)]); rewrite E2 in Hso.
        - exists k'. split; [done|]. split; [by exists o|]. eauto.
        - exists k2. split; [lia|]. split; [by exists o|]. exists l2. split; [done|congruence]. }
      destruct (tg_sad _ G _ _ Ho Hk) as (a & Hj & _). destruct (tg_sad _ G _ _ Ho Hk2) as (a2 & Hj2 & _).
      assert (a = ln_summit l) as -> by (destruct Hj as (x & Hx & E & _); congruence).
      assert (a2 = ln_summit l) as -> by (destruct Hj2 as (x & Hx & E & _); congruence).
      pose proof (tg_one _ G _ _ _ _ Ho Hk Hk2 Hj Hj2). lia.
  Qed.
  Lemma open_saddle2 s' : open_ w2 (Sad s') <-> exists s, mp_saddles d !! s' = Some s /\ open_ w (Sad s).
  Proof.
    split.
    - intros (o2 & Ho2 & Hd & He). destruct (mp_saddles d !! s') as [i|] eqn:Ei.
      + destruct (saddle2 s' i o2 Ei Ho2) as (o & L & Ho & E1 & E2 & _). exists i. split; [done|]. exists o. split; [done|]. by rewrite <-E1, <-E2.
      + destruct (runoff2 s' o2 Ei Ho2) as (i & o & _ & _ & _ & E & _). congruence.
    - intros (i & Hi & o & Ho & Hd & He). destruct (saddle1 s' i Hi) as (o2 & Ho2).
      destruct (saddle2 s' i o2 Hi Ho2) as (o' & L & Ho' & E1 & E2 & _). assert (o' = o) as -> by congruence.
      exists o2. split; [done|]. by rewrite E1, E2.
  Qed.
  Lemma open_summit2 a : open_ w2 (Sum a) <-> open_ w (Sum a).
  Proof.
    split.
    - intros (u2 & Hu2 & He). destruct (summit2 a u2 Hu2) as (u & L & Hu & _ & E & _). exists u. split; [done|]. by rewrite <-E.
    - intros (u & Hu & He). destruct (summit1 a u Hu) as (u2 & Hu2). destruct (summit2 a u2 Hu2) as (u' & L & Hu' & _ & E & _).
      exists u2. split; [done|]. congruence.
  Qed.
  Lemma height2 a z : summit_height w2 a z <-> summit_height w a z.
  Proof.
    split.
    - intros (u2 & Hu2 & He). destruct (summit2 a u2 Hu2) as (u & L & Hu & E & _). exists u. split; [done|]. by rewrite <-E.
    - intros (u & Hu & He). destruct (summit1 a u Hu) as (u2 & Hu2). destruct (summit2 a u2 Hu2) as (u' & L & Hu' & E & _).
      exists u2. split; [done|]. congruence.
  Qed.
  Lemma border2 a b : summit_on_border w2 a b <-> summit_on_border w a b.
  Proof.
    split.
    - intros (u2 & Hu2 & He). destruct (summit2 a u2 Hu2) as (u & L & Hu & _ & E & _). exists u. split; [done|]. by rewrite <-E.
    - intros (u & Hu & He). destruct (summit1 a u Hu) as (u2 & Hu2). destruct (summit2 a u2 Hu2) as (u' & L & Hu' & _ & E & _).
      exists u2. split; [done|]. congruence.
  Qed.

  (** What holds for an open saddle [s] with number [s'] in the loaded map. *)
  Section open.
    Context (s s' : nat) (Hs : mp_saddles d !! s' = Some s) (Ho : open_ w (Sad s)).
    Lemma in_saddles : s ∈ mp_saddles d.
    Proof. by eapply elem_of_list_lookup_2. Qed.
    Lemma open_joins k a : joins w2 k a s' <-> joins w k a s.
    Proof.
      rewrite joins2. split.
      - intros (i & Hj & Ep). assert (i = s) as ->; [|done]. destruct Hj as (l & Hl & _ & Es & _).
        destruct (link_ends k l Hl) as (_ & H2 & _). rewrite Es in H2. apply elem_of_app in H2 as [H2|H2].
        + apply (pos_saddle i s' H2) in Ep. congruence.
        + pose proof (pos_runoff i s' H2 Ep). congruence.
      - intros Hj. exists s. split; [done|]. apply pos_saddle; [apply in_saddles|done].
    Qed.
    Lemma open_at k : at_saddle w2 s' k <-> at_saddle w s k.
    Proof.
      rewrite (at_saddle2 s' s k Hs). split.
      - intros (l & Hld & <-). apply (leader_listed k l); [apply Hld|done|done].
      - intros Hk. pose proof Hk as (o & Hso & Hk'). destruct (proj2 (tg_own _ G) _ _ _ Hso Hk') as (l & Hl & <-). exists l.
        split; [|done]. by apply leader_listed.
    Qed.
    Lemma open_link k a : joins w k a s -> at_summit w2 a k <-> at_saddle w s k.
    Proof.
      intros (l & Hl & Ea & Es & _). rewrite (at_summit2 a k l Hl Ea) by (rewrite Es; apply in_saddles).
      rewrite (leader_listed k l Hl) by (by rewrite Es). by rewrite Es.
    Qed.
    Lemma open_from k a : open_ w (Sum a) -> joins w k a s -> at_summit w2 a k <-> at_summit w a k.
    Proof.
      intros Ha Hj. rewrite (open_link k a Hj). split.
      - intros Hk. destruct (tg_sad _ G _ _ Ho Hk) as (b & Hj' & Hb).
        assert (b = a) as -> by (destruct Hj as (l & Hl & <- & _), Hj' as (l' & Hl' & <- & _); congruence). by apply Hb.
      - intros Hk. by apply (tg_sum _ G a k s).
    Qed.
  End open.

  (** *** Saddles that count and lead somewhere *)
  Lemma lists_joined k a s : joins w k a s -> a ∈ summits_of w s.
  Proof.
    intros (l & Hl & <- & <- & _). destruct (link_ends k l Hl) as (_ & _ & Hk).
    destruct (me_back m d Hm k l Hk Hl) as (o & k' & l' & Ho & Hk' & Hl' & E). unfold summits_of. rewrite Ho.
    apply elem_of_list_omap. exists k'. split; [done|]. rewrite Hl'. cbn. by rewrite E.
  Qed.
  Lemma live1 s b k a : live_saddle w s b -> joins w k a s -> b = false /\ s ∈ mp_saddles d /\ open_ w (Sad s).
  Proof.
    intros (o & Ho & Hd & He) Hj. pose proof (lists_joined k a s Hj) as Hx. assert (not_disq w s) as Hnd by (by exists o).
    pose proof (Hopen s a Hnd Hx) as Hop. split; [|split; [exact (me_listed m d Hm s a Hnd Hx)|exact Hop]].
    destruct Hop as (o' & Ho' & _ & He'). congruence.
  Qed.
  Lemma live2 s' b k a : live_saddle w2 s' b -> joins w2 k a s' -> b = false /\ exists s, mp_saddles d !! s' = Some s /\ open_ w (Sad s).
  Proof.
    intros (o2 & Ho2 & Hd & He) Hj. apply joins2 in Hj as (s & Hj & Ep).
    assert (s ∈ mp_saddles d ++ mp_runoffs d) as Hin. { destruct Hj as (l & Hl & _ & <- & _). apply (link_ends k l Hl). }
    apply elem_of_app in Hin as [Hin|Hin].
    - assert (mp_saddles d !! s' = Some s) as Hs by (by apply pos_saddle).
      destruct (saddle2 s' s o2 Hs Ho2) as (o & L & Ho & E1 & E2 & _).
      destruct (live1 s (ft_edge (sa_feat o)) k a) as (E & _ & Hop); [exists o; split; [done|]; split; [congruence|done]|done|].
      split; [congruence|]. by exists s.
    - exfalso. pose proof (pos_runoff s s' Hin Ep) as Hn. destruct (runoff2 s' o2 Hn Ho2) as (i & o & Hi & Hir & Ho & _ & E2 & _).
      assert (s ∈ mp_saddles d ++ mp_runoffs d) as Hs by (apply elem_of_app; by right).
      destruct (pos_at s Hs) as [Hp _]. rewrite Ep in Hp. assert (i = s) as -> by congruence.
      destruct (live1 s (ft_edge (sa_feat o)) k a) as (_ & Hsd & _); [exists o; split; [done|]; split; [congruence|done]|done|].
      by apply (wh_apart d Hw s).
  Qed.
  Lemma live_open2 s s' : mp_saddles d !! s' = Some s -> open_ w (Sad s) -> live_saddle w2 s' false.
  Proof. intros H1 H2. destruct (proj2 (open_saddle2 s')) as (o & Ho); [by exists s|]. by exists o. Qed.
  Lemma live_open1 s : open_ w (Sad s) -> live_saddle w s false.
  Proof. intros (o & Ho). by exists o. Qed.
  Lemma higher2 a b : higher w2 a b <-> higher w a b.
  Proof. unfold higher. setoid_rewrite height2. done. Qed.
  Lemma not_higher2 a b : not_higher w2 a b <-> not_higher w a b.
  Proof. unfold not_higher. setoid_rewrite height2. done. Qed.
  Lemma border_open b : summit_on_border w b false -> open_ w (Sum b).
  Proof. by intros (u & Hu & He); exists u. Qed.

  (** *** The tree *)
  Lemma link_open2 k l2 s : w_links w2 !! k = Some l2 -> mp_saddles d !! ln_saddle l2 = Some s -> exists l, w_links w !! k = Some l /\
    ln_saddle l = s /\ ln_summit l = ln_summit l2.
  Proof.
    intros H Hs. apply link2 in H as (l & Hl & ->). cbn in *. exists l. split; [done|]. split; [|done].
    destruct (link_ends k l Hl) as (_ & H2 & _). apply elem_of_app in H2 as [H2|H2].
    - pose proof (proj1 (pos_saddle (ln_saddle l) _ H2) eq_refl). congruence.
    - pose proof (pos_runoff (ln_saddle l) _ H2 eq_refl). congruence.
  Qed.
  Definition back (n : node) : node := match n with inl s' => Sad (default 0 (mp_saddles d !! s')) | inr a => Sum a end.
  Lemma back_open n : open_ w2 n -> open_ w (back n).
  Proof.
    destruct n as [s'|a]; [|apply open_summit2]. intros (s & Hs & Ho)%open_saddle2. cbn [back]. by rewrite Hs.
  Qed.
  Lemma back_inj n n' : open_ w2 n -> open_ w2 n' -> back n = back n' -> n = n'.
  Proof.
    destruct n as [s|a], n' as [s'|a']; intros H1 H2; cbn [back]; [|done|done|by intros [= ->]].
    apply open_saddle2 in H1 as (i & Hi & _). apply open_saddle2 in H2 as (i' & Hi' & _). rewrite Hi, Hi'. cbn. intros [= <-].
    f_equal. by eapply NoDup_lookup; [apply (wh_saddles d Hw)|..].
  Qed.
  Lemma back_edge n n' : open_edge w2 n n' -> open_edge w (back n) (back n').
  Proof.
    intros (H1 & H2 & H3). split; [by apply back_open|]. split; [by apply back_open|].
    destruct n as [s'|a], n' as [t'|b]; try done.
    - apply open_saddle2 in H1 as (s & Hs & Ho). change (b ∈ summits_of w2 s') in H3. cbn [back]. rewrite Hs. change (b ∈ summits_of w s). unfold summits_of in H3 |- *.
      destruct (w_saddles w2 !! s') as [o2|] eqn:E2; [|by apply elem_of_nil in H3].
      apply elem_of_list_omap in H3 as (k & Hk & E). destruct (w_links w2 !! k) as [l2|] eqn:El; [|done]. cbn in E. injection E as E.
      assert (at_saddle w2 s' k) as Hat by (by exists o2). apply (open_at s s' Hs Ho) in Hat as (o & Hso & Hk').
      rewrite Hso. apply elem_of_list_omap. exists k. split; [done|]. apply link2 in El as (l & Hl & ->). rewrite Hl. cbn in *. by rewrite E.
    - apply open_saddle2 in H2 as (s & Hs & Ho). change (t' ∈ saddles_of w2 a) in H3. cbn [back]. rewrite Hs. change (s ∈ saddles_of w a). unfold saddles_of in H3 |- *.
      destruct (w_summits w2 !! a) as [u2|] eqn:E2; [|by apply elem_of_nil in H3].
      apply elem_of_list_omap in H3 as (k & Hk & E). destruct (w_links w2 !! k) as [l2|] eqn:El; [|done]. cbn in E. injection E as E.
      destruct (proj1 own2 a u2 k E2 Hk) as (l2' & El' & Ea). assert (l2' = l2) as -> by congruence.
      destruct (link_open2 k l2 s El) as (l & Hl & E3 & E4); [by rewrite E|].
      assert (at_summit w2 a k) as Hat by (by exists u2). rewrite (at_summit2 a k l Hl) in Hat; [|congruence|rewrite E3; by eapply in_saddles].
      apply leader_listed in Hat; [|done|by rewrite E3]. rewrite E3 in Hat. destruct (tg_sad _ G _ _ Ho Hat) as (c & Hj & Hc).
      assert (c = a) as -> by (destruct Hj as (l' & Hl' & <- & _); congruence).
      apply open_summit2 in H1. destruct (Hc H1) as (u & Hu & Hku). rewrite Hu. apply elem_of_list_omap. exists k. split; [done|].
      rewrite Hl. cbn. by rewrite E3.
  Qed.
  Lemma forest2 c : ~ Basin_spec.closed (open_edge w2) c.
  Proof.
    intros (H1 & H2 & H3). apply (tg_forest _ G (map back c)).
    assert (forall n, n ∈ c -> open_ w2 n) as Hall.
    { intros n [i Hi]%elem_of_list_lookup. destruct ((c ++ take 1 c) !! S i) as [n'|] eqn:E.
      - apply (H3 i n n'); [by apply lookup_app_l_Some|done].
      - apply lookup_ge_None in E. rewrite app_length, take_length in E. apply lookup_lt_Some in Hi. lia. }
    split; [by rewrite map_length|]. split.
    - clear H1 H3. induction H2 as [|n c Hn H2 IH]; [constructor|]. cbn. constructor.
      + intros (n' & E & Hn')%elem_of_list_fmap. apply back_inj in E; [|apply Hall; by left|apply Hall; by right]. by subst.
      + apply IH. intros n' Hn'. apply Hall. by right.
    - intros i x y. change (map back c) with (back <$> c). rewrite <-fmap_take, <-fmap_app, !list_lookup_fmap.
      destruct ((c ++ take 1 c) !! i) as [n|] eqn:E1; [|done]. destruct ((c ++ take 1 c) !! S i) as [n'|] eqn:E2; [|done].
      cbn. intros [= <-] [= <-]. apply back_edge. by apply (H3 i).
  Qed.
  Lemma tree2 : tree_graph w2.
  Proof.
    split.
    - apply own2.
    - intros s' o2 Hop Ho2. apply open_saddle2 in Hop as (s & Hs & Ho).
      destruct (saddle2 s' s o2 Hs Ho2) as (o & L & Hso & _ & _ & HL & EL).
      rewrite <-(tg_two _ G s o Ho Hso). apply submseteq_length, NoDup_submseteq.
      + rewrite EL. exact (end_once _ _ _ HL).
      + intros k Hk. assert (at_saddle w2 s' k) as Hat by (by exists o2). apply (open_at s s' Hs Ho) in Hat as (o' & Ho' & Hk').
        congruence.
    - intros s' k Hop Hk. apply open_saddle2 in Hop as (s & Hs & Ho). apply (open_at s s' Hs Ho) in Hk.
      destruct (tg_sad _ G _ _ Ho Hk) as (a & Hj & _). exists a. split; [by apply (open_joins s s' Hs)|].
      intros _. by apply (open_link s s' Hs Ho).
    - intros a k s' _ Hk Hj Hop. apply open_saddle2 in Hop as (s & Hs & Ho). apply (open_joins s s' Hs) in Hj.
      apply (open_at s s' Hs Ho). by apply (open_link s s' Hs Ho k a).
    - intros a u2 _ Hu2. destruct (summit2 a u2 Hu2) as (u & L & _ & _ & _ & HL & EL). rewrite EL. exact (end_once _ _ _ HL).
    - intros s' k k' a Hop Hk Hk' Hj Hj'. apply open_saddle2 in Hop as (s & Hs & Ho).
      apply (open_at s s' Hs Ho) in Hk, Hk'. apply (open_joins s s' Hs) in Hj, Hj'. exact (tg_one _ G _ _ _ _ Ho Hk Hk' Hj Hj').
    - apply forest2.
  Qed.

  (** *** Ways out *)
  Lemma hop2 a k s' j b : open_ w (Sum a) -> hop w2 a k s' j b <-> exists s, mp_saddles d !! s' = Some s /\ hop w a k s j b.
  Proof.
    intros Ha. split.
    - intros (H1 & H2 & H3 & H4 & H5 & H6 & H7 & H8). destruct (live2 _ _ _ _ H3 H2) as (_ & s & Hs & Ho). exists s. split; [done|].
      apply (open_joins s s' Hs) in H2, H6. apply (open_at s s' Hs Ho) in H4. apply border2 in H7. apply not_higher2 in H8.
      repeat (split; [first [done|by apply live_open1|by apply (open_from s s' Hs Ho)]|]). done.
    - intros (s & Hs & H1 & H2 & H3 & H4 & H5 & H6 & H7 & H8). assert (open_ w (Sad s)) as Ho by (destruct H3 as (o & Hx); by exists o).
      split; [by apply (open_from s s' Hs Ho)|]. split; [by apply (open_joins s s' Hs)|]. split; [by eapply live_open2|].
      split; [by apply (open_at s s' Hs Ho)|]. split; [done|]. split; [by apply (open_joins s s' Hs)|].
      split; [by apply border2|by apply not_higher2].
  Qed.
  Definition node_rel (n' n : node) : Prop :=
    match n', n with
    | inl s', inl s => mp_saddles d !! s' = Some s
    | inr a, inr b => a = b
    | _, _ => False
    end.
  Lemma rel_l x y z : node_rel x z -> node_rel y z -> x = y.
  Proof.
    destruct x, y, z; cbn; try done; [|by intros -> ->]. intros H1 H2. f_equal. by eapply NoDup_lookup; [apply (wh_saddles d Hw)|..].
  Qed.
  Lemma rel_r x y z : node_rel x y -> node_rel x z -> y = z.
  Proof. destruct x, y, z; cbn; try done; congruence. Qed.
  Lemma rel_in ns' ns n' n : Forall2 node_rel ns' ns -> node_rel n' n -> n' ∈ ns' <-> n ∈ ns.
  Proof.
    intros HF Hn. split; intros [i Hi]%elem_of_list_lookup.
    - destruct (Forall2_lookup_l _ _ _ _ _ HF Hi) as (z & Hz & Hr'). rewrite (rel_r _ _ _ Hn Hr'). by eapply elem_of_list_lookup_2.
    - destruct (Forall2_lookup_r _ _ _ _ _ HF Hi) as (z & Hz & Hr'). rewrite (rel_l _ _ _ Hn Hr'). by eapply elem_of_list_lookup_2.
  Qed.
  Lemma descent2 a q b ns' : open_ w (Sum a) -> descent w2 a q b ns' ->
    open_ w (Sum b) /\ exists ns, Forall2 node_rel ns' ns /\ descent w a q b ns.
  Proof.
    intros Ha. induction 1 as [|q b ns' k s' j c _ (Hb & ns & HF & Hd) Hh Hs' Hc].
    - split; [done|]. exists [Sum a]. split; [by repeat constructor|constructor].
    - apply (hop2 b k s' j c Hb) in Hh as (s & Hs & Hh). split; [exact (border_open c ltac:(apply Hh))|].
      exists (Sum c :: Sad s :: ns). split; [by repeat constructor|]. apply (descent_step w a q b ns k s j c); [done|done|by rewrite <-(rel_in _ _ (Sad s') (Sad s) HF)|
        by rewrite <-(rel_in _ _ (Sum c) (Sum c) HF)].
  Qed.
  Lemma descent1 a q b ns : open_ w (Sum a) -> descent w a q b ns ->
    open_ w (Sum b) /\ exists ns', Forall2 node_rel ns' ns /\ descent w2 a q b ns'.
  Proof.
    intros Ha. induction 1 as [|q b ns k s j c _ (Hb & ns' & HF & Hd) Hh Hs' Hc].
    - split; [done|]. exists [Sum a]. split; [by repeat constructor|constructor].
    - split; [exact (border_open c ltac:(apply Hh))|]. pose proof Hh as (_ & Hj & Hl & _). destruct (live1 _ _ _ _ Hl Hj) as (_ & Hin & _).
      apply elem_of_list_lookup in Hin as [s' Hs].
      exists (Sum c :: Sad s' :: ns'). split; [by repeat constructor|]. apply (descent_step w2 a q b ns' k s' j c); [done| |by rewrite (rel_in _ _ (Sad s') (Sad s) HF)|
        by rewrite (rel_in _ _ (Sum c) (Sum c) HF)]. apply (hop2 b k s' j c Hb). by exists s.
  Qed.
  Lemma ends2 b k s s' : open_ w (Sad s) -> mp_saddles d !! s' = Some s -> joins w k b s ->
    (border_at w2 b k s' <-> border_at w b k s) /\ (divide_at w2 b k s' <-> divide_at w b k s).
  Proof.
    intros Ho Hs Hj. assert (joins w2 k b s') as Hj2 by (by apply (open_joins s s' Hs)).
    pose proof (live_open2 s s' Hs Ho) as Hl2. pose proof (live_open1 s Ho) as Hl.
    unfold border_at, divide_at. split; split.
    - intros [H|(_ & j & c & H1 & H2 & H3 & H4 & H5)]; [by destruct (live2 _ _ _ _ H Hj2)|]. right. split; [done|]. exists j, c.
      split; [by apply (open_at s s' Hs Ho)|]. split; [done|]. split; [by apply (open_joins s s' Hs)|]. by rewrite <-border2, <-not_higher2.
    - intros [H|(_ & j & c & H1 & H2 & H3 & H4 & H5)]; [by destruct (live1 _ _ _ _ H Hj)|]. right. split; [done|]. exists j, c.
      split; [by apply (open_at s s' Hs Ho)|]. split; [done|]. split; [by apply (open_joins s s' Hs)|]. by rewrite border2, not_higher2.
    - intros (_ & j & c & H1 & H2 & H3 & H4). split; [done|]. exists j, c.
      split; [by apply (open_at s s' Hs Ho)|]. split; [done|]. split; [by apply (open_joins s s' Hs)|]. by rewrite <-higher2.
    - intros (_ & j & c & H1 & H2 & H3 & H4). split; [done|]. exists j, c.
      split; [by apply (open_at s s' Hs Ho)|]. split; [done|]. split; [by apply (open_joins s s' Hs)|]. by rewrite higher2.
  Qed.
  Lemma why_live (W : world) b k s : border_at W b k s \/ divide_at W b k s -> exists x, live_saddle W s x.
  Proof. intros [[H|[H _]]|[H _]]; eauto. Qed.
  Lemma way2 a q s' : open_ w (Sum a) -> way_out w2 a q s' <-> exists s, mp_saddles d !! s' = Some s /\ way_out w a q s.
  Proof.
    intros Ha. split.
    - intros (p1 & b & ns' & k & -> & H1 & H2 & H3 & H4 & H5). destruct (why_live _ _ _ _ H5) as [x Hx].
      destruct (live2 _ _ _ _ Hx H3) as (_ & s & Hs & Ho). exists s. split; [done|]. apply (open_joins s s' Hs) in H3.
      destruct (descent2 _ _ _ _ Ha H1) as (Hb & ns & HF & Hd). exists p1, b, ns, k. split; [done|]. split; [done|].
      split; [by apply (open_from s s' Hs Ho)|]. split; [done|]. split; [by rewrite <-(rel_in _ _ (Sad s') (Sad s) HF)|].
      destruct (ends2 b k s s' Ho Hs H3) as [-> ->] in H5. done.
    - intros (s & Hs & p1 & b & ns & k & -> & H1 & H2 & H3 & H4 & H5). destruct (why_live _ _ _ _ H5) as [x Hx].
      destruct (live1 _ _ _ _ Hx H3) as (_ & _ & Ho).
      destruct (descent1 _ _ _ _ Ha H1) as (Hb & ns' & HF & Hd). exists p1, b, ns', k. split; [done|]. split; [done|].
      split; [by apply (open_from s s' Hs Ho)|]. split; [by apply (open_joins s s' Hs)|]. split; [by rewrite (rel_in _ _ (Sad s') (Sad s) HF)|].
      destruct (ends2 b k s s' Ho Hs H3) as [E1 E2]. rewrite E1, E2. done.
  Qed.
  Lemma leads2 a q b : open_ w (Sum a) -> leads w2 a q b -> open_ w (Sum b) /\ leads w a q b.
  Proof.
    intros Ha. induction 1 as [|q b k s' j c _ (Hb & IH) Hh]; [split; [done|constructor]|].
    apply (hop2 b k s' j c Hb) in Hh as (s & Hs & Hh). split; [exact (border_open c ltac:(apply Hh))|]. by eapply leads_step.
  Qed.
  Lemma leads1 a q b : open_ w (Sum a) -> leads w a q b -> open_ w (Sum b) /\ leads w2 a q b.
  Proof.
    intros Ha. induction 1 as [|q b k s j c _ (Hb & IH) Hh]; [split; [done|constructor]|].
    split; [exact (border_open c ltac:(apply Hh))|]. pose proof Hh as (_ & Hj & Hl & _). destruct (live1 _ _ _ _ Hl Hj) as (_ & Hin & _).
    apply elem_of_list_lookup in Hin as [s' Hs]. eapply leads_step; [done|]. apply (hop2 b k s' j c Hb). by exists s.
  Qed.
  Lemma border_end2 a q s' : open_ w (Sum a) -> ends_at w2 (border_at w2) a q s' <->
    exists s, mp_saddles d !! s' = Some s /\ ends_at w (border_at w) a q s.
  Proof.
    intros Ha. split.
    - intros (p1 & b & k & -> & H1 & H2 & H3 & H4). destruct (why_live _ _ _ _ (or_introl H4)) as [x Hx].
      destruct (live2 _ _ _ _ Hx H3) as (_ & s & Hs & Ho). exists s. split; [done|]. apply (open_joins s s' Hs) in H3.
      destruct (leads2 _ _ _ Ha H1) as (Hb & Hd). exists p1, b, k. split; [done|]. split; [done|].
      split; [by apply (open_from s s' Hs Ho)|]. split; [done|]. by apply (ends2 b k s s' Ho Hs H3).
    - intros (s & Hs & p1 & b & k & -> & H1 & H2 & H3 & H4). destruct (why_live _ _ _ _ (or_introl H4)) as [x Hx].
      destruct (live1 _ _ _ _ Hx H3) as (_ & _ & Ho).
      destruct (leads1 _ _ _ Ha H1) as (Hb & Hd). exists p1, b, k. split; [done|]. split; [done|].
      split; [by apply (open_from s s' Hs Ho)|]. split; [by apply (open_joins s s' Hs)|]. by apply (ends2 b k s s' Ho Hs H3).
  Qed.

  (** *** The divide tree *)
  Lemma listed2 : mp_summits (revive cell_of p') = mp_summits d.
  Proof. rewrite Hsm. cbn. f_equal. rewrite <-(Forall2_length _ _ _ sum_rel), Hsm. apply seq_length. Qed.
  Lemma region2 m1 m2 a t t2 : open_ w (Sum a) -> lp_busted (local_prominent_region m1 w a t) = [] ->
    lp_busted (local_prominent_region m2 w2 a t2) = [] ->
    (forall q s', (q, s') ∈ lp_paths (local_prominent_region m2 w2 a t2) <->
       exists s, mp_saddles d !! s' = Some s /\ (q, s) ∈ lp_paths (local_prominent_region m1 w a t)) /\
    lp_edge (local_prominent_region m2 w2 a t2) = lp_edge (local_prominent_region m1 w a t).
  Proof.
    intros Ha H1 H2. assert (open_ w2 (Sum a)) as Ha2 by (by apply open_summit2).
    assert (forall q s', (q, s') ∈ lp_paths (local_prominent_region m2 w2 a t2) <->
       exists s, mp_saddles d !! s' = Some s /\ (q, s) ∈ lp_paths (local_prominent_region m1 w a t)) as HP.
    { intros q s'. rewrite (region_paths m2 w2 tree2 a Ha2 t2 H2), (way2 a q s' Ha).
      split; intros (s & Hs & H); exists s; (split; [done|]); by apply (region_paths m1 w G a Ha t H1). }
    split; [done|]. apply eq_true_iff_eq.
    rewrite (region_edge m2 w2 tree2 a Ha2 t2), (region_edge m1 w G a Ha t). split.
    - intros (q & s' & Hq & He). apply (border_end2 a q s' Ha) in He as (s & Hs & He). apply HP in Hq as (s1 & Hs1 & Hq).
      assert (s1 = s) as -> by congruence. eauto.
    - intros (q & s & Hq & He). pose proof He as (p1 & b & k & _ & _ & _ & H3 & H4). destruct (why_live _ _ _ _ (or_introl H4)) as [x Hx].
      destruct (live1 _ _ _ _ Hx H3) as (_ & Hin & _). apply elem_of_list_lookup in Hin as [s' Hs]. exists q, s'.
      split; [apply HP; eauto|]. apply border_end2; eauto.
  Qed.
  Lemma ele2 a : summit_ele w2 a = summit_ele w a.
  Proof.
    unfold summit_ele. destruct (w_summits w !! a) as [u|] eqn:E.
    - destruct (summit1 a u E) as (u2 & E2). rewrite E2. destruct (summit2 a u2 E2) as (u' & _ & Hu' & He & _). cbn. congruence.
    - destruct (w_summits w2 !! a) as [u2|] eqn:E2; [|done]. destruct (summit2 a u2 E2) as (u' & _ & Hu' & _). congruence.
  Qed.
  Lemma highest2 l : first_highest w2 l = first_highest w l.
  Proof.
    unfold first_highest. destruct l as [|a l]; [done|]. f_equal. revert a. induction l as [|b l IH]; intros a; [done|].
    cbn [foldl]. rewrite !ele2. apply IH.
  Qed.
  Lemma run2 m1 m2 t t2 h out t' : run_tree m1 w (mp_summits d) t = Ok (h, out, t') -> tr_busted t' = [] ->
    exists out2 t2', run_tree m2 w2 (mp_summits (revive cell_of p')) t2 = Ok (h, out2, t2') /\ map fst out2 = map fst out /\
      (tr_busted t2' = [] -> forall a r r2, open_ w (Sum a) -> (a, r) ∈ out -> (a, r2) ∈ out2 ->
       (forall q s', (q, s') ∈ lp_paths r2 <-> exists s, mp_saddles d !! s' = Some s /\ (q, s) ∈ lp_paths r) /\ lp_edge r2 = lp_edge r).
  Proof.
    intros E Hb. pose proof (run_tree_spec m1 w (tg_own _ G) (mp_summits d) t) as R. rewrite E in R. destruct R as (R1 & R2 & R3).
    pose proof (run_tree_spec m2 w2 own2 (mp_summits d) t2) as Q. rewrite listed2.
    destruct (run_tree m2 w2 (mp_summits d) t2) as [[[h2 out2] t2']|e] eqn:E2.
    - destruct Q as (Q1 & Q2 & Q3). exists out2, t2'. rewrite highest2, R1 in Q1. injection Q1 as <-. split; [done|]. split; [congruence|].
      intros Hb2 a r r2 Ha Hr1 Hr2. destruct (R3 a r Hr1) as (t0 & -> & H1). destruct (Q3 a r2 Hr2) as (t3 & -> & H2).
      apply region2; auto.
    - destruct Q as [Q _]. rewrite Q in R1. done.
  Qed.
End revive.
