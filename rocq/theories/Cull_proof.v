(** Proofs about purging a finished analysis. *)
From Verif Require Import Base_model Graph_model Divide_model Graph_spec Basin_spec Graph_proof Purge_proof Basin_facts Basin_proof Cull_spec.
Local Open Scope Z_scope.

Lemma deleted_back R w w' j b : deleted R w w' -> w_saddles w' !! j = Some b -> exists a, w_saddles w !! j = Some a.
Proof. intros (H & _) Hb. apply lookup_lt_is_Some_2. rewrite <-H. by eapply lookup_lt_Some. Qed.
Lemma deleted_back_su R w w' j b : deleted R w w' -> w_summits w' !! j = Some b -> exists a, w_summits w !! j = Some a.
Proof. intros (_ & H & _) Hb. apply lookup_lt_is_Some_2. rewrite <-H. by eapply lookup_lt_Some. Qed.
Lemma deleted_back_ln R w w' j b : deleted R w w' -> w_links w' !! j = Some b -> exists a, w_links w !! j = Some a.
Proof. intros (_ & _ & H & _) Hb. apply lookup_lt_is_Some_2. rewrite <-H. by eapply lookup_lt_Some. Qed.

Section culled.
  Variables (R : list nat) (w w' : world).
  Hypotheses (D : deleted R w w')
    (HR : forall i s, i ∈ R -> w_saddles w !! i = Some s -> disqualified s = true).

  Lemma culled_saddle j :
    match w_saddles w !! j, w_saddles w' !! j with
    | Some a, Some b => sa_feat b = sa_feat a /\ sa_links b = sa_links a /\ disqualified b = disqualified a
    | None, None => True
    | _, _ => False
    end.
  Proof.
    destruct (w_saddles w !! j) as [a|] eqn:Ea.
    - pose proof D as (_ & _ & _ & H & _). destruct (H j a Ea) as (b & -> & Ef & El & Es & Eb & H1 & H2 & _).
      split; [done|]. split; [done|]. destruct (decide (j ∈ R)) as [Hin|Hn].
      + rewrite (HR j a Hin Ea). unfold disqualified. by rewrite (H1 Hin).
      + unfold disqualified. by rewrite (H2 Hn), Es, Eb.
    - destruct (w_saddles w' !! j) as [b|] eqn:Eb; [|done]. destruct (deleted_back _ _ _ _ _ D Eb). congruence.
  Qed.
  Lemma culled_summit j :
    match w_summits w !! j, w_summits w' !! j with
    | Some a, Some b => su_feat b = su_feat a /\ su_links b = su_links a
    | None, None => True
    | _, _ => False
    end.
  Proof.
    destruct (w_summits w !! j) as [a|] eqn:Ea.
    - pose proof D as (_ & _ & _ & _ & H & _). destruct (H j a Ea) as (b & -> & Ef & El & _). done.
    - destruct (w_summits w' !! j) as [b|] eqn:Eb; [|done]. destruct (deleted_back_su _ _ _ _ _ D Eb). congruence.
  Qed.
  Lemma culled_link k :
    match w_links w !! k, w_links w' !! k with
    | Some a, Some b => ln_summit b = ln_summit a /\ ln_saddle b = ln_saddle a
    | None, None => True
    | _, _ => False
    end.
  Proof.
    destruct (w_links w !! k) as [a|] eqn:Ea.
    - pose proof D as (_ & _ & _ & _ & _ & H). destruct (H k a Ea) as (b & -> & Ef & El & _). done.
    - destruct (w_links w' !! k) as [b|] eqn:Eb; [|done]. destruct (deleted_back_ln _ _ _ _ _ D Eb). congruence.
  Qed.

  Lemma culled_summits_of i : summits_of w' i = summits_of w i.
  Proof.
    unfold summits_of. pose proof (culled_saddle i) as H.
    destruct (w_saddles w !! i), (w_saddles w' !! i); try done. destruct H as (_ & -> & _).
    apply omap_ext_all. intros k. pose proof (culled_link k) as Hk.
    destruct (w_links w !! k), (w_links w' !! k); try done. cbn. f_equal. apply Hk.
  Qed.
  Lemma culled_saddles_of i : saddles_of w' i = saddles_of w i.
  Proof.
    unfold saddles_of. pose proof (culled_summit i) as H.
    destruct (w_summits w !! i), (w_summits w' !! i); try done. destruct H as (_ & ->).
    apply omap_ext_all. intros k. pose proof (culled_link k) as Hk.
    destruct (w_links w !! k), (w_links w' !! k); try done. cbn. f_equal. apply Hk.
  Qed.
  Lemma culled_not_disq i : not_disq w' i <-> not_disq w i.
  Proof.
    unfold not_disq. pose proof (culled_saddle i) as H. destruct (w_saddles w !! i) as [a|], (w_saddles w' !! i) as [b|]; try done.
    - destruct H as (_ & _ & H). split; intros (x & [= <-] & Hx); eexists; (split; [done|congruence]).
  Qed.
  Lemma culled_open n : open_ w' n <-> open_ w n.
  Proof.
    destruct n as [i|i]; cbn.
    - pose proof (culled_saddle i) as H. destruct (w_saddles w !! i) as [a|], (w_saddles w' !! i) as [b|]; try done.
      + destruct H as (E & _ & H). split; intros (x & [= <-] & H1 & H2); eexists; (split; [done|]); split; congruence.
    - pose proof (culled_summit i) as H. destruct (w_summits w !! i) as [a|], (w_summits w' !! i) as [b|]; try done.
      + destruct H as (E & _). split; intros (x & [= <-] & H1); eexists; (split; [done|]); congruence.
  Qed.
  Lemma culled_edge n n' : edge w' n n' <-> edge w n n'.
  Proof. destruct n, n'; cbn; by rewrite ?culled_summits_of, ?culled_saddles_of. Qed.
  Lemma culled_ele n : ele_at w' n = ele_at w n.
  Proof.
    destruct n as [i|i]; cbn.
    - pose proof (culled_saddle i) as H. destruct (w_saddles w !! i), (w_saddles w' !! i); try done. by destruct H as (-> & _).
    - pose proof (culled_summit i) as H. destruct (w_summits w !! i), (w_summits w' !! i); try done. by destruct H as (-> & _).
  Qed.
  Lemma culled_hop (ok ok' : nat -> Prop) x y : (forall i, ok' i <-> ok i) -> hop w' ok' x y <-> hop w ok x y.
  Proof.
    intros Hk. unfold hop. split; intros (i & H1 & H2 & H3 & H4); exists i; rewrite culled_summits_of in *;
      (split; [by apply Hk|]); (split; [by apply culled_not_disq|done]).
  Qed.
  Lemma culled_joined (ok ok' : nat -> Prop) x y : (forall i, ok' i <-> ok i) -> joined w' ok' x y <-> joined w ok x y.
  Proof.
    intros Hk. unfold joined. split; intros H; (eapply rtc_subrel; [|exact H]); intros a b; by apply (culled_hop ok ok').
  Qed.

  (** ** The divide tree *)
  Hypothesis HM : forall i s k l, i ∈ R -> w_saddles w !! i = Some s -> k ∈ sa_links s -> w_links w !! k = Some l -> ln_disq l = true.
  Variable m : datamap.

  Lemma culled_links k : w_links w' !! k = w_links w !! k.
  Proof.
    destruct (w_links w !! k) as [a|] eqn:Ea.
    - pose proof D as (_ & _ & _ & _ & _ & H). destruct (H k a Ea) as (b & -> & E1 & E2 & E3). f_equal.
      destruct a as [x y q], b as [x' y' q']. cbn in *. subst. f_equal. apply eq_true_iff_eq. rewrite E3. split; [|by left].
      intros [Hq|(i & s & Hi & Hs & Hk)]; [done|]. exact (HM i s k _ Hi Hs Hk Ea).
    - destruct (w_links w' !! k) as [b|] eqn:Eb; [|done]. destruct (deleted_back_ln _ _ _ _ _ D Eb). congruence.
  Qed.
  Lemma culled_summit_same i j : summit_same m w' i j = summit_same m w i j.
  Proof.
    unfold summit_same, summit_spot. pose proof (culled_summit i) as Hi. pose proof (culled_summit j) as Hj.
    destruct (w_summits w !! i), (w_summits w' !! i), (w_summits w !! j), (w_summits w' !! j); try done; cbn;
      repeat match goal with H : _ /\ _ |- _ => destruct H end; congruence.
  Qed.
  Lemma culled_saddle_same i j : saddle_same m w' i j = saddle_same m w i j.
  Proof.
    unfold saddle_same, saddle_spot. pose proof (culled_saddle i) as Hi. pose proof (culled_saddle j) as Hj.
    destruct (w_saddles w !! i), (w_saddles w' !! i), (w_saddles w !! j), (w_saddles w' !! j); try done; cbn;
      repeat match goal with H : _ /\ _ |- _ => destruct H end; congruence.
  Qed.
  Lemma existsb_same {A} (f g : A -> bool) l : (forall x, f x = g x) -> existsb f l = existsb g l.
  Proof. intros H. induction l as [|x l IH]; [done|]. cbn. by rewrite H, IH. Qed.
  Lemma culled_bust x t : lp_bust m w' x t = lp_bust m w x t.
  Proof. unfold lp_bust. by rewrite (existsb_same _ _ _ (culled_summit_same x)). Qed.
  Lemma culled_boundary x s t : lp_boundary m w' x s t = lp_boundary m w x s t.
  Proof. unfold lp_boundary. by rewrite (existsb_same _ _ _ (culled_summit_same x)), (existsb_same _ _ _ (culled_saddle_same s)). Qed.
  Lemma foldl_same {A B} (f g : A -> B -> A) l a : (forall a b, f a b = g a b) -> foldl f a l = foldl g a l.
  Proof. intros H. revert a. induction l as [|x l IH]; intros a; [done|]. cbn. by rewrite H, IH. Qed.
  Lemma culled_linker_ok skip exempt k : linker_ok w' skip exempt k = linker_ok w skip exempt k.
  Proof. unfold linker_ok. by rewrite culled_links. Qed.
  Lemma culled_via_saddle x y k :
    linkers_to_summits_connected_via_saddle w' x y k = linkers_to_summits_connected_via_saddle w x y k.
  Proof.
    unfold linkers_to_summits_connected_via_saddle, saddle_links. rewrite culled_links.
    destruct (w_links w !! k) as [l|]; [|done]. pose proof (culled_saddle (ln_saddle l)) as H.
    destruct (w_saddles w !! ln_saddle l), (w_saddles w' !! ln_saddle l); try done. destruct H as (_ & -> & _).
    apply list_filter_iff. intros j. by rewrite culled_linker_ok.
  Qed.
  Lemma culled_next (r r' : nat -> list nat -> lpr -> lpr) x e path k l t j : (forall b p t, r' b p t = r b p t) ->
    next_step m w' r' x e path k l t j = next_step m w r x e path k l t j.
  Proof.
    intros Hr. unfold next_step. rewrite culled_links. destruct (w_links w !! j) as [n|]; [|done].
    case_decide; [done|]. destruct (ln_disq l); [done|]. pose proof (culled_summit (ln_summit n)) as Hz.
    destruct (w_summits w !! ln_summit n), (w_summits w' !! ln_summit n); try done. destruct Hz as (-> & _).
    by rewrite Hr, culled_boundary.
  Qed.
  Lemma culled_step (r r' : nat -> list nat -> lpr -> lpr) x e path t k : (forall b p t, r' b p t = r b p t) ->
    link_step m w' r' x e path t k = link_step m w r x e path t k.
  Proof.
    intros Hr. unfold link_step. rewrite culled_links. destruct (w_links w !! k) as [l|]; [|done].
    destruct (ln_disq l); [done|]. case_decide; [done|]. pose proof (culled_saddle (ln_saddle l)) as Hz.
    destruct (w_saddles w !! ln_saddle l), (w_saddles w' !! ln_saddle l); try done. destruct Hz as (-> & _ & ->).
    destruct (disqualified _); [done|]. destruct (ft_edge _); [done|].
    rewrite culled_via_saddle. apply foldl_same. intros a b. by apply culled_next.
  Qed.
  Lemma culled_chaser room x b path t : branch_chaser m w' room x b path t = branch_chaser m w room x b path t.
  Proof.
    revert b path t. induction room as [|room IH]; intros b path t; cbn [branch_chaser]; [apply culled_bust|].
    pose proof (culled_summit b) as H. destruct (w_summits w !! b), (w_summits w' !! b); try done. destruct H as (-> & ->).
    apply foldl_same. intros a k. by apply culled_step.
  Qed.
  Lemma culled_region a t : local_prominent_region m w' a t = local_prominent_region m w a t.
  Proof. apply culled_chaser. Qed.
  Lemma culled_summit_ele a : summit_ele w' a = summit_ele w a.
  Proof.
    unfold summit_ele. pose proof (culled_summit a) as H. destruct (w_summits w !! a), (w_summits w' !! a); try done.
    cbn. by destruct H as (-> & _).
  Qed.
  Lemma culled_tree l t : run_tree m w' l t = run_tree m w l t.
  Proof.
    unfold run_tree, first_highest. destruct l as [|a l]; [done|].
    rewrite (foldl_same (fun h b => if summit_ele w' h <? summit_ele w' b then b else h)
      (fun h b => if summit_ele w h <? summit_ele w b then b else h)) by (intros; by rewrite !culled_summit_ele).
    cbn [rbind].
    rewrite (foldl_same (fun (acc : list (nat * lpr) * tree) a =>
        let p := local_prominent_region m w' a acc.2 in (acc.1 ++ [(a, p)], Tree (lp_busted p) (lp_at_saddle p) (lp_at_summit p)))
      (fun (acc : list (nat * lpr) * tree) a =>
        let p := local_prominent_region m w a acc.2 in (acc.1 ++ [(a, p)], Tree (lp_busted p) (lp_at_saddle p) (lp_at_summit p))))
      by (intros; by rewrite culled_region). done.
  Qed.
End culled.

(** ** Purging *)
Lemma goes_flagged a b c w i s : w_saddles w !! i = Some s -> goes a b c w i = true -> sa_single s = true \/ sa_basin s = true.
Proof.
  unfold goes. intros ->. rewrite bool_decide_eq_true. unfold purged. tauto.
Qed.
Section purge.
  Variables (m : datamap) (a b c : bool) (d : dmap).
  Local Notation d' := (purge_saddles m a b c d).
  Local Notation w := (mp_world d).
  Local Notation w' := (mp_world d').
  Local Notation R := (filter (fun i => goes a b c w i = true) (mp_saddles d)).

  Lemma purge_deleted : deleted R w w'.
  Proof. apply (purge_spec m a b c d). Qed.
  Lemma purge_disq : no_override w -> forall i s, i ∈ R -> w_saddles w !! i = Some s -> disqualified s = true.
  Proof.
    intros Hno i s [Hg _]%elem_of_list_filter Hs. pose proof (goes_flagged _ _ _ _ _ _ Hs Hg) as Hf.
    unfold disqualified. pose proof (Hno i s Hs) as Hn. destruct (sa_over s) as [[]|]; [done|done|].
    apply orb_true_iff. done.
  Qed.
  Lemma purge_network : no_override w ->
    (forall n, (open_ w' n <-> open_ w n) /\ ele_at w' n = ele_at w n) /\
    (forall n n', edge w' n n' <-> edge w n n') /\
    (forall ok x y, joined w' ok x y <-> joined w ok x y) /\
    (forall i, i ∈ mp_saddles d -> not_disq w i -> i ∈ mp_saddles d' /\ not_disq w' i /\ summits_of w' i = summits_of w i).
  Proof.
    intros Hno. pose proof purge_deleted as D. pose proof (purge_disq Hno) as HR. split; [|split; [|split]].
    - intros n. split; [by apply (culled_open R w w')|by apply (culled_ele R w w')].
    - intros n n'. by apply (culled_edge R w w').
    - intros ok x y. by apply (culled_joined R w w').
    - intros i Hi Hn. split; [|split; [by apply (culled_not_disq R w w')|by apply (culled_summits_of R w w')]].
      destruct (purge_spec m a b c d) as (_ & _ & -> & _). apply elem_of_list_filter. split; [|done].
      destruct Hn as (s & Hs & Hd). unfold stays. rewrite Hs. apply bool_decide_eq_true. intros Hp.
      assert (goes a b c w i = true) as Hg by (unfold goes; rewrite Hs; by apply bool_decide_eq_true).
      rewrite (HR i s) in Hd; [done| |done]. by apply elem_of_list_filter.
  Qed.
  Lemma purge_tree : no_override w -> flags_on_links w -> forall l t, run_tree m w' l t = run_tree m w l t.
  Proof.
    intros Hno Hl. apply (culled_tree R w w' purge_deleted (purge_disq Hno)).
    intros i s k x [Hg _]%elem_of_list_filter Hs. apply (Hl i s k x Hs). by eapply goes_flagged.
  Qed.
End purge.

(** ** Domains *)
Lemma saddle_ne_feat m w w' x i : (forall j, sa_feat <$> w_saddles w' !! j = sa_feat <$> w_saddles w !! j) ->
  saddle_ne m w' x i = saddle_ne m w x i.
Proof.
  intros H. unfold saddle_ne, saddle_spot. pose proof (H x) as Hx. pose proof (H i) as Hi.
  destruct (w_saddles w !! x), (w_saddles w' !! x), (w_saddles w !! i), (w_saddles w' !! i); try done; cbn in *; congruence.
Qed.
Lemma filter_keep (f : nat -> bool) (l : list nat) : (forall x, f x = true) -> filter (fun x => f x = true) l = l.
Proof. intros H. induction l as [|x l IH]; [done|]. by rewrite filter_cons_True, IH. Qed.
Lemma filter_bools (f g : nat -> bool) (l : list nat) : filter (fun x => f x = true) (filter (fun x => g x = true) l) =
  filter (fun x => f x && g x = true) l.
Proof. rewrite list_filter_filter. apply list_filter_iff. intros x. by rewrite andb_true_iff. Qed.

(** Whether saddle [x] stays in the domain of summit [d] when saddle [i] goes. *)
Definition keep_one m w (us : list nat) d i x : bool := negb (bool_decide (d ∈ us)) || saddle_ne m w x i.
Lemma remove_loop_domain m i ks d : forall w,
  let w' := foldl (fun w k =>
      match w_links w !! k with
      | None => w
      | Some l => upd_summit (ln_summit l) (fun su =>
          Summit (su_feat su) (su_links su)
            (filter (fun x => saddle_ne m w x i = true) <$> su_domain su)) w
      end) w ks in
  domain_saddles w' d =
  filter (fun x => keep_one m w (omap (fun k => ln_summit <$> w_links w !! k) ks) d i x = true) (domain_saddles w d).
Proof.
  induction ks as [|k ks IH]; intros w; cbn [foldl omap list_omap]; cbn zeta.
  - rewrite filter_keep; [done|]. intros x. unfold keep_one. by rewrite bool_decide_false by apply not_elem_of_nil.
  - destruct (w_links w !! k) as [l|] eqn:El.
    + rewrite IH. cbn [fmap option_fmap option_map].
      set (w1 := upd_summit _ _ w). change (w_links w1) with (w_links w).
      assert (domain_saddles w1 d = filter (fun x => keep_one m w [ln_summit l] d i x = true) (domain_saddles w d)) as ->.
      { unfold domain_saddles, w1. rewrite upd_summit_lookup. case_decide as E.
        - subst d. destruct (w_summits w !! ln_summit l) as [su|]; cbn; [|done]. destruct (su_domain su) as [ds|]; cbn; [|done].
          apply list_filter_iff. intros x. unfold keep_one. rewrite bool_decide_true by by left. done.
        - rewrite filter_keep; [done|]. intros x. unfold keep_one.
          rewrite bool_decide_false; [done|]. rewrite elem_of_list_singleton. congruence. }
      rewrite filter_bools. apply list_filter_iff. intros x. unfold keep_one.
      rewrite (saddle_ne_feat m w w1) by done. cbn [fmap option_fmap option_map].
      destruct (saddle_ne m w x i); [by rewrite !orb_true_r|]. rewrite !orb_false_r, <-negb_orb. do 2 f_equiv.
      rewrite <-bool_decide_or. apply bool_decide_ext. rewrite elem_of_list_singleton, elem_of_cons. tauto.
    + rewrite IH. done.
Qed.

Section domains.
  Variable m : datamap.
  Lemma deleted_feats R w w' : deleted R w w' -> forall j, sa_feat <$> w_saddles w' !! j = sa_feat <$> w_saddles w !! j.
  Proof.
    intros D j. destruct (w_saddles w !! j) as [a|] eqn:Ea.
    - destruct D as (_ & _ & _ & D & _). destruct (D j a Ea) as (b & -> & E & _). cbn. congruence.
    - destruct (w_saddles w' !! j) as [b|] eqn:Eb; [|done]. destruct (deleted_back _ _ _ _ _ D Eb). congruence.
  Qed.
  Lemma deleted_summits_of R w w' i : deleted R w w' -> summits_of w' i = summits_of w i.
  Proof.
    intros D. unfold summits_of. pose proof D as (_ & _ & _ & D1 & _ & D2). destruct (w_saddles w !! i) as [a|] eqn:Ea.
    - destruct (D1 i a Ea) as (b & -> & _ & -> & _). apply omap_ext_all. intros k. destruct (w_links w !! k) as [l|] eqn:El.
      + destruct (D2 k l El) as (l' & -> & E & _). cbn. congruence.
      + destruct (w_links w' !! k) as [l'|] eqn:El'; [|done]. destruct (deleted_back_ln _ _ _ _ _ D El'). congruence.
    - destruct (w_saddles w' !! i) as [b|] eqn:Eb; [|done]. destruct (deleted_back _ _ _ _ _ D Eb). congruence.
  Qed.
  Lemma remove_domain i w d : is_Some (w_saddles w !! i) ->
    domain_saddles (remove_from_domains m i w) d = filter (fun x => keep_one m w (summits_of w i) d i x = true) (domain_saddles w d).
  Proof. intros [s Hs]. unfold remove_from_domains, summits_of. rewrite Hs. apply remove_loop_domain. Qed.

  Lemma soft_delete_summits i w : w_summits (soft_delete m i w) = w_summits w.
  Proof.
    unfold soft_delete. destruct (w_saddles w !! i) as [s0|] eqn:E0; [|done].
    set (w1 := if decide _ then _ else _).
    assert (E1 : w_summits w1 = w_summits w) by (unfold w1; case_decide; [done|]; by apply (disown_spec m i w s0 E0)).
    clearbody w1. rewrite <-E1. clear E1.
    assert (E2 : w_summits (emancipate m i w1) = w_summits w1).
    { unfold emancipate. destruct (w_saddles w1 !! i) as [s1|]; [|done]. destruct (sa_parent s1); done. }
    rewrite <-E2. clear E2. set (w2 := emancipate m i w1). clearbody w2.
    destruct (w_saddles w2 !! i) as [s|] eqn:Es; [|done].
    set (w3 := upd_saddle i _ _). transitivity (w_summits w3).
    - destruct (w_saddles w3 !! i) as [s3|] eqn:E3; [by apply (disqualify_spec false false i w3 s3 E3)|].
      exfalso. unfold w3 in E3. rewrite upd_saddle_lookup, decide_True in E3 by done.
      destruct (alts_loop m i s (sa_alts s) w2 Es) as (_ & _ & _ & H). destruct (H i s Es) as (al & E & _). by rewrite E in E3.
    - unfold w3. cbn. clear. generalize (sa_alts s). intros l. revert w2. induction l as [|b l IH]; intros w2; [done|]. cbn. by rewrite IH.
  Qed.

  Lemma delete_all_domain d rm : forall w, Forall (fun i => is_Some (w_saddles w !! i)) rm ->
    domain_saddles (foldl (fun w i => remove_from_domains m i (soft_delete m i w)) w rm) d =
    filter (fun x => forallb (fun i => keep_one m w (summits_of w i) d i x) rm = true) (domain_saddles w d).
  Proof.
    induction rm as [|i rm IH]; intros w Hv; cbn [foldl forallb]; [by rewrite filter_keep|].
    inversion Hv as [|? ? [s Hs] Hv']; subst.
    destruct (soft_delete_spec m i w s Hs) as (D1 & b & Hb & _).
    destruct (remove_spec m i (soft_delete m i w) b Hb) as (D2 & E2 & _).
    set (w1 := soft_delete m i w) in *. set (w2 := remove_from_domains m i w1) in *.
    assert (D12 : deleted ([i] ++ []) w w2) by by eapply deleted_trans.
    rewrite IH.
    2: { eapply Forall_impl; [exact Hv'|]. intros j [a Ha]. destruct D12 as (_ & _ & _ & D & _).
         destruct (D j a Ha) as (a' & Ha' & _). by exists a'. }
    rewrite (remove_domain i w1 d (ex_intro _ b Hb) : domain_saddles w2 d = _).
    assert (domain_saddles w1 d = domain_saddles w d) as -> by (unfold domain_saddles, w1; by rewrite soft_delete_summits).
    rewrite filter_bools. apply list_filter_iff. intros x.
    assert (forallb (fun i => keep_one m w2 (summits_of w2 i) d i x) rm = forallb (fun i => keep_one m w (summits_of w i) d i x) rm) as ->.
    { clear IH Hv Hv'. induction rm as [|j rm IH]; [done|]. cbn. rewrite IH. f_equal. unfold keep_one.
      rewrite (deleted_summits_of _ _ _ _ D12). f_equal. apply saddle_ne_feat. by eapply deleted_feats. }
    rewrite andb_comm. unfold keep_one at 1 3. rewrite (deleted_summits_of _ _ _ _ D1), (saddle_ne_feat m w w1) by by eapply deleted_feats.
    done.
  Qed.

  Lemma purge_domain a b c (d : dmap) y :
    let w := mp_world d in let w' := mp_world (purge_saddles m a b c d) in
    exists keep : nat -> bool,
      domain_saddles w' y = filter (fun x => keep x = true) (domain_saddles w y) /\
      forall x, keep x = true <-> ~ exists i, i ∈ mp_saddles d /\ goes a b c w i = true /\ y ∈ summits_of w i /\ same_place m w x i.
  Proof.
    cbn zeta. unfold purge_saddles. rewrite purge_split_spec. cbn [mp_world].
    set (w := mp_world d). set (rm := filter _ _).
    assert (Hrm : Forall (fun i => is_Some (w_saddles w !! i)) rm).
    { apply Forall_forall. intros i Hi. apply elem_of_list_filter in Hi as [Hi _]. unfold goes in Hi. by destruct (w_saddles w !! i). }
    exists (fun x => forallb (fun i => keep_one m w (summits_of w i) y i x) rm). split; [by apply delete_all_domain|].
    intros x. rewrite forallb_forall. rewrite Forall_forall in Hrm. split.
    - intros H (i & Hi & Hg & Hy & Hp). assert (i ∈ rm) as Hin by by apply elem_of_list_filter.
      destruct (Hrm i Hin) as [s Hs]. specialize (H i (proj1 (elem_of_list_In _ _) Hin)). unfold keep_one in H.
      rewrite bool_decide_true in H by done. by apply (saddle_ne_iff m w x i s Hs) in H.
    - intros H i Hin%elem_of_list_In. destruct (Hrm i Hin) as [s Hs]. apply elem_of_list_filter in Hin as [Hg Hi]. unfold keep_one.
      case_bool_decide as Hy; [|done]. cbn. apply (saddle_ne_iff m w x i s Hs). intros Hp. apply H. by exists i.
  Qed.
End domains.
