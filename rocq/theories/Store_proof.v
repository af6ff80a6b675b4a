(** Saving and loading the result of an analysis. *)
From Verif Require Import Base_model Graph_model Graph_spec Basin_model Basin_spec Persist_model Persist_spec Persist_proof Persist_load_proof
  Store_model Store_spec.
Local Open Scope nat_scope.

Section named.
  Context {A B : Type} (name : nat -> string) (get : nat -> option A) (put : nat -> A -> B).
  Lemma named_in l k b : (k, b) ∈ named name get put l <-> exists i a, i ∈ l /\ get i = Some a /\ k = name i /\ b = put i a.
  Proof.
    unfold named. rewrite elem_of_list_omap. split.
    - intros (i & Hi & H). destruct (get i) as [a|] eqn:E; [|done]. cbn in H. injection H as <- <-. eauto 10.
    - intros (i & a & Hi & E & -> & ->). exists i. by rewrite E.
  Qed.
  Lemma named_keys l k : k ∈ map fst (named name get put l) <-> exists i, i ∈ l /\ is_Some (get i) /\ k = name i.
  Proof.
    change (map fst) with (fmap (M:=list) (fst (A:=string) (B:=B))). rewrite elem_of_list_fmap. split.
    - intros ([k' b] & -> & (i & a & Hi & E & -> & ->)%named_in). exists i. rewrite E. eauto.
    - intros (i & Hi & [a E] & ->). exists (name i, put i a). split; [done|]. apply named_in. eauto 10.
  Qed.
  Lemma named_nodup l : (forall i j, name i = name j -> i = j) -> NoDup l -> NoDup (map fst (named name get put l)).
  Proof.
    intros Hn. induction 1 as [|i l Hi _ IH]; [constructor|]. unfold named. cbn. destruct (get i) as [a|]; cbn; [|done].
    constructor; [|done]. fold (named name get put l). rewrite named_keys. intros (j & Hj & _ & E). apply Hn in E. by subst.
  Qed.
End named.

Section store.
  Context (m : datamap) (su_name sa_name ln_name : nat -> string) (rim_of : feature -> perimeter * bool * list pte).
  Context (Hsu : naming su_name) (Hsa : naming sa_name) (Hln : naming ln_name).
  Context (d : dmap) (doms : list nat) (pts : nat -> list pte).
  Context (Hw : whole d) (Hdoms : forall a, a ∈ doms -> a ∈ mp_summits d).
  Let p := store m su_name sa_name ln_name rim_of d doms pts.

  Lemma area_good f : has_perimeter (area rim_of f) /\ has_edge_list (area rim_of f).
  Proof. unfold area. destruct (decide _); split; intros u; [done|done|by intros [= <-]|]. intros b [= <-] _ [= <-]. done. Qed.

  Lemma stored_ids : good_ids p.
  Proof.
    destruct Hsu as [N1 _], Hsa as [N2 E2], Hln as [N3 E3]. split.
    - apply named_nodup; [done|apply Hw].
    - apply named_nodup; [done|apply Hw].
    - intros k. unfold p. cbn. rewrite !named_keys. intros (i & Hi & _ & ->) (j & Hj & _ & E). apply N2 in E. subst j. by apply (wh_apart d Hw i).
    - intros k s t. unfold p. cbn. rewrite !named_in. intros (i & a & Hi & E & -> & ->) (j & b & Hj & E' & En & ->). apply N2 in En. congruence.
    - apply named_nodup; [done|apply Hw].
    - intros k s. unfold p. cbn. rewrite named_in. intros (i & a & _ & _ & -> & ->). cbn. destruct (sa_parent a) as [j|]; [|done].
      intros [= E]. by apply (E2 j).
    - unfold p. cbn. rewrite named_keys. intros (i & _ & _ & E). by apply (E3 i).
  Qed.

  Lemma stored_save : can_save p /\ can_read p.
  Proof.
    split; split; intros k s; unfold p; cbn; rewrite ?elem_of_app, !named_in.
    - intros (i & a & _ & _ & _ & ->). apply area_good.
    - intros [(i & a & _ & _ & _ & ->)|(i & a & _ & _ & _ & ->)]; apply area_good.
    - intros (i & a & _ & _ & _ & ->). apply area_good.
    - intros [(i & a & _ & _ & _ & ->)|(i & a & _ & _ & _ & ->)]; apply area_good.
  Qed.

  Lemma key_summit a : a ∈ mp_summits d -> su_name a ∈ map fst (pm_summits p).
  Proof. intros Ha. apply named_keys. exists a. split; [done|]. split; [|done]. by apply (wh_summits d Hw). Qed.
  Lemma key_saddle i : i ∈ mp_saddles d -> sa_name i ∈ map fst (pm_saddles p).
  Proof.
    intros Hi. apply named_keys. exists i. split; [done|]. split; [|done]. apply (wh_saddles d Hw). apply elem_of_app. by left.
  Qed.
  Lemma key_both i : i ∈ mp_saddles d ++ mp_runoffs d -> sa_name i ∈ map fst (pm_saddles p ++ pm_runoffs p).
  Proof.
    intros Hi. rewrite map_app. apply elem_of_app. destruct (proj1 (elem_of_app _ _ _) Hi) as [H|H]; [left; by apply key_saddle|].
    right. apply named_keys. exists i. split; [done|]. split; [|done]. by apply (wh_saddles d Hw).
  Qed.
  Lemma in_map_iff' {A B} (f : A -> B) l k : k ∈ map f l <-> exists j, f j = k /\ j ∈ l.
  Proof. change (map f) with (fmap (M:=list) f). rewrite elem_of_list_fmap. naive_solver. Qed.
  Lemma in_map (f : nat -> string) l k : k ∈ map f l <-> exists j, k = f j /\ j ∈ l.
  Proof. apply elem_of_list_fmap. Qed.

  Lemma stored_closed : closed p.
  Proof.
    split.
    - intros k s Hk. unfold p in Hk. cbn in Hk. apply named_in in Hk as (i & o & Hi & Ho & -> & ->). cbn.
      intros j Hj. assert (exists j', j = sa_name j' /\ (j' ∈ sa_children o \/ sa_parent o = Some j' \/ j' ∈ sa_alts o)) as (j' & -> & Hj').
      { destruct Hj as [Hj|[Hj|Hj]].
        - apply in_map in Hj as (j' & -> & Hj). eauto.
        - destruct (sa_parent o) as [j'|]; [|done]. injection Hj as <-. eauto.
        - apply in_map in Hj as (j' & -> & Hj). eauto. }
      apply key_saddle. by apply (wh_family d Hw i o).
    - intros k l Hk. unfold p in Hk. cbn in Hk. apply named_in in Hk as (i & l' & Hi & Hl & -> & ->). cbn.
      destruct (proj2 (wh_links d Hw) i Hi) as (l2 & Hl2 & H1 & H2). assert (l2 = l') as -> by congruence.
      split; [by apply key_summit|by apply key_both].
    - intros pd Hpd. unfold p in Hpd. cbn in Hpd. apply elem_of_list_omap in Hpd as (a & Ha & E).
      destruct (w_summits (mp_world d) !! a) as [u|] eqn:Eu; [|done]. cbn in E. destruct (su_domain u) as [l|] eqn:El; [|done].
      injection E as <-. cbn. apply Hdoms in Ha. split; [by apply key_summit|].
      intros j (j' & -> & Hj)%in_map. apply key_both. apply (wh_domains d Hw a); [done|]. unfold domain_saddles. rewrite Eu. cbn. by rewrite El.
  Qed.

  Theorem stored_loads newid md5 : exists v p', map_to_dict md5 p = Ok v /\ map_from_dict newid md5 v = Ok p' /\ reloaded p p'.
  Proof.
    destruct stored_save as [H1 H2]. pose proof stored_ids as Hi. pose proof stored_closed as Hc.
    destruct (proj2 (save_ok md5 p) H1) as [v Hv]. pose proof (saved p md5 v Hv) as Hs.
    eexists v, _. split; [done|]. split; [by apply (load_iff p md5 newid v Hi Hv)|]. by apply state_reloaded.
  Qed.

  (** ** The graph *)
  Lemma firsts_sub {A} (like : A -> A -> Prop) l l' : firsts like l l' ->
    (forall a, a ∈ l' -> a ∈ l) /\ forall a, a ∈ l -> a ∈ l' \/ exists b, b ∈ l' /\ like a b.
  Proof.
    induction 1 as [|l l' a _ [IH1 IH2] Hn|l l' a b _ [IH1 IH2] Hb Hl].
    - split; [done|]. by intros a ?%elem_of_nil.
    - split; intros x; rewrite !elem_of_app, !elem_of_list_singleton.
      + intros [H| ->]; auto.
      + intros [H| ->]; [|by left; right]. destruct (IH2 x H) as [?|(b & Hb & ?)]; [by left; left|]. right. exists b.
        rewrite elem_of_app. auto.
    - split; intros x; rewrite ?elem_of_app, ?elem_of_list_singleton; [auto|].
      intros [H| ->]; [auto|]. right. eauto.
  Qed.

  Record meshed : Prop := {
    me_apart : forall a b, summit_same m (mp_world d) a b = true -> a = b;
    me_sa : forall i o k, i ∈ mp_saddles d -> w_saddles (mp_world d) !! i = Some o -> k ∈ sa_links o ->
      exists l, w_links (mp_world d) !! k = Some l /\ ln_saddle l = i /\ k ∈ mp_linkers d;
    me_back : forall k l, k ∈ mp_linkers d -> w_links (mp_world d) !! k = Some l -> exists o k' l',
      w_saddles (mp_world d) !! ln_saddle l = Some o /\ k' ∈ sa_links o /\ w_links (mp_world d) !! k' = Some l' /\
      ln_summit l' = ln_summit l;
    me_listed : forall i x, not_disq (mp_world d) i -> x ∈ summits_of (mp_world d) i -> i ∈ mp_saddles d;
    me_over : no_override (mp_world d) }.

  Section graph.
    Context (Hm : meshed) (p' : pmap) (Hr : reloaded p p').

    Lemma same_twin k l k' l' : w_links (mp_world d) !! k = Some l -> w_links (mp_world d) !! k' = Some l' ->
      twin p (stored_link su_name sa_name l) (stored_link su_name sa_name l') -> ln_summit l = ln_summit l'.
    Proof.
      intros _ _ [(s1 & s2 & H1 & H2 & Hs) _]. apply (me_apart Hm). unfold summit_same, summit_spot.
      destruct H1 as (u1 & H1 & <-), H2 as (u2 & H2 & <-). unfold p in H1, H2. cbn in H1, H2.
      apply named_in in H1 as (a & x & _ & Ha & E1 & ->). apply named_in in H2 as (b & y & _ & Hb & E2 & ->).
      cbn in E1, E2. apply (proj1 Hsu) in E1, E2. rewrite <-E1, <-E2 in *. rewrite Ha, Hb. cbn in *.
      apply spot_eq_same in Hs. rewrite Hs. apply orb_true_r.
    Qed.

    (** The summits of a loaded saddle are those of the saddle. *)
    Lemma loaded_summits i o s' A : i ∈ mp_saddles d -> w_saddles (mp_world d) !! i = Some o ->
      (exists l, firsts (fun a b => twin p a.2 b.2) (at_end pl_saddle p (sa_name i)) l /\ pa_links s' = map fst l) ->
      leads_to p' s' A <-> exists a, A = su_name a /\ a ∈ summits_of (mp_world d) i.
    Proof.
      intros Hi Ho (l & Hf & Hl). destruct (firsts_sub _ _ _ Hf) as [F1 F2]. unfold leads_to. rewrite Hl, (rl_linkers _ _ Hr).
      assert (forall e, e ∈ at_end pl_saddle p (sa_name i) <-> exists k x, k ∈ mp_linkers d /\ w_links (mp_world d) !! k = Some x /\
        ln_saddle x = i /\ e = (ln_name k, stored_link su_name sa_name x)) as Hat.
      { intros [k x]. unfold at_end. rewrite elem_of_list_filter. unfold p. cbn. rewrite named_in. split.
        - intros [E (j & y & Hj & Hy & -> & ->)]. cbn in E. apply (proj1 Hsa) in E. eauto 10.
        - intros (j & y & Hj & Hy & E & [= -> ->]). split; [cbn; by rewrite E|]. eauto 10. }
      split.
      - intros (k & x & Hk & Hx & <-). apply in_map_iff' in Hk as ([k2 x2] & E & Hin). cbn in E. subst k2.
        pose proof (F1 _ Hin) as Hin'. apply Hat in Hin' as (j & y & Hj & Hy & Ey & [= -> ->]).
        unfold p in Hx. cbn in Hx. apply named_in in Hx as (j2 & y2 & Hj2 & Hy2 & E & ->). apply (proj1 Hln) in E. subst j2.
        assert (y2 = y) as -> by congruence. exists (ln_summit y). split; [done|].
        destruct (me_back Hm j y Hj Hy) as (o2 & k' & l' & Ho2 & Hk' & Hl' & E). rewrite Ey in Ho2.
        unfold summits_of. rewrite Ho2. apply elem_of_list_omap. exists k'. split; [done|]. rewrite Hl'. cbn. by rewrite E.
      - intros (a & -> & Ha). unfold summits_of in Ha. rewrite Ho in Ha. apply elem_of_list_omap in Ha as (k & Hk & E).
        destruct (me_sa Hm i o k Hi Ho Hk) as (x & Hx & Ex & Hk'). rewrite Hx in E. cbn in E. injection E as <-.
        assert ((ln_name k, stored_link su_name sa_name x) ∈ at_end pl_saddle p (sa_name i)) as Hin by (apply Hat; eauto 10).
        assert (exists k2 x2, (ln_name k2, stored_link su_name sa_name x2) ∈ l /\ k2 ∈ mp_linkers d /\
          w_links (mp_world d) !! k2 = Some x2 /\ ln_summit x2 = ln_summit x) as (k2 & x2 & H1 & H2 & H3 & H4).
        { destruct (F2 _ Hin) as [H|(b & Hb & Ht)]; [eauto 10|]. destruct (proj1 (Hat b) (F1 _ Hb)) as (k2 & x2 & B1 & B2 & B3 & ->).
          exists k2, x2. split_and!; try done. cbn in Ht. symmetry. by eapply (same_twin k x k2 x2). }
        exists (ln_name k2), (stored_link su_name sa_name x2). split; [|split].
        + apply in_map_iff'. eexists. split; [|exact H1]. done.
        + unfold p. cbn. apply named_in. eauto 10.
        + cbn. by rewrite H4.
    Qed.

    Lemma Forall2_in_l {A B} (P : A -> B -> Prop) l k x : Forall2 P l k -> x ∈ l -> exists y, y ∈ k /\ P x y.
    Proof.
      intros H [i Hi]%elem_of_list_lookup. destruct (Forall2_lookup_l _ _ _ _ _ H Hi) as (y & Hy & HP).
      exists y. split; [by eapply elem_of_list_lookup_2|done].
    Qed.
    Lemma Forall2_in_r {A B} (P : A -> B -> Prop) l k y : Forall2 P l k -> y ∈ k -> exists x, x ∈ l /\ P x y.
    Proof.
      intros H [i Hi]%elem_of_list_lookup. destruct (Forall2_lookup_r _ _ _ _ _ H Hi) as (x & Hx & HP).
      exists x. split; [by eapply elem_of_list_lookup_2|done].
    Qed.

    Lemma kept_out o s' : sa_over o <> Some false -> kept_saddle false (stored_saddle m sa_name ln_name rim_of o) s' ->
      ruled_out s' <-> disqualified o = true.
    Proof.
      intros Hn (_ & _ & _ & _ & _ & E1 & E2 & E3). cbn in *. unfold ruled_out, disqualified. rewrite E1, E2, E3.
      destruct (sa_over o) as [[]|]; [| |].
      - split; [done|by left].
      - done.
      - rewrite orb_true_iff. split; [|by right]. intros [|[_ ?]]; done.
    Qed.

    Lemma loaded_hops e A B : loaded_hop p' e A B <-> exists a b, A = su_name a /\ B = su_name b /\
      hop (mp_world d) (fun i => (e <= ele_at (mp_world d) (Sad i))%Z) a b.
    Proof.
      pose proof (rl_saddles _ _ Hr) as Hs. split.
      - intros (k & s' & Hin & Hro & He & HA & HB).
        destruct (Forall2_in_r _ _ _ _ Hs Hin) as ([k0 s0] & Hin0 & E & Hk & Hl & _). cbn in E, Hk, Hl. subst k0.
        unfold p in Hin0. cbn in Hin0. apply named_in in Hin0 as (i & o & Hi & Ho & -> & ->).
        apply (loaded_summits i o s' A Hi Ho Hl) in HA as (a & -> & Ha).
        apply (loaded_summits i o s' B Hi Ho Hl) in HB as (b & -> & Hb).
        exists a, b. split; [done|]. split; [done|]. exists i. split_and!; try done.
        + cbn. rewrite Ho. destruct Hk as (Hat & _). by rewrite Hat in He.
        + exists o. split; [done|]. destruct (disqualified o) eqn:Ed; [|done]. destruct Hro.
          apply (kept_out o); [by apply (me_over Hm i)|done|done].
      - intros (a & b & -> & -> & i & He & Hnd & Ha & Hb). pose proof (me_listed Hm i a Hnd Ha) as Hi.
        destruct Hnd as (o & Ho & Hd).
        assert ((sa_name i, stored_saddle m sa_name ln_name rim_of o) ∈ pm_saddles p) as Hin by (unfold p; cbn; apply named_in; eauto 10).
        destruct (Forall2_in_l _ _ _ _ Hs Hin) as ([k s'] & Hin' & E & Hk & Hl & _). cbn in E, Hk, Hl. subst k.
        exists (sa_name i), s'. split; [done|]. split_and!.
        + rewrite (kept_out o); [by rewrite Hd|by apply (me_over Hm i)|done].
        + destruct Hk as (Hat & _). rewrite Hat. cbn in He. by rewrite Ho in He.
        + apply (loaded_summits i o s' _ Hi Ho Hl). eauto.
        + apply (loaded_summits i o s' _ Hi Ho Hl). eauto.
    Qed.

    Theorem loaded_graph e a b : loaded_joined p' e (su_name a) (su_name b) <->
      joined (mp_world d) (fun i => (e <= ele_at (mp_world d) (Sad i))%Z) a b.
    Proof.
      split.
      - intros H. remember (su_name a) as A eqn:EA. remember (su_name b) as B eqn:EB. revert a EA.
        induction H as [A|A C B Hac _ IH]; intros a ->.
        + apply (proj1 Hsu) in EB. subst. apply rtc_refl.
        + apply loaded_hops in Hac as (x & y & E & -> & Hh). apply (proj1 Hsu) in E. subst x.
          eapply rtc_l; [exact Hh|]. by apply IH.
      - intros H. induction H as [x|x y z Hxy _ IH]; [apply rtc_refl|]. eapply rtc_l; [|exact IH].
        apply loaded_hops. eauto.
    Qed.
  End graph.
End store.
