(** What a purged map still refers to. *)
From Verif Require Import Base_model Graph_model Graph_spec Basin_model Basin_spec Store_spec Graph_proof Cull_spec Cull_proof
  Basin_proof Keep_walk_proof Keep_alts_proof Store_proof Purge_proof.
From Coq Require Import ZifyBool.
Local Open Scope nat_scope.

(** Who is listed as a child names that parent. *)
Definition kids (w : world) : Prop := forall p x, x ∈ children_of w p -> parent_of w x = Some p.
(** The same relations between parents and children. *)
Definition same_kids (w w' : world) : Prop := forall i, parent_of w' i = parent_of w i /\ children_of w' i = children_of w i.
Lemma same_kids_refl w : same_kids w w.
Proof. done. Qed.
Lemma same_kids_trans w1 w2 w3 : same_kids w1 w2 -> same_kids w2 w3 -> same_kids w1 w3.
Proof. intros A B i. destruct (A i), (B i). split; congruence. Qed.
Lemma same_kids_upd i f w : (forall o, sa_parent (f o) = sa_parent o /\ sa_children (f o) = sa_children o) -> same_kids w (upd_saddle i f w).
Proof.
  intros Hf j. unfold parent_of, children_of. rewrite upd_saddle_lookup. case_decide; [|done]. destruct (w_saddles w !! j) as [o|]; [|done].
  cbn. destruct (Hf o). auto.
Qed.
Lemma same_kids_fold {A} (f : world -> A -> world) l : (forall w a, same_kids w (f w a)) -> forall w, same_kids w (foldl f w l).
Proof.
  intros Hf. induction l as [|a l IH]; intros w; [apply same_kids_refl|]. cbn. by eapply same_kids_trans.
Qed.
Lemma kids_same w w' : same_kids w w' -> kids w -> kids w'.
Proof. intros H K p x. destruct (H p) as [_ ->], (H x) as [-> _]. apply K. Qed.
Lemma disqualify_kids b s i w : same_kids w (disqualify_self_and_linkers b s i w).
Proof.
  unfold disqualify_self_and_linkers. set (w3 := if b || s then _ else _).
  assert (same_kids w w3) as H.
  { unfold w3. destruct b, s; cbn [orb].
    - eapply same_kids_trans; apply same_kids_upd; done.
    - by apply same_kids_upd.
    - by apply same_kids_upd.
    - by apply same_kids_upd. }
  destruct (w_saddles w3 !! i) as [o|]; [|done]. eapply same_kids_trans; [exact H|]. by apply same_kids_fold.
Qed.

Section kids.
  Context (m : datamap).

  Lemma emancipate_kids i w : kids w -> kids (emancipate m i w).
  Proof.
    intros K. destruct (w_saddles w !! i) as [s|] eqn:Hs; [|unfold emancipate; by rewrite Hs].
    destruct (emancipate_spec m i w s Hs) as [F E]. intros p x Hx. unfold children_of in Hx.
    destruct (w_saddles (emancipate m i w) !! p) as [b|] eqn:Hb; [|by apply elem_of_nil in Hx].
    destruct (fam_back w _ p b F Hb) as (a & Ha & _). destruct (E p a Ha) as (b' & Hb' & _ & _ & _ & Hc).
    assert (b' = b) as -> by congruence. cbn in Hx. destruct (proj1 (Hc x) Hx) as [Hx' Hne].
    assert (parent_of w x = Some p) as Hp by (apply K; unfold children_of; by rewrite Ha).
    unfold parent_of in Hp. destruct (w_saddles w !! x) as [o|] eqn:Ho; [|done]. cbn in Hp.
    destruct (E x o Ho) as (o' & Ho' & _ & Hpar & _). unfold parent_of. rewrite Ho'. cbn. rewrite Hpar. case_decide as Hxi; [|done].
    subst x. assert (o = s) as -> by congruence. destruct (Hne Hp). by exists s, s.
  Qed.
  Lemma disown_kids i w : kids w -> kids (disown_children m i w).
  Proof.
    intros K. unfold disown_children. destruct (w_saddles w !! i) as [s|] eqn:Hs; [|done].
    assert (forall cs w, kids w -> kids (foldl (fun w c => emancipate m c w) w cs)) as G.
    { induction cs as [|c cs IH]; intros w1 K1; [done|]. cbn. by apply IH, emancipate_kids. }
    specialize (G (sa_children s) w K). set (w1 := foldl _ w _) in *. clearbody w1. intros p x.
    unfold children_of, parent_of. rewrite !upd_saddle_lookup. intros Hx.
    assert (x ∈ children_of w1 p) as Hx1.
    { unfold children_of. case_decide; [|done]. by destruct (w_saddles w1 !! p); apply elem_of_nil in Hx. }
    apply G in Hx1. unfold parent_of in Hx1. clear Hx. destruct (decide (x = i)); [|done]. by destruct (w_saddles w1 !! x).
  Qed.
  Lemma soft_delete_kids i w : kids w -> kids (soft_delete m i w).
  Proof.
    intros K. unfold soft_delete. destruct (w_saddles w !! i) as [s|]; [|done].
    set (w1 := if decide _ then w else _). assert (kids w1) as K1 by (unfold w1; case_decide; [done|by apply disown_kids]).
    apply (emancipate_kids i) in K1. set (w2 := emancipate m i w1) in *. clearbody w2.
    destruct (w_saddles w2 !! i) as [s2|]; [|done]. apply (kids_same w2); [|done].
    eapply same_kids_trans; [|apply disqualify_kids]. eapply same_kids_trans; [|by apply same_kids_upd].
    apply same_kids_fold. intros w3 b. by apply same_kids_upd.
  Qed.
  Lemma remove_kids i w : same_kids w (remove_from_domains m i w).
  Proof.
    unfold remove_from_domains. destruct (w_saddles w !! i) as [s|]; [|done]. apply same_kids_fold.
    intros w1 k. by destruct (w_links w1 !! k).
  Qed.
  Lemma purge_kids a b c d : kids (mp_world d) -> kids (mp_world (purge_saddles m a b c d)).
  Proof.
    intros K. unfold purge_saddles. destruct (purge_split a b c (mp_world d) (mp_saddles d)) as [[rm keep] links]. cbn [mp_world].
    revert K. generalize (mp_world d). induction rm as [|i rm IH]; intros w K; [done|]. cbn. apply IH.
    eapply kids_same; [apply remove_kids|]. by apply soft_delete_kids.
  Qed.
End kids.

Section keep.
  Context (m : datamap) (a b c : bool) (d : dmap).
  Local Notation w := (mp_world d).
  Local Notation d' := (purge_saddles m a b c d).
  Local Notation w' := (mp_world d').

  (** What the map must be like: the links of saddles are their own, once; a domain lists only
      saddles linked to its summit; children name their parents; parents and
      alternatives stay. *)
  Record prunable : Prop := {
    pr_own : forall i o k, w_saddles w !! i = Some o -> k ∈ sa_links o -> exists l, w_links w !! k = Some l /\ ln_saddle l = i /\ k ∈ mp_linkers d;
    pr_once : forall i o, w_saddles w !! i = Some o -> NoDup (sa_links o);
    pr_domain : forall y j, y ∈ mp_summits d -> j ∈ domain_saddles w y -> y ∈ summits_of w j;
    pr_kids : kids w;
    pr_parent : forall i j, parent_of w i = Some j -> goes a b c w j = false;
    pr_alts : forall i j, i ∈ mp_saddles d -> j ∈ alts_of w i -> goes a b c w j = false }.

  Lemma stays_kept i : i ∈ mp_saddles d -> is_Some (w_saddles w !! i) -> goes a b c w i = false -> i ∈ mp_saddles d'.
  Proof.
    intros Hi [o Ho] Hg. destruct (purge_spec m a b c d) as (_ & _ & E & _). rewrite E. apply elem_of_list_filter.
    split; [|done]. unfold goes, stays in *. rewrite Ho in *. apply bool_decide_eq_true. by apply bool_decide_eq_false in Hg.
  Qed.

  Lemma keep_whole : whole d -> prunable -> whole d'.
  Proof.
    intros H P. destruct (purge_spec m a b c d) as (E1 & E2 & E3 & E4 & HD & Hrm & _).
    set (R := filter (fun i => goes a b c w i = true) (mp_saddles d)) in *.
    destruct HD as (L1 & L2 & L3 & D1 & D2 & D3).
    assert (forall i o', w_saddles w' !! i = Some o' -> exists o, w_saddles w !! i = Some o) as Hback.
    { intros i o' Ho'. apply lookup_lt_is_Some. rewrite <-L1. by eapply lookup_lt_Some. }
    assert (forall i, i ∈ mp_saddles d' -> i ∈ mp_saddles d) as Hsub by (intros i; rewrite E3; by intros [_ ?]%elem_of_list_filter).
    split.
    - rewrite E1. split; [apply (wh_summits d H)|]. intros x Hx. destruct (proj2 (wh_summits d H) x Hx) as [u Hu].
      destruct (D2 x u Hu) as (u' & Hu' & _). by exists u'.
    - split; [rewrite E3; apply NoDup_filter, (wh_saddles d H)|]. intros i Hi.
      destruct (proj2 (wh_saddles d H) i) as [o Ho].
      { rewrite E2 in Hi. rewrite elem_of_app in *. destruct Hi; auto. }
      destruct (D1 i o Ho) as (o' & Ho' & _). by exists o'.
    - intros i Hi. rewrite E2. by apply (wh_apart d H), Hsub.
    - assert (forall i, i ∈ mp_saddles d' -> forall k, k ∈ links_at w i -> exists l, w_links w !! k = Some l /\ ln_saddle l = i /\ k ∈ mp_linkers d) as Hat.
      { intros i Hi k Hk. unfold links_at in Hk. destruct (w_saddles w !! i) as [o|] eqn:Ho; [|by apply elem_of_nil in Hk].
        by apply (pr_own P i o k). }
      split.
      + rewrite E4. assert (NoDup (mp_saddles d')) as Hnd by (rewrite E3; apply NoDup_filter, (wh_saddles d H)).
        revert Hat Hnd. generalize (mp_saddles d'). induction l as [|i l IH]; intros Hat Hnd; [constructor|].
        cbn. apply NoDup_cons in Hnd as [Hi Hnd]. apply NoDup_app. split_and!.
        * unfold links_at. destruct (w_saddles w !! i) as [o|] eqn:Ho; [by apply (pr_once P i o)|constructor].
        * intros k Hk Hk'. destruct (Hat i ltac:(by left) k Hk) as (x & Hx & Ex & _).
          apply elem_of_list_In, in_concat in Hk' as (ks & Hks & Hkin). apply elem_of_list_In, elem_of_list_fmap in Hks as (j & -> & Hj).
          apply elem_of_list_In in Hkin. destruct (Hat j ltac:(by right) k Hkin) as (y & Hy & Ey & _).
          assert (x = y) as -> by congruence. destruct Hi. by rewrite <-Ex, Ey.
        * apply IH; [|done]. intros j Hj. apply Hat. by right.
      + intros k Hk. rewrite E4 in Hk. apply elem_of_list_In, in_concat in Hk as (ks & Hks & Hkin).
        apply elem_of_list_In, elem_of_list_fmap in Hks as (j & -> & Hj). apply elem_of_list_In in Hkin.
        destruct (Hat j Hj k Hkin) as (l & Hl & El & Hin). destruct (D3 k l Hl) as (l' & Hl' & F1 & F2 & _).
        exists l'. split; [done|]. rewrite F1, F2, El, E1. destruct (proj2 (wh_links d H) k Hin) as (l2 & Hl2 & G1 & _).
        assert (l2 = l) as -> by congruence. split; [done|]. apply elem_of_app. by left.
    - intros i o' j Hi Ho' Hj. destruct (Hback i o' Ho') as [o Ho]. destruct (D1 i o Ho) as (o2 & Ho2 & _ & _ & _ & _ & _ & _ & S1 & S2 & S3).
      assert (o2 = o') as -> by congruence.
      assert (j ∈ mp_saddles d) as Hjd.
      { apply (wh_family d H i o j (Hsub i Hi) Ho). destruct Hj as [Hj|[Hj|Hj]].
        - left. eapply elem_of_submseteq; [exact Hj|by apply sublist_submseteq].
        - right. left. destruct S3; congruence.
        - right. right. eapply elem_of_submseteq; [exact Hj|by apply sublist_submseteq]. }
      apply stays_kept; [done|apply (wh_saddles d H), elem_of_app; by left|].
      destruct Hj as [Hj|[Hj|Hj]].
      + destruct (goes a b c w j) eqn:Eg; [|done]. exfalso.
        assert (parent_of w' j = Some i) as Hp.
        { apply (purge_kids m a b c d (pr_kids P)). unfold children_of. by rewrite Ho'. }
        destruct (Hrm j Hjd Eg) as (s & Hs & Hn & _). unfold parent_of in Hp. rewrite Hs in Hp. cbn in Hp. congruence.
      + apply (pr_parent P i). unfold parent_of. rewrite Ho. cbn. destruct S3; congruence.
      + apply (pr_alts P i); [by apply Hsub|]. unfold alts_of. rewrite Ho. cbn. eapply elem_of_submseteq; [exact Hj|by apply sublist_submseteq].
    - intros y j Hy Hj. rewrite E1 in Hy. destruct (purge_domain m a b c d y) as (keep & Ek & Hk).
      rewrite Ek in Hj. apply elem_of_list_filter in Hj as [Hkj Hj]. pose proof (wh_domains d H y j Hy Hj) as Hin.
      rewrite E2. apply elem_of_app in Hin as [Hin|Hin]; apply elem_of_app; [left|by right].
      assert (is_Some (w_saddles w !! j)) as Hex by (apply (wh_saddles d H), elem_of_app; by left).
      apply stays_kept; [done|done|]. destruct (goes a b c w j) eqn:Eg; [|done]. exfalso. apply Hk in Hkj. destruct Hkj.
      exists j. split_and!; try done; [by apply (pr_domain P)|]. destruct Hex as [o Ho]. by exists o, o.
  Qed.

  Lemma keep_meshed : meshed m d -> prunable -> meshed m d'.
  Proof.
    intros H P. destruct (purge_spec m a b c d) as (E1 & E2 & E3 & E4 & HD & Hrm & _).
    pose proof (purge_network m a b c d (me_over m d H)) as (_ & _ & _ & Hnet).
    pose proof (purge_deleted m a b c d) as HD'. pose proof (purge_disq a b c d (me_over m d H)) as Hdq.
    split.
    - intros x y Hxy. apply (me_apart m d H). by rewrite (culled_summit_same _ _ _ HD') in Hxy.
    - intros i o' k Hi Ho' Hk. destruct (deleted_back _ _ _ _ _ HD Ho') as [o Ho].
      destruct HD as (_ & _ & _ & D1 & _ & D3). destruct (D1 i o Ho) as (o2 & Ho2 & _ & El & _). assert (o2 = o') as -> by congruence.
      rewrite El in Hk. destruct (pr_own P i o k Ho Hk) as (l & Hl & El' & _). destruct (D3 k l Hl) as (l' & Hl' & _ & F & _).
      exists l'. split; [done|]. split; [congruence|]. rewrite E4. apply elem_of_list_In, in_concat. exists (links_at w i).
      split; [|apply elem_of_list_In; unfold links_at; by rewrite Ho]. apply elem_of_list_In, elem_of_list_fmap. by exists i.
    - intros k l' Hk Hl'. rewrite E4 in Hk. apply elem_of_list_In, in_concat in Hk as (ks & Hks & Hkin).
      apply elem_of_list_In, elem_of_list_fmap in Hks as (i & -> & Hi). apply elem_of_list_In in Hkin. unfold links_at in Hkin.
      destruct (w_saddles w !! i) as [o|] eqn:Ho; [|by apply elem_of_nil in Hkin]. cbn in Hkin.
      destruct (pr_own P i o k Ho Hkin) as (l & Hl & El & _). destruct HD as (_ & _ & _ & D1 & _ & D3).
      destruct (D3 k l Hl) as (l2 & Hl2 & _ & F & _). assert (l2 = l') as -> by congruence.
      destruct (D1 i o Ho) as (o' & Ho' & _ & El' & _). exists o', k, l'. rewrite F, El, El'. done.
    - intros i x Hnd Hx. apply Hnet.
      + apply (me_listed m d H i x); [by apply (culled_not_disq _ _ _ HD' Hdq)|]. by rewrite (culled_summits_of _ _ _ HD') in Hx.
      + by apply (culled_not_disq _ _ _ HD' Hdq).
    - intros i o' Ho'. destruct (deleted_back _ _ _ _ _ HD Ho') as [o Ho]. destruct HD as (_ & _ & _ & D1 & _).
      destruct (D1 i o Ho) as (o2 & Ho2 & _ & _ & _ & _ & O1 & O2 & _). assert (o2 = o') as -> by congruence.
      destruct (decide (i ∈ filter (fun i => goes a b c w i = true) (mp_saddles d))) as [Hi|Hi].
      + by rewrite O1.
      + rewrite O2 by done. by apply (me_over m d H i).
  Qed.
End keep.
