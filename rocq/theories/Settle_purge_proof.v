(** Purging and detecting a second time. *)
From Verif Require Import Base_model Graph_model Graph_spec Basin_model Run_model Basin_spec Graph_proof Basin_proof Basin_facts
  Purge_proof Cull_spec Cull_proof Settle_proof.
From Coq Require Import ZifyBool.
Local Open Scope nat_scope.

Section purge_calm.
  Variables (m : datamap) (a b c : bool) (d : dmap).
  Local Notation d' := (purge_saddles m a b c d).
  Local Notation w := (mp_world d).
  Local Notation w' := (mp_world d').
  Local Notation R := (filter (fun i => goes a b c w i = true) (mp_saddles d)).

  (** A purged map without anything left to detect has nothing to detect. *)
  Lemma purge_calm : calm m w (mp_saddles d) -> calm m w' (mp_saddles d').
  Proof.
    intros [G Hno Hc H2]. pose proof (purge_deleted m a b c d) as D. pose proof (purge_disq a b c d Hno) as HR.
    destruct (purge_network m a b c d Hno) as (_ & _ & _ & Hstay). destruct (purge_spec m a b c d) as (_ & _ & E3 & _).
    pose proof (culled_saddle R w w' D HR) as Csa. pose proof (culled_summit R w w' D) as Csu. pose proof (culled_link R w w' D) as Cln.
    assert (forall i s', w_saddles w' !! i = Some s' -> exists s, w_saddles w !! i = Some s /\ sa_feat s' = sa_feat s /\
      sa_links s' = sa_links s /\ disqualified s' = disqualified s) as Bsa.
    { intros i s' Hs'. pose proof (Csa i) as H. rewrite Hs' in H. destruct (w_saddles w !! i) as [s|]; [|done]. by exists s. }
    assert (forall i s', w_summits w' !! i = Some s' -> exists s, w_summits w !! i = Some s /\ su_feat s' = su_feat s /\
      su_links s' = su_links s) as Bsu.
    { intros i s' Hs'. pose proof (Csu i) as H. rewrite Hs' in H. destruct (w_summits w !! i) as [s|]; [|done]. by exists s. }
    assert (forall k l, w_links w !! k = Some l -> exists l', w_links w' !! k = Some l' /\ ln_summit l' = ln_summit l /\
      ln_saddle l' = ln_saddle l) as Fln.
    { intros k l Hl. pose proof (Cln k) as H. rewrite Hl in H. destruct (w_links w' !! k) as [l'|]; [|done]. by exists l'. }
    assert (forall n n', open_edge w' n n' -> open_edge w n n') as Hoe.
    { intros n n' (K1 & K2 & K3). split_and!; [by apply (culled_open R w w' D HR)..|by apply (culled_edge R w w' D HR)]. }
    split.
    - destruct G as [G1 G2 G3 G4 G5 G6 G7]. split.
      + intros i Hi%(culled_open R w w' D HR) Hn. rewrite (culled_summits_of R w w' D HR) in Hn.
        destruct (Hstay i) as [? _]; [by apply G1| |done]. destruct Hi as (s & Hs & Hd & _). by exists s.
      + intros i Hi%(culled_open R w w' D HR). rewrite (culled_summits_of R w w' D HR). by apply G2.
      + intros i s' k Hi%(culled_open R w w' D HR) Hs' Hk. destruct (Bsa i s' Hs') as (s & Hs & _ & El & _). rewrite El in Hk.
        destruct (G3 i s k Hi Hs Hk) as (l & Hl & E1 & E2). destruct (Fln k l Hl) as (l' & Hl' & F1 & F2). exists l'. split; [done|].
        split; [congruence|]. rewrite F1. intros u' Hu' He. destruct (Bsu _ _ Hu') as (u & Hu & K1 & K2). rewrite K2. apply (E2 u Hu). congruence.
      + intros y u' k Hy%(culled_open R w w' D HR) Hu' Hk. destruct (Bsu _ _ Hu') as (u & Hu & _ & El). rewrite El in Hk.
        destruct (G4 y u k Hy Hu Hk) as (l & Hl & E1 & E2). destruct (Fln k l Hl) as (l' & Hl' & F1 & F2). exists l'. split; [done|].
        split; [congruence|]. rewrite F2. intros s' Hs' Hd He. destruct (Bsa _ s' Hs') as (s & Hs & K1 & K2 & K3). rewrite K2.
        apply (E2 s Hs); congruence.
      + intros y u' Hy%(culled_open R w w' D HR) Hu'. destruct (Bsu _ _ Hu') as (u & Hu & _ & ->). by apply (G5 y).
      + intros i y Hi. rewrite !(culled_ele R w w' D HR). by apply G6, Hoe.
      + intros x y. rewrite (culled_summit_same R w w' D). apply G7.
    - intros i s' Hs' Ho. destruct (deleted_back _ _ _ _ _ D Hs') as [s Hs]. destruct D as (_ & _ & _ & D1 & _).
      destruct (D1 i s Hs) as (x & Hx & _ & _ & _ & _ & K1 & K2 & _). assert (x = s') as -> by congruence.
      destruct (decide (i ∈ R)) as [Hi|Hi]; [rewrite (K1 Hi) in Ho; done|]. rewrite (K2 Hi) in Ho. by apply (Hno i s).
    - intros ch (K1 & K2 & K3). apply (Hc ch). split; [done|]. split; [done|].
      intros i x y Hx Hy. apply Hoe. by apply (K3 i).
    - intros i Hi Hd H1. rewrite E3 in Hi. apply elem_of_list_filter in Hi as [_ Hi].
      apply (H2 i Hi); [by apply (culled_not_disq R w w' D HR)|]. intros x y Hx Hy. rewrite <-(culled_summit_same R w w' D).
      apply H1; by rewrite (culled_summits_of R w w' D HR).
  Qed.
End purge_calm.

(** ** Purging twice *)

Definition same_alts (w w' : world) : Prop := forall j, alts_of w' j = alts_of w j.
Lemma same_alts_upd i f w : (forall o, sa_alts (f o) = sa_alts o) -> same_alts w (upd_saddle i f w).
Proof.
  intros Hf j. unfold alts_of. rewrite upd_saddle_lookup. case_decide; [|done]. destruct (w_saddles w !! j) as [o|]; [|done]. cbn. by rewrite Hf.
Qed.
Lemma same_alts_trans w1 w2 w3 : same_alts w1 w2 -> same_alts w2 w3 -> same_alts w1 w3.
Proof. intros H1 H2 j. by rewrite H2, H1. Qed.
Lemma same_alts_fold {A} (f : world -> A -> world) l : (forall w x, same_alts w (f w x)) -> forall w, same_alts w (foldl f w l).
Proof. intros Hf. induction l as [|x l IH]; intros w; [done|]. cbn. eapply same_alts_trans; [apply Hf|apply IH]. Qed.
Lemma emancipate_alts m i w : same_alts w (emancipate m i w).
Proof.
  unfold emancipate. destruct (w_saddles w !! i) as [s|]; [|done]. destruct (sa_parent s) as [p|]; [|done].
  eapply same_alts_trans; by apply same_alts_upd.
Qed.
Lemma disqualify_alts x y i w : same_alts w (disqualify_self_and_linkers x y i w).
Proof.
  unfold disqualify_self_and_linkers. set (w3 := if x || y then _ else _).
  assert (same_alts w w3) as H.
  { unfold w3. destruct x, y; cbn [orb]; try by apply same_alts_upd. eapply same_alts_trans; by apply same_alts_upd. }
  destruct (w_saddles w3 !! i) as [o|]; [|done]. eapply same_alts_trans; [exact H|]. by apply same_alts_fold.
Qed.
Lemma soft_delete_alts m i w : alts_of w i = [] -> same_alts w (soft_delete m i w).
Proof.
  intros H. unfold soft_delete. destruct (w_saddles w !! i) as [s|] eqn:Hs; [|done].
  set (w1 := if decide _ then w else _). assert (same_alts w w1) as H1.
  { unfold w1. case_decide; [done|]. unfold disown_children. rewrite Hs. eapply same_alts_trans; [|by apply same_alts_upd].
    apply same_alts_fold. intros w2 x. apply emancipate_alts. }
  pose proof (same_alts_trans _ _ _ H1 (emancipate_alts m i w1)) as H2. set (w2 := emancipate m i w1) in *. clearbody w2.
  destruct (w_saddles w2 !! i) as [s2|] eqn:Hs2; [|done].
  assert (sa_alts s2 = []) as E by (pose proof (H2 i) as K; rewrite H in K; unfold alts_of in K; by rewrite Hs2 in K).
  rewrite E. cbn [foldl]. eapply same_alts_trans; [|apply disqualify_alts]. eapply same_alts_trans; [exact H2|].
  intros j. unfold alts_of. rewrite upd_saddle_lookup. case_decide as Hj; [|done]. subst j. rewrite Hs2. cbn. by rewrite E.
Qed.
Lemma remove_alts m i w : same_alts w (remove_from_domains m i w).
Proof.
  unfold remove_from_domains. destruct (w_saddles w !! i) as [s|]; [|done]. apply same_alts_fold. intros w1 k. by destruct (w_links w1 !! k).
Qed.

Section purge_twice.
  Variables (m : datamap) (a b c : bool) (d : dmap).
  Local Notation d' := (purge_saddles m a b c d).
  Local Notation w := (mp_world d).
  Local Notation w' := (mp_world d').

  Lemma purge_alts : (forall i, i ∈ mp_saddles d -> goes a b c w i = true -> alts_of w i = []) -> same_alts w w'.
  Proof.
    intros H. unfold purge_saddles. rewrite purge_split_spec. cbn [mp_world].
    assert (forall i, i ∈ filter (fun i => goes a b c w i = true) (mp_saddles d) -> alts_of w i = []) as H'.
    { intros i [Hg Hi]%elem_of_list_filter. by apply H. }
    clear H. revert H'. generalize (filter (fun i => goes a b c w i = true) (mp_saddles d)). intros rm. generalize w.
    induction rm as [|i rm IH]; intros w0 H; [done|]. cbn [foldl].
    assert (same_alts w0 (remove_from_domains m i (soft_delete m i w0))) as K.
    { eapply same_alts_trans; [|apply remove_alts]. apply soft_delete_alts, H. by left. }
    eapply same_alts_trans; [exact K|]. apply IH. intros j Hj. rewrite (K j). apply H. by right.
  Qed.

  (** If nothing that is left is to be purged, a second purge changes nothing. *)
  Lemma purge_fixed : (forall i, i ∈ mp_saddles d' -> goes a b c w' i = false) -> purge_saddles m a b c d' = d'.
  Proof.
    intros H. destruct (purge_spec m a b c d) as (E1 & E2 & E3 & E4 & D & _).
    assert (filter (fun i => goes a b c w' i = true) (mp_saddles d') = []) as K1.
    { apply nothing_in. intros i [Hg Hi]%elem_of_list_filter. by rewrite (H i Hi) in Hg. }
    assert (filter (fun i => stays a b c w' i = true) (mp_saddles d') = mp_saddles d') as K2.
    { assert (forall i, i ∈ mp_saddles d' -> stays a b c w' i = true) as Hs.
      { intros i Hi. pose proof (H i Hi) as Hg. rewrite E3 in Hi. apply elem_of_list_filter in Hi as [Hs Hi]. unfold stays, goes in *.
        destruct (w_saddles w !! i) as [s|] eqn:Es; [|done]. destruct D as (_ & _ & _ & D & _). destruct (D i s Es) as (s' & Es' & _).
        rewrite Es' in *. apply bool_decide_eq_true. by apply bool_decide_eq_false in Hg. }
      revert Hs. generalize (mp_saddles d'). induction l as [|x l IH]; intros Hs; [done|].
      rewrite filter_cons_True by (apply Hs; by left). f_equal. apply IH. intros i Hi. apply Hs. by right. }
    assert (concat (map (links_at w') (mp_saddles d')) = mp_linkers d') as K3.
    { rewrite E4. f_equal. apply map_ext. intros i. unfold links_at. destruct (w_saddles w !! i) as [s|] eqn:Es.
      - destruct D as (_ & _ & _ & D & _). destruct (D i s Es) as (s' & -> & _ & El & _). exact El.
      - destruct (w_saddles w' !! i) as [s'|] eqn:Es'; [|done]. destruct (deleted_back _ _ _ _ _ D Es'). congruence. }
    unfold purge_saddles at 1. rewrite purge_split_spec, K1, K2, K3. cbn [foldl]. by destruct d'.
  Qed.

  Lemma purge_twice : c = true \/ b = false \/ (forall i, i ∈ mp_saddles d -> goes a b c w i = true -> alts_of w i = []) ->
    purge_saddles m a b c d' = d'.
  Proof.
    intros Hcase. apply purge_fixed. intros i Hi. destruct (purge_spec m a b c d) as (_ & _ & E3 & _ & D & _).
    rewrite E3 in Hi. apply elem_of_list_filter in Hi as [Hs Hi]. unfold stays in Hs. destruct (w_saddles w !! i) as [s|] eqn:Es; [|done].
    apply bool_decide_eq_true in Hs. destruct D as (_ & _ & _ & D & _).
    destruct (D i s Es) as (s' & Es' & _ & _ & F1 & F2 & _). unfold goes. rewrite Es'. apply bool_decide_eq_false. intros Hp. apply Hs.
    unfold purged in *. rewrite F1, F2 in Hp. destruct Hp as [?|[(H1 & H2 & H3)|?]]; [by left| |by right; right].
    destruct Hcase as [->|[->|Hal]]; [by left|done|]. right. left. split; [done|]. split; [done|].
    pose proof (purge_alts Hal i) as K. unfold alts_of in K. rewrite Es, Es' in K. cbn in K. congruence.
  Qed.
End purge_twice.
