(** Saddles that detection names as each other's alternatives come from its
    container or from the links of a summit. *)
From Verif Require Import Base_model Graph_model Basin_model Graph_spec Basin_spec Graph_proof Basin_proof Search_proof Basin_facts.
Local Open Scope nat_scope.

Section alts.
  Context (m : datamap).

  (** Every saddle on the list [c] satisfies [L]. *)
  Definition within (L : nat -> Prop) (c : list node) : Prop := forall j, Sad j ∈ c -> L j.
  (** [L] holds for the saddles with links to summits in [w] that are not dead. *)
  Definition takes (L : nat -> Prop) (w : world) : Prop :=
    forall z j, Sad j ∈ feature_neighbors w z -> dead w (Sad j) = false -> L j.

  Definition lk (L : nat -> Prop) (st : bstate) : Prop := forall j, is_Some (bs_look st !! Sad j) -> L j.

  Lemma visit_within L w0 root feats0 dn z a st : takes L w0 -> a ∈ feature_neighbors w0 z ->
    sinv m (within L) w0 root feats0 dn st -> lk L st -> z ∈ dn ->
    match visit m root z a st with
    | Ok st' => sinv m (within L) w0 root feats0 dn st' /\ lk L st'
    | Err e => e = AttributeError
    end.
  Proof.
    intros HT Ha I HL Hz. assert (is_Some (bs_look st !! z)) as Hlz.
    { apply (si_seen _ _ _ _ _ _ _ I), elem_of_app. by left. }
    unfold visit. destruct (dead (bs_world st) a) eqn:Ed; [split; [by apply sinv_pop|done]|].
    destruct (bs_expl st !! a) as [pn|] eqn:Ee.
    2: { split; [by apply sinv_new|]. intros j Hj0. cbn in Hj0. apply lookup_insert_is_Some in Hj0 as [Hj|[_ Hj]]; [|by apply HL]. subst a.
         apply (HT z j Ha). destruct (si_mark _ _ _ _ _ _ _ I) as (B & A & M & _).
         destruct (dead w0 (Sad j)) eqn:E; [|done]. by rewrite (marked_dead _ _ _ _ _ _ M E) in Ed. }
    destruct (node_same m (bs_world st) a z); [done|].
    destruct (decide _); [done|].
    destruct (bs_look st !! z) as [p|] eqn:El; [|by destruct Hlz].
    destruct (si_tree _ _ _ _ _ _ _ I) as [d T].
    assert (is_Some (bs_look st !! p)) as Hp.
    { destruct (decide (z = root)) as [->|Hr].
      - rewrite (t_root _ _ _ T) in El. injection El as <-. eexists. apply T.
      - apply (t_up _ _ _ T z p El Hr). }
    destruct (chain_up_ok root _ d pn T (S (size (bs_look st))) p Hp) as (l & q & Hc & Hlq).
    { specialize (t_sz _ _ _ T p Hp). lia. }
    rewrite Hc. cbn [rbind fst snd].
    destruct (disqualify_and_label m (bs_world st) _) as [w'|e] eqn:Ew; cbn [rbind].
    - split; [|done]. eapply (sinv_cycle m (within L)); [done|by eexists|done|done| |done].
      intros j Hj. apply HL. apply elem_of_cons in Hj as [<-|Hj].
      { apply (si_expl _ _ _ _ _ _ _ I). by eexists. }
      apply elem_of_cons in Hj as [<-|Hj]; [by eexists|by apply Hlq].
    - apply label_err in Ew as [-> _]; [done|]. apply find_lowest_spec. done.
  Qed.

  Lemma search_within L w r features : takes L w -> L r -> dead w (Sad r) = false ->
    match search m (search_fuel w) (Sad r) (search_init w features (Sad r)) with
    | Ok st => bs_stack st = [] /\ exists dn, sinv m (within L) w (Sad r) features dn st /\ lk L st
    | Err e => e = AttributeError
    end.
  Proof.
    intros HT HL Hd. apply (search_inv m w (Sad r) (length (w_saddles w) + length (w_summits w))
      (fun dn st => sinv m (within L) w (Sad r) features dn st /\ lk L st)
      (fun dn z _ st => sinv m (within L) w (Sad r) features (dn ++ [z]) st /\ lk L st)
      (fun e => e = AttributeError)) with (dn := []).
    - intros dn st [I _]. by eapply sinv_len.
    - intros dn st z [I _]. by eapply sinv_nbrs.
    - intros dn st z stack [I H] Es Ez. split; [by apply sinv_dead|done].
    - intros dn st z stack [I H] Es _. split; [by eapply sinv_take|done].
    - intros dn z pre a post st [I H] El. apply visit_within; try done.
      + rewrite El. apply elem_of_app. right. by left.
      + apply elem_of_app. right. by left.
    - done.
    - split; [by apply sinv_init|]. intros j [x Hx]. cbn in Hx. apply lookup_singleton_Some in Hx as [[= <-] _]. done.
    - unfold search_fuel. cbn. lia.
  Qed.

  Lemma takes_marked L S B A w w' : marked S B A w w' -> takes L w -> takes L w'.
  Proof.
    intros M H z j. rewrite (neighbors_marked _ _ _ _ _ z M). intros Hj Hd. apply (H z j Hj).
    destruct (dead w (Sad j)) eqn:E; [|done]. by rewrite (marked_dead _ _ _ _ _ _ M E) in Hd.
  Qed.

  Definition alts_in (L : nat -> Prop) (w : world) : Prop :=
    forall i s j, w_saddles w !! i = Some s -> j ∈ sa_alts s -> L j.

  Lemma alts_marked L B A w w' : marked [] B A w w' -> alts_in L w ->
    (forall a, a ∈ A -> alternatives m (within L) w w' a) -> alts_in L w'.
  Proof.
    intros M H HA i s' j Hs' Hj. destruct (marked_back _ _ _ _ _ _ _ M Hs') as [s Hs].
    destruct (decide (i ∈ A)) as [Hi|Hi].
    - destruct (HA i Hi) as (c & low & x & s2 & HP & _ & _ & Hlow & _ & Hs2 & _ & Hp).
      assert (s2 = s') as -> by congruence. apply HP. apply (Hlow j). rewrite <-Hp. by right.
    - destruct (mk_saddle _ _ _ _ _ M _ _ Hs) as (s2 & Hs2 & _ & _ & _ & _ & _ & _ & _ & E).
      assert (s2 = s') as -> by congruence. rewrite (E Hi) in Hj. by eapply H.
  Qed.

  Lemma loop_within L fuel : forall w feats w', basin_loop m fuel w feats = Ok w' ->
    takes L w -> (forall r, r ∈ feats -> L r) -> alts_in L w -> alts_in L w'.
  Proof.
    induction fuel as [|fuel IH]; intros w feats w'; [done|]. cbn [basin_loop].
    destruct feats as [|r feats]; [by intros [= <-]|].
    destruct (dead w (Sad r)) eqn:Ed.
    { intros H HT HL. apply (IH _ _ _ H); [done|]. intros x Hx. apply HL. by right. }
    intros H HT HL Hal. pose proof (search_within L w r feats HT (HL r ltac:(by left)) Ed) as Hs.
    destruct (search _ _ _ _) as [st|e]; cbn [rbind] in H; [|done]. destruct Hs as [_ (dn & I & Hlk)].
    destruct (si_mark _ _ _ _ _ _ _ I) as (B & A & M & HB & HA & _).
    apply (IH _ _ _ H).
    - by eapply takes_marked.
    - assert (forall x, x ∈ drop_exempt (bs_look st) (bs_cyc st) (bs_feats st) -> L x) as G.
      { intros x Hx. apply HL. right. eapply elem_of_submseteq; [exact Hx|]. apply sublist_submseteq.
        etrans; [apply drop_exempt_sub|apply (si_feats _ _ _ _ _ _ _ I)]. }
      destruct (decide _); [done|]. intros x [->|Hx]%elem_of_cons; [apply HL; by left|by apply G].
    - eapply alts_marked; [done|done|]. intros a Ha. by apply HA.
  Qed.

  Theorem basin_within L fuel w saddles w' : disqualify_basin_saddles m fuel w saddles = Ok w' ->
    takes L w -> (forall r, r ∈ saddles -> L r) -> alts_in L w -> alts_in L w'.
  Proof.
    unfold disqualify_basin_saddles. set (fs := sort_ele w (dict_keys [] saddles)).
    destruct (features_spec w saddles) as [Hnd Hfs]. fold fs in Hnd, Hfs. intros H HT HL Hal.
    destruct (stub_spec m fs w Hnd) as (S & M1 & HS).
    apply (loop_within L _ _ _ _ H).
    - by eapply takes_marked.
    - intros r Hr. apply HL, Hfs. by apply elem_of_list_In, in_rev, elem_of_list_In.
    - intros i s' j Hs' Hj. destruct (marked_back _ _ _ _ _ _ _ M1 Hs') as [s Hs].
      destruct (mk_saddle _ _ _ _ _ M1 _ _ Hs) as (s2 & Hs2 & _ & _ & _ & _ & _ & _ & _ & E).
      assert (s2 = s') as -> by congruence. rewrite E in Hj by apply not_elem_of_nil. by eapply Hal.
  Qed.
End alts.
