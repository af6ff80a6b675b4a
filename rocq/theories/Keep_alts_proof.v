(** Saddles that detection names as alternatives have alternatives themselves. *)
From Verif Require Import Base_model Graph_model Basin_model Graph_spec Basin_spec Graph_proof Basin_proof Search_proof Basin_facts.
Local Open Scope nat_scope.

Section full.
  Context (m : datamap).

  (** Whoever is named has alternatives. *)
  Definition full (w : world) : Prop := forall i j, j ∈ alts_of w i -> alts_of w j <> [].

  Lemma marked_alts S B A w w' j : marked S B A w w' -> j ∉ A -> alts_of w' j = alts_of w j.
  Proof.
    intros M Hj. unfold alts_of. destruct (w_saddles w !! j) as [a|] eqn:Ha.
    - destruct (mk_saddle _ _ _ _ _ M _ _ Ha) as (b & Hb & _ & _ & _ & _ & _ & _ & _ & E). rewrite Hb. cbn. by apply E.
    - destruct (w_saddles w' !! j) as [b|] eqn:Hb; [|done]. destruct (marked_back _ _ _ _ _ _ _ M Hb). congruence.
  Qed.

  Lemma label_full w lowest w' : disqualify_and_label m w lowest = Ok w' ->
    (forall i, Sad i ∈ lowest -> is_Some (w_saddles w !! i)) -> full w -> full w'.
  Proof.
    intros H Hex F. destruct (label_spec m w lowest w' H Hex) as (i & ids & -> & M & Hal).
    destruct (decide (ids = [])) as [->|Hn].
    { intros x y. rewrite !(marked_alts _ _ _ _ _ _ M) by apply not_elem_of_nil. apply F. }
    specialize (Hal Hn).
    assert (forall j, j ∈ i :: ids -> exists x s, w_saddles w' !! j = Some s /\ x :: sa_alts s ≡ₚ i :: ids) as Hal'.
    { intros j Hj. destruct (Hex j) as [s Hs]; [apply elem_of_list_fmap; by exists j|].
      destruct (mk_saddle _ _ _ _ _ M _ _ Hs) as (s' & Hs' & _). destruct (Hal j s' Hj Hs') as (x & _ & Hp). by exists x, s'. }
    assert (forall j, j ∈ i :: ids -> alts_of w' j <> []) as Hne.
    { intros j Hj. destruct (Hal' j Hj) as (x & s & Hs & Hp). unfold alts_of. rewrite Hs. cbn. intros E. rewrite E in Hp.
      apply Permutation_length in Hp. destruct ids; [done|]. cbn in Hp. lia. }
    intros x y Hy. destruct (decide (y ∈ i :: ids)) as [Hin|Hin]; [by apply Hne|].
    rewrite (marked_alts _ _ _ _ _ _ M) by done. destruct (decide (x ∈ i :: ids)) as [Hx|Hx].
    - destruct Hin. destruct (Hal' x Hx) as (z & s & Hs & Hp). rewrite <-Hp. right. unfold alts_of in Hy. by rewrite Hs in Hy.
    - rewrite (marked_alts _ _ _ _ _ _ M) in Hy by done. by eapply F.
  Qed.

  Lemma marked_exists S B A w w' i : marked S B A w w' -> dead w (Sad i) = false -> is_Some (w_saddles w' !! i).
  Proof.
    intros M H. cbn in H. destruct (w_saddles w !! i) as [s|] eqn:E; [|done].
    destruct (mk_saddle _ _ _ _ _ M _ _ E) as (b & Hb & _). by exists b.
  Qed.

  Let any (c : list node) : Prop := True.

  Lemma visit_full w0 root feats0 dn z a st : sinv m any w0 root feats0 dn st -> full (bs_world st) -> z ∈ dn ->
    match visit m root z a st with
    | Ok st' => sinv m any w0 root feats0 dn st' /\ full (bs_world st')
    | Err e => e = AttributeError
    end.
  Proof.
    intros I HF Hz. assert (is_Some (bs_look st !! z)) as Hlz.
    { apply (si_seen _ _ _ _ _ _ _ I), elem_of_app. by left. }
    unfold visit. destruct (dead (bs_world st) a) eqn:Ed; [split; [by apply sinv_pop|done]|].
    destruct (bs_expl st !! a) as [pn|] eqn:Ee; [|split; [by apply sinv_new|done]].
    destruct (node_same m (bs_world st) a z); [done|].
    destruct (decide _); [done|].
    destruct (bs_look st !! z) as [p|] eqn:El; [|by destruct Hlz].
    destruct (si_tree _ _ _ _ _ _ _ I) as [d T].
    assert (is_Some (bs_look st !! p)) as Hp.
    { destruct (decide (z = root)) as [->|Hr].
      - rewrite (t_root _ _ _ T) in El. injection El as <-. eexists. apply T.
      - apply (t_up _ _ _ T z p El Hr). }
    destruct (chain_up_ok root _ d pn T (S (size (bs_look st))) p Hp) as (l & q & Hc & Hlq).
    { specialize (t_sz _ _ _ T p Hp). lia. }
    rewrite Hc. cbn [rbind fst snd].
    destruct (disqualify_and_label m (bs_world st) _) as [w'|e] eqn:Ew; cbn [rbind].
    - split; [by eapply (sinv_cycle m any); [done|by eexists|done|done|done|done]|]. cbn.
      apply (label_full _ _ _ Ew); [|done]. intros i Hi.
      destruct (si_mark _ _ _ _ _ _ _ I) as (B & A & M & _). apply (marked_exists _ _ _ _ _ _ M).
      apply (si_open _ _ _ _ _ _ _ I). apply (find_lowest_spec (bs_world st) (a :: z :: l ++ [q]) ltac:(done)) in Hi.
      apply elem_of_cons in Hi as [<-|Hi]; [apply (si_expl _ _ _ _ _ _ _ I); by eexists|].
      apply elem_of_cons in Hi as [<-|Hi]; [by eexists|by apply Hlq].
    - apply label_err in Ew as [-> _]; [done|]. apply find_lowest_spec. done.
  Qed.

  Lemma search_full w r features : full w -> dead w (Sad r) = false ->
    match search m (search_fuel w) (Sad r) (search_init w features (Sad r)) with
    | Ok st => bs_stack st = [] /\ exists dn, sinv m any w (Sad r) features dn st /\ full (bs_world st)
    | Err e => e = AttributeError
    end.
  Proof.
    intros HF Hd. apply (search_inv m w (Sad r) (length (w_saddles w) + length (w_summits w))
      (fun dn st => sinv m any w (Sad r) features dn st /\ full (bs_world st))
      (fun dn z _ st => sinv m any w (Sad r) features (dn ++ [z]) st /\ full (bs_world st))
      (fun e => e = AttributeError)) with (dn := []).
    - intros dn st [I _]. by eapply sinv_len.
    - intros dn st z [I _]. by eapply sinv_nbrs.
    - intros dn st z stack [I H] Es Ez. split; [by apply sinv_dead|done].
    - intros dn st z stack [I H] Es _. split; [by eapply sinv_take|done].
    - intros dn z pre a post st [I H] El. apply visit_full; try done. apply elem_of_app. right. by left.
    - done.
    - split; [by apply sinv_init|done].
    - unfold search_fuel. cbn. lia.
  Qed.

  Lemma loop_full fuel : forall w feats w', basin_loop m fuel w feats = Ok w' -> full w -> full w'.
  Proof.
    induction fuel as [|fuel IH]; intros w feats w'; [done|]. cbn [basin_loop].
    destruct feats as [|r feats]; [by intros [= <-]|].
    destruct (dead w (Sad r)) eqn:Ed; [apply IH|].
    intros H HF. pose proof (search_full w r feats HF Ed) as Hs.
    destruct (search _ _ _ _) as [st|e]; cbn [rbind] in H; [|done]. destruct Hs as [_ (dn & _ & Hl)].
    by apply (IH _ _ _ H).
  Qed.

  Theorem basin_full fuel w saddles w' : disqualify_basin_saddles m fuel w saddles = Ok w' -> full w -> full w'.
  Proof.
    unfold disqualify_basin_saddles. set (fs := sort_ele w (dict_keys [] saddles)).
    destruct (features_spec w saddles) as [Hnd _]. fold fs in Hnd. intros H HF.
    destruct (stub_spec m fs w Hnd) as (S & M1 & HS).
    apply (loop_full _ _ _ _ H). intros i j. rewrite !(marked_alts _ _ _ _ _ _ M1) by apply not_elem_of_nil. apply HF.
  Qed.
End full.
