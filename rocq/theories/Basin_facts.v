(** Basin saddle detection in any graph. *)
From Verif Require Import Base_model Graph_model Basin_model Graph_spec Basin_spec Graph_proof Basin_proof Search_proof.
Local Open Scope Z_scope.

Section facts.
  Variable m : datamap.

  Lemma drop_exempt_sub look cyc l : drop_exempt look cyc l `sublist_of` l.
  Proof. apply filter_sublist_of. Qed.

  Lemma open_alive w i : dead w (Sad i) = false -> not_disq w i.
  Proof.
    cbn. destruct (w_saddles w !! i) as [s|] eqn:E; [|done]. rewrite orb_false_iff. intros [H _]. by exists s.
  Qed.

  (** What the loop marks. *)
  Lemma loop_marks fuel : forall w feats w', basin_loop m fuel w feats = Ok w' ->
    exists B A, marked [] B A w w' /\ (forall b, b ∈ B \/ b ∈ A -> dead w (Sad b) = false).
  Proof.
    induction fuel as [|fuel IH]; intros w feats w'; [done|]. cbn [basin_loop].
    destruct feats as [|r feats].
    { intros [= <-]. exists [], []. split; [apply marked_refl|]. intros b. rewrite elem_of_nil. tauto. }
    destruct (dead w (Sad r)) eqn:Ed; [apply IH|].
    pose proof (search_any m w (Sad r) feats Ed) as Hs.
    destruct (search _ _ _ _) as [st|e]; cbn [rbind]; [|done]. destruct Hs as [_ [dn I]].
    intros H. destruct (IH _ _ _ H) as (B2 & A2 & M2 & H2).
    destruct (si_mark _ _ _ _ _ _ _ I) as (B & A & M & HB & HA & _).
    exists (B ++ B2), (A ++ A2). split; [exact (marked_trans _ _ _ _ _ _ _ _ _ M M2)|].
    intros b Hb. rewrite !elem_of_app in Hb.
    assert ((b ∈ B \/ b ∈ A) \/ (b ∈ B2 \/ b ∈ A2)) as [Hb'|Hb'] by tauto.
    - apply (si_open _ _ _ _ _ _ _ I). destruct Hb' as [Hb'|Hb']; [by apply HB|by apply HA].
    - specialize (H2 b Hb'). destruct (dead w (Sad b)) eqn:E; [|done].
      by rewrite (marked_dead _ _ _ _ _ _ M E) in H2.
  Qed.

  (** ** Termination *)
  Definition count_open (w : world) : nat :=
    length (filter (fun i => dead w (Sad i) = false) (seq 0 (length (w_saddles w)))).

  Lemma filter_length_le {A} (P Q : A -> Prop) `{!forall x, Decision (P x), !forall x, Decision (Q x)} l :
    (forall x, x ∈ l -> P x -> Q x) -> (length (filter P l) <= length (filter Q l))%nat.
  Proof.
    intros Himp. induction l as [|x l IH]; [done|]. rewrite !filter_cons.
    assert (length (filter P l) <= length (filter Q l))%nat by (apply IH; intros y Hy; apply Himp; by right).
    destruct (decide (P x)), (decide (Q x)); cbn; try lia. exfalso. apply n, Himp; [by left|done].
  Qed.
  Lemma filter_length_lt {A} (P Q : A -> Prop) `{!forall x, Decision (P x), !forall x, Decision (Q x)} l y :
    (forall x, x ∈ l -> P x -> Q x) -> y ∈ l -> Q y -> ~ P y -> (length (filter P l) < length (filter Q l))%nat.
  Proof.
    intros Himp Hy HQ HP. induction l as [|x l IH]; [by apply elem_of_nil in Hy|]. rewrite !filter_cons.
    assert (forall x, x ∈ l -> P x -> Q x) as H' by (intros z Hz; apply Himp; by right).
    pose proof (filter_length_le P Q l H') as Hle.
    apply elem_of_cons in Hy as [->|Hy].
    - rewrite (decide_False (P:=P x)), (decide_True (P:=Q x)) by done. cbn. lia.
    - specialize (IH H' Hy).
      destruct (decide (P x)), (decide (Q x)); cbn; try lia. exfalso. apply n, Himp; [by left|done].
  Qed.

  Lemma count_marked S B A w w' : marked S B A w w' -> (count_open w' <= count_open w)%nat.
  Proof.
    intros M. unfold count_open. rewrite (mk_len _ _ _ _ _ M). apply filter_length_le. intros i _ H.
    destruct (dead w (Sad i)) eqn:E; [|done]. by rewrite (marked_dead _ _ _ _ _ _ M E) in H.
  Qed.
  Lemma count_less S B A w w' b : marked S B A w w' -> no_override w -> b ∈ B -> dead w (Sad b) = false ->
    (count_open w' < count_open w)%nat.
  Proof.
    intros M Hno Hb Hd. unfold count_open. rewrite (mk_len _ _ _ _ _ M).
    assert (exists a, w_saddles w !! b = Some a) as [a Ha].
    { cbn in Hd. destruct (w_saddles w !! b) as [a|]; [by exists a|done]. }
    apply (filter_length_lt _ _ _ b).
    - intros i _ H. destruct (dead w (Sad i)) eqn:E; [|done]. by rewrite (marked_dead _ _ _ _ _ _ M E) in H.
    - apply elem_of_seq. apply lookup_lt_Some in Ha. lia.
    - done.
    - destruct (mk_saddle _ _ _ _ _ M _ _ Ha) as (a' & Ha' & Ef & _ & _ & _ & Eo & _ & Eb & _).
      cbn. rewrite Ha'. unfold disqualified. rewrite Eo. specialize (Hno _ _ Ha).
      cbn in Hd. rewrite Ha in Hd. unfold disqualified in Hd.
      destruct (sa_over a) as [[]|]; [done..|]. rewrite (proj2 Eb) by by right. by rewrite orb_true_r.
  Qed.
  Lemma no_override_marked S B A w w' : marked S B A w w' -> no_override w -> no_override w'.
  Proof.
    intros M H i b Hb. destruct (marked_back _ _ _ _ _ _ _ M Hb) as [a Ha].
    destruct (mk_saddle _ _ _ _ _ M _ _ Ha) as (b' & Hb' & _ & _ & _ & _ & Eo & _).
    assert (b' = b) as -> by congruence. rewrite Eo. by eapply H.
  Qed.

  Lemma loop_terminates fuel : forall w feats, no_override w -> (length feats + count_open w < fuel)%nat ->
    match basin_loop m fuel w feats with Ok _ => True | Err e => e = AttributeError end.
  Proof.
    induction fuel as [|fuel IH]; intros w feats Hno Hf; [lia|]. cbn [basin_loop].
    destruct feats as [|r feats]; [done|]. cbn [length] in Hf.
    destruct (dead w (Sad r)) eqn:Ed; [apply IH; [done|lia]|].
    pose proof (search_any m w (Sad r) feats Ed) as Hs.
    destruct (search _ _ _ _) as [st|e]; cbn [rbind]; [|done]. destruct Hs as [_ [dn I]].
    destruct (si_mark _ _ _ _ _ _ _ I) as (B & A & M & HB & _ & HC1 & _).
    pose proof (sublist_length _ _ (drop_exempt_sub (bs_look st) (bs_cyc st) (bs_feats st))) as L1.
    pose proof (sublist_length _ _ (si_feats _ _ _ _ _ _ _ I)) as L2.
    apply IH; [by eapply no_override_marked|]. destruct (decide (bs_cyc st = [])) as [E|E].
    - pose proof (count_marked _ _ _ _ _ M). lia.
    - destruct B as [|b B]; [by destruct (HC1 E)|]. cbn [length].
      assert (count_open (bs_world st) < count_open w)%nat; [|lia].
      eapply (count_less _ _ _ _ _ b M); [done|by left|].
      apply (si_open _ _ _ _ _ _ _ I), HB. by left.
  Qed.

  (** ** The whole run *)
  Lemma ins_perm w i l : ins_ele w i l ≡ₚ i :: l.
  Proof.
    induction l as [|j l IH]; [done|]. cbn. case_match; [done|]. etrans; [by constructor|]. apply perm_swap.
  Qed.
  Lemma sort_perm w l : sort_ele w l ≡ₚ l.
  Proof. induction l as [|i l IH]; [done|]. cbn. rewrite ins_perm. by constructor. Qed.
  Lemma dict_keys_in l : forall seen i, i ∈ dict_keys seen l <-> i ∈ l /\ i ∉ seen.
  Proof.
    induction l as [|j l IH]; intros seen i; cbn; [rewrite elem_of_nil; tauto|].
    destruct (decide (j ∈ seen)) as [Hj|Hj].
    - rewrite IH, elem_of_cons. split; [tauto|]. intros [[->|H] H']; tauto.
    - rewrite !elem_of_cons, IH, elem_of_cons. destruct (decide (i = j)) as [->|]; tauto.
  Qed.
  Lemma dict_keys_nodup l : forall seen, NoDup (dict_keys seen l).
  Proof.
    induction l as [|j l IH]; intros seen; cbn; [constructor|].
    destruct (decide (j ∈ seen)); [done|]. constructor; [|done]. rewrite dict_keys_in, elem_of_cons. tauto.
  Qed.
  Lemma features_spec w saddles : let fs := sort_ele w (dict_keys [] saddles) in
    NoDup fs /\ (forall i, i ∈ fs <-> i ∈ saddles).
  Proof.
    split; [rewrite sort_perm; apply dict_keys_nodup|]. intros i. rewrite sort_perm, dict_keys_in, elem_of_nil. tauto.
  Qed.

  Lemma basin_marks fuel w saddles w' : disqualify_basin_saddles m fuel w saddles = Ok w' ->
    exists S B A, marked S B A w w' /\
      (forall i, i ∈ S <-> i ∈ saddles /\ not_disq w i /\ one_summit m w i) /\
      (forall b, b ∈ B \/ b ∈ A -> open_ w (Sad b) /\ (b ∈ S -> exists s, w_saddles w !! b = Some s /\ sa_over s = Some false)).
  Proof.
    unfold disqualify_basin_saddles. set (fs := sort_ele w (dict_keys [] saddles)).
    destruct (features_spec w saddles) as [Hnd Hfs]. fold fs in Hnd, Hfs. intros H.
    destruct (stub_spec m fs w Hnd) as (S & M1 & HS).
    destruct (loop_marks _ _ _ _ H) as (B & A & M2 & HBA). exists S, B, A. split_and!.
    - pose proof (marked_trans _ _ _ _ _ _ _ _ _ M1 M2) as M. by rewrite app_nil_r in M.
    - intros i. by rewrite HS, Hfs.
    - intros b Hb. specialize (HBA b Hb). split.
      + apply (marked_open _ _ _ _ _ _ M1). by apply open_dead.
      + intros HbS. cbn in HBA. destruct (w_saddles (stub_phase m w fs) !! b) as [s'|] eqn:E; [|done].
        destruct (marked_back _ _ _ _ _ _ _ M1 E) as [s Hs]. exists s. split; [done|].
        destruct (mk_saddle _ _ _ _ _ M1 _ _ Hs) as (s2 & Hs2 & _ & _ & _ & _ & Eo & Es & _).
        assert (s2 = s') as -> by congruence. apply orb_false_iff in HBA as [Hq _].
        unfold disqualified in Hq. rewrite <-Eo. destruct (sa_over s') as [[]|]; [done|done|].
        rewrite (proj2 Es) in Hq by by right. done.
  Qed.

  Lemma basin_terminates w saddles fuel : no_override w ->
    (length saddles + length (w_saddles w) < fuel)%nat ->
    match disqualify_basin_saddles m fuel w saddles with Ok _ => True | Err e => e = AttributeError end.
  Proof.
    intros Hno Hf. unfold disqualify_basin_saddles. set (fs := sort_ele w (dict_keys [] saddles)).
    destruct (features_spec w saddles) as [Hnd Hfs]. fold fs in Hnd, Hfs.
    destruct (stub_spec m fs w Hnd) as (S & M1 & HS). apply loop_terminates.
    - by eapply no_override_marked.
    - rewrite rev_length. assert (length fs <= length saddles)%nat.
      { apply submseteq_length, NoDup_submseteq; [done|]. intros i. by rewrite Hfs. }
      assert (count_open (stub_phase m w fs) <= length (w_saddles w))%nat; [|lia].
      unfold count_open. etrans; [apply sublist_length, filter_sublist_of|].
      rewrite seq_length. rewrite (mk_len _ _ _ _ _ M1). lia.
  Qed.
End facts.
