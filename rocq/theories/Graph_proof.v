(** Proofs about the object graph. *)
From Verif Require Import Graph_model Graph_spec.
Local Open Scope Z_scope.

(** ** Updates *)

Lemma upd_saddle_lookup i f w j :
  w_saddles (upd_saddle i f w) !! j =
  if decide (j = i) then f <$> w_saddles w !! j else w_saddles w !! j.
Proof.
  cbn. case_decide as E; [subst; apply list_lookup_alter|]. by apply list_lookup_alter_ne.
Qed.
Lemma upd_summit_lookup i f w j :
  w_summits (upd_summit i f w) !! j =
  if decide (j = i) then f <$> w_summits w !! j else w_summits w !! j.
Proof.
  cbn. case_decide as E; [subst; apply list_lookup_alter|]. by apply list_lookup_alter_ne.
Qed.
Lemma upd_link_lookup i f w j :
  w_links (upd_link i f w) !! j =
  if decide (j = i) then f <$> w_links w !! j else w_links w !! j.
Proof.
  cbn. case_decide as E; [subst; apply list_lookup_alter|]. by apply list_lookup_alter_ne.
Qed.

Lemma filter_sublist_of {A} (P : A -> Prop) `{!forall x, Decision (P x)} (l : list A) :
  filter P l `sublist_of` l.
Proof.
  induction l as [|x l IH]; [done|]. rewrite filter_cons. case_decide; by constructor.
Qed.

(** ** Flags *)

Definition mark (w : world) (l : nat) : world :=
  upd_link l (fun k => Link (ln_summit k) (ln_saddle k) true) w.

Lemma marks_spec ls : forall w,
  w_saddles (foldl mark w ls) = w_saddles w /\ w_summits (foldl mark w ls) = w_summits w /\
  forall k, w_links (foldl mark w ls) !! k =
    (fun l => Link (ln_summit l) (ln_saddle l) (ln_disq l || bool_decide (k ∈ ls))) <$> w_links w !! k.
Proof.
  induction ls as [|l ls IH]; intros w; cbn [foldl].
  - split_and!; [done..|]. intros k. destruct (w_links w !! k) as [[a b c]|]; cbn; [|done].
    by rewrite orb_false_r.
  - destruct (IH (mark w l)) as (H1 & H2 & H3). split_and!; [done..|].
    intros k. rewrite H3. unfold mark. rewrite upd_link_lookup. case_decide as E.
    + subst. destruct (w_links w !! l) as [[a b c]|]; cbn; [|done]. repeat f_equal.
      rewrite (bool_decide_eq_true_2 (l ∈ l :: ls)) by left. by rewrite orb_true_r.
    + destruct (w_links w !! k) as [[a b c]|]; cbn; [|done]. repeat f_equal.
      apply bool_decide_ext. rewrite elem_of_cons. intuition.
Qed.

Lemma disqualify_spec basin single i w s : w_saddles w !! i = Some s ->
  let w' := disqualify_self_and_linkers basin single i w in
  w_saddles w' !! i = Some (Saddle (sa_feat s) (sa_links s) (sa_parent s) (sa_children s)
    (sa_single s || single) (sa_basin s || basin) (sa_alts s)
    (if basin || single then sa_over s else Some true)) /\
  (forall j, j <> i -> w_saddles w' !! j = w_saddles w !! j) /\
  length (w_saddles w') = length (w_saddles w) /\
  w_summits w' = w_summits w /\
  forall k, w_links w' !! k =
    (fun l => Link (ln_summit l) (ln_saddle l) (ln_disq l || bool_decide (k ∈ sa_links s))) <$> w_links w !! k.
Proof.
  intros Hs. cbn zeta. unfold disqualify_self_and_linkers.
  set (w1 := if basin || single then _ else _).
  assert (H1 : w_saddles w1 !! i = Some (Saddle (sa_feat s) (sa_links s) (sa_parent s) (sa_children s)
    (sa_single s || single) (sa_basin s || basin) (sa_alts s)
    (if basin || single then sa_over s else Some true))).
  { unfold w1. destruct basin, single; cbn [orb]; rewrite ?upd_saddle_lookup;
      repeat (rewrite decide_True by done); rewrite ?upd_saddle_lookup;
      repeat (rewrite decide_True by done); rewrite Hs; cbn; destruct s; cbn;
      rewrite ?orb_true_r, ?orb_false_r; done. }
  assert (H2 : forall j, j <> i -> w_saddles w1 !! j = w_saddles w !! j).
  { intros j Hj. unfold w1. destruct basin, single; cbn [orb]; rewrite ?upd_saddle_lookup;
      repeat (rewrite decide_False by done); rewrite ?upd_saddle_lookup;
      repeat (rewrite decide_False by done); done. }
  assert (H3 : length (w_saddles w1) = length (w_saddles w)).
  { unfold w1. destruct basin, single; cbn; by rewrite ?alter_length. }
  assert (H4 : w_summits w1 = w_summits w) by (unfold w1; by destruct basin, single).
  assert (H5 : w_links w1 = w_links w) by (unfold w1; by destruct basin, single).
  clearbody w1. rewrite H1. cbn [sa_links].
  change (fun (w0 : world) (l : nat) => upd_link l _ w0) with mark.
  destruct (marks_spec (sa_links s) w1) as (M1 & M2 & M3).
  rewrite M1, M2, H4. split_and!; [done..|]. intros k. by rewrite M3, H5.
Qed.

Lemma do_op_spec j o w i s : w_saddles w !! i = Some s ->
  exists s', w_saddles (do_op (j, o) w) !! i = Some s' /\
    (sa_single s', sa_basin s', sa_over s') =
      (if decide (i = j) then
        (default (sa_single s) (gives_single o), default (sa_basin s) (gives_basin o),
         default (sa_over s) (gives_over o))
      else (sa_single s, sa_basin s, sa_over s)).
Proof.
  intros Hs. destruct o as [b|b|b|ba si]; unfold do_op; cbn [fst snd];
    try (rewrite upd_saddle_lookup; case_decide as E; [subst; rewrite decide_True by done|rewrite decide_False by done];
         rewrite Hs; cbn; eexists; split; [done|done]).
  - rewrite upd_saddle_lookup. case_decide; rewrite Hs; by eexists.
  - rewrite upd_saddle_lookup. case_decide; rewrite Hs; by eexists.
  - rewrite upd_saddle_lookup. case_decide; rewrite Hs; by eexists.
  - case_decide as E.
    + subst j. destruct (disqualify_spec ba si i w s Hs) as (H & _). rewrite H. eexists. split; [done|].
      destruct ba, si; cbn; rewrite ?orb_true_r, ?orb_false_r; done.
    + destruct (w_saddles w !! j) as [s2|] eqn:E2.
      * destruct (disqualify_spec ba si j w s2 E2) as (_ & H & _). rewrite H by done. by eexists.
      * unfold disqualify_self_and_linkers.
        set (w1 := if ba || si then _ else _).
        assert (H1 : forall k, w_saddles w1 !! k = w_saddles w !! k).
        { intros k. unfold w1. destruct ba, si; cbn [orb]; rewrite ?upd_saddle_lookup;
            repeat case_decide; subst; rewrite ?upd_saddle_lookup; repeat case_decide; subst;
            rewrite ?E2; done. }
        rewrite (H1 j), E2, H1. by eexists.
Qed.

Lemma flags_history h : forall w i s, w_saddles w !! i = Some s ->
  exists s', w_saddles (foldr do_op w h) !! i = Some s' /\
    sa_single s' = latest gives_single i (sa_single s) h /\
    sa_basin s' = latest gives_basin i (sa_basin s) h /\
    sa_over s' = latest gives_over i (sa_over s) h /\
    disqualified s' = match latest gives_over i (sa_over s) h with
                      | Some b => b
                      | None => latest gives_single i (sa_single s) h ||
                                latest gives_basin i (sa_basin s) h
                      end.
Proof.
  induction h as [|[j o] h IH]; intros w i s Hs; cbn [foldr latest].
  - exists s. by split_and!.
  - destruct (IH w i s Hs) as (s1 & H1 & E1 & E2 & E3 & _).
    destruct (do_op_spec j o _ i s1 H1) as (s2 & H2 & E).
    exists s2. split; [done|]. rewrite E1, E2, E3 in E.
    case_decide; injection E as F1 F2 F3; unfold disqualified; rewrite F1, F2, F3; by split_and!.
Qed.

(** ** Families *)

Section family.
  Variable m : datamap.

  Lemma saddle_ne_spec w x i : saddle_ne m w x i = true <-> ~ same_place m w x i \/
    w_saddles w !! x = None \/ w_saddles w !! i = None.
  Proof.
    unfold saddle_ne, saddle_spot, same_place.
    destruct (w_saddles w !! x) as [a|]; cbn; [|tauto].
    destruct (w_saddles w !! i) as [b|]; cbn; [|tauto].
    unfold spot_ne, ft_spot. cbn. rewrite negb_true_iff, <-not_true_iff_false.
    rewrite !andb_true_iff, !Z.eqb_eq. split.
    - intros H. left. intros (a' & b' & [= <-] & [= <-] & H1 & H2 & H3). by apply H.
    - intros [H|[H|H]]; [|done|done]. intros [[H1 H2] H3]. apply H. by exists a, b.
  Qed.

  Lemma saddle_ne_iff w x i s : w_saddles w !! i = Some s ->
    saddle_ne m w x i = true <-> ~ same_place m w x i.
  Proof.
    intros Hs. rewrite saddle_ne_spec. split; [|tauto]. intros [H|[H|H]]; [done| |congruence].
    intros (a & b & H1 & _). congruence.
  Qed.

  (** Only the family changed, and nothing but saddles. *)
  Definition fam_step (w w' : world) : Prop :=
    w_summits w' = w_summits w /\ w_links w' = w_links w /\
    length (w_saddles w') = length (w_saddles w) /\
    forall j a, w_saddles w !! j = Some a ->
      exists b, w_saddles w' !! j = Some b /\ same_but_family a b.

  Lemma fam_refl w : fam_step w w.
  Proof. split_and!; [done..|]. intros j a H. exists a. done. Qed.
  Lemma fam_trans w1 w2 w3 : fam_step w1 w2 -> fam_step w2 w3 -> fam_step w1 w3.
  Proof.
    intros (A1 & A2 & A3 & A4) (B1 & B2 & B3 & B4). split_and!; [congruence..|].
    intros j a H. destruct (A4 j a H) as (b & H1 & H2). destruct (B4 j b H1) as (c & H3 & H4).
    exists c. split; [done|]. destruct H2 as (?&?&?&?&?&?), H4 as (?&?&?&?&?&?).
    split_and!; congruence.
  Qed.
  Lemma fam_upd i f w : (forall s, same_but_family s (f s)) -> fam_step w (upd_saddle i f w).
  Proof.
    intros Hf. split_and!; [done|done|cbn; by rewrite alter_length|].
    intros j a H. rewrite upd_saddle_lookup, H. case_decide; [|exists a; done].
    cbn. by exists (f a).
  Qed.

  Lemma fam_back w w' j b : fam_step w w' -> w_saddles w' !! j = Some b ->
    exists a, w_saddles w !! j = Some a /\ same_but_family a b.
  Proof.
    intros (_ & _ & A3 & A4) H. assert (j < length (w_saddles w))%nat as Hj.
    { rewrite <-A3. by eapply lookup_lt_Some. }
    apply lookup_lt_is_Some in Hj as [a Ha]. exists a. split; [done|].
    destruct (A4 j a Ha) as (b' & H1 & H2). assert (b' = b) as <- by congruence. done.
  Qed.
  Lemma fam_place w w' x y : fam_step w w' -> same_place m w' x y <-> same_place m w x y.
  Proof.
    intros Hf. split; intros (a & b & Ha & Hb & H).
    - destruct (fam_back _ _ _ _ Hf Ha) as (a' & Ha' & E & _).
      destruct (fam_back _ _ _ _ Hf Hb) as (b' & Hb' & E' & _).
      exists a', b'. rewrite E, E'. done.
    - destruct Hf as (_ & _ & _ & Hf). destruct (Hf _ _ Ha) as (a' & Ha' & E & _).
      destruct (Hf _ _ Hb) as (b' & Hb' & E' & _). exists a', b'. rewrite <-E, <-E'. done.
  Qed.
  Lemma fam_alts w w' i : fam_step w w' -> alts_of w' i = alts_of w i.
  Proof.
    intros Hf. unfold alts_of. destruct (w_saddles w !! i) as [a|] eqn:E.
    - destruct Hf as (_ & _ & _ & Hf). destruct (Hf _ _ E) as (b & -> & H). cbn. symmetry. apply H.
    - destruct (w_saddles w' !! i) as [b|] eqn:E'; [|done].
      destruct (fam_back _ _ _ _ Hf E') as (a & H & _). congruence.
  Qed.

  Lemma emancipate_fam i w : fam_step w (emancipate m i w).
  Proof.
    unfold emancipate. destruct (w_saddles w !! i) as [s|]; [|apply fam_refl].
    destruct (sa_parent s) as [p|]; [|apply fam_refl].
    eapply fam_trans; apply fam_upd; done.
  Qed.

  Lemma emancipate_spec i w s : w_saddles w !! i = Some s ->
    fam_step w (emancipate m i w) /\
    forall j a, w_saddles w !! j = Some a ->
      exists b, w_saddles (emancipate m i w) !! j = Some b /\ same_but_family a b /\
        sa_parent b = (if decide (j = i) then None else sa_parent a) /\
        sa_children b `sublist_of` sa_children a /\
        forall x, x ∈ sa_children b <->
          x ∈ sa_children a /\ (sa_parent s = Some j -> ~ same_place m w x i).
  Proof.
    intros Hs. split; [apply emancipate_fam|]. intros j a Ha.
    unfold emancipate. rewrite Hs. destruct (sa_parent s) as [p|] eqn:Ep.
    - rewrite !upd_saddle_lookup, Ha. destruct (decide (j = i)) as [Ei|Ei], (decide (j = p)) as [Ejp|Ejp]; cbn.
      + eexists. split; [done|]. split; [done|]. split; [done|]. cbn. split; [apply filter_sublist_of|].
        intros x. rewrite elem_of_list_filter, (saddle_ne_iff w x i s Hs). subst. intuition.
      + eexists. split; [done|]. split; [done|]. split; [done|]. cbn. split; [done|].
        intros x. split; [intros H; split; [done|congruence]|tauto].
      + eexists. split; [done|]. split; [done|]. split; [done|]. cbn. split; [apply filter_sublist_of|].
        intros x. rewrite elem_of_list_filter, (saddle_ne_iff w x i s Hs). subst. intuition.
      + eexists. split; [done|]. split; [done|]. split; [done|]. cbn. split; [done|].
        intros x. split; [intros H; split; [done|congruence]|tauto].
    - exists a. split; [done|]. split; [done|]. split.
      + case_decide as E; [|done]. subst. congruence.
      + split; [done|]. intros x. split; [done|tauto].
  Qed.

  (** disown_children: the loop. *)
  Lemma emancipate_all cs : forall w,
    let w' := foldl (fun w c => emancipate m c w) w cs in
    fam_step w w' /\
    forall j a, w_saddles w !! j = Some a ->
      exists b, w_saddles w' !! j = Some b /\
        sa_parent b = (if decide (j ∈ cs) then None else sa_parent a) /\
        sa_children b `sublist_of` sa_children a /\
        (forall x, x ∈ sa_children a -> x ∉ sa_children b ->
           exists c, c ∈ cs /\ parent_of w c = Some j /\ same_place m w x c) /\
        (forall c, c ∈ cs -> parent_of w c = Some j -> c ∉ sa_children b).
  Proof.
    induction cs as [|c cs IH]; intros w; cbn [foldl]; cbn zeta.
    - split; [apply fam_refl|]. intros j a Ha. exists a. split; [done|].
      rewrite decide_False by apply not_elem_of_nil. split; [done|]. split; [done|]. split.
      + intros x H1 H2. done.
      + intros c H. by apply elem_of_nil in H.
    - destruct (IH (emancipate m c w)) as [F1 F2].
      split; [eapply fam_trans; [apply emancipate_fam|done]|].
      intros j a Ha. destruct (w_saddles w !! c) as [s|] eqn:Ec.
      + destruct (emancipate_spec c w s Ec) as [F E].
        destruct (E j a Ha) as (b & Hb & _ & Hp & Hs & Hx).
        destruct (F2 j b Hb) as (b2 & Hb2 & Hp2 & Hs2 & Hx2 & Hy2).
        assert (Hpar : forall d, parent_of (emancipate m c w) d = if decide (d = c) then None else parent_of w d).
        { intros d. unfold parent_of. destruct (w_saddles w !! d) as [ds|] eqn:Ed.
          - destruct (E d ds Ed) as (ds' & -> & _ & H & _).
            change (sa_parent ds' = if decide (d = c) then None else sa_parent ds). done.
          - destruct (w_saddles (emancipate m c w) !! d) as [ds|] eqn:Ed2.
            + destruct (fam_back _ _ _ _ F Ed2) as (? & H & _). congruence.
            + by destruct (decide (d = c)). }
        exists b2. split; [done|]. split_and!.
        * rewrite Hp2, Hp. destruct (decide (j = c)) as [->|Hne].
          -- rewrite (decide_True (P := c ∈ c :: cs)) by left. by case_decide.
          -- destruct (decide (j ∈ cs)) as [Hin|Hin].
             ++ rewrite (decide_True (P := j ∈ c :: cs)); [done|by right].
             ++ rewrite (decide_False (P := j ∈ c :: cs)); [done|]. by intros [?|?]%elem_of_cons.
        * by etrans.
        * intros x Hin Hout. destruct (decide (x ∈ sa_children b)) as [Hin2|Hin2].
          -- destruct (Hx2 x Hin2 Hout) as (d & Hd & Hdp & Hdx). rewrite Hpar in Hdp. case_decide; [done|].
             exists d. split; [by right|]. split; [done|]. apply (fam_place w (emancipate m c w) x d F). done.
          -- destruct (decide (sa_parent s = Some j)) as [Hcp|Hcp].
             ++ exists c. split; [by left|]. split; [unfold parent_of; by rewrite Ec|].
                destruct (decide (saddle_ne m w x c = true)) as [Hn|Hn].
                ** destruct Hin2. apply Hx. split; [done|]. intros _. by apply (saddle_ne_iff w x c s Ec).
                ** destruct (w_saddles w !! x) as [xs|] eqn:Exs;
                     [|destruct Hn; apply saddle_ne_spec; tauto].
                   pose proof Hn as Hn2.
                   unfold saddle_ne, saddle_spot in Hn2. rewrite Exs, Ec in Hn2. cbn in Hn2.
                   apply not_true_is_false, negb_false_iff in Hn2. unfold ft_spot in Hn2. cbn in Hn2.
                   rewrite !andb_true_iff, !Z.eqb_eq in Hn2. destruct Hn2 as [[? ?] ?].
                   exists xs, s. done.
             ++ destruct Hin2. apply Hx. done.
        * intros d Hd Hdp Hdb. apply elem_of_cons in Hd as [->|Hd].
          -- unfold parent_of in Hdp. rewrite Ec in Hdp. cbn in Hdp.
             assert (Hcb : c ∈ sa_children b) by (eapply elem_of_submseteq; [exact Hdb|by apply sublist_submseteq]).
             apply Hx in Hcb as [_ Hcb]. apply (Hcb Hdp). exists s, s. by split_and!.
          -- destruct (decide (d = c)) as [->|Hne].
             ++ unfold parent_of in Hdp. rewrite Ec in Hdp. cbn in Hdp.
                assert (Hcb : c ∈ sa_children b) by (eapply elem_of_submseteq; [exact Hdb|by apply sublist_submseteq]).
                apply Hx in Hcb as [_ Hcb]. apply (Hcb Hdp). exists s, s. by split_and!.
             ++ apply (Hy2 d Hd); [|done]. rewrite Hpar. by rewrite decide_False.
      + assert (emancipate m c w = w) as Heq by (unfold emancipate; by rewrite Ec).
        rewrite Heq in F2. rewrite Heq. destruct (F2 j a Ha) as (b & Hb & Hp & Hs & Hx & Hy).
        exists b. split; [done|]. split_and!.
        * rewrite Hp. destruct (decide (j ∈ cs)) as [Hin|Hin].
          -- rewrite (decide_True (P := j ∈ c :: cs)); [done|by right].
          -- rewrite (decide_False (P := j ∈ c :: cs)); [done|].
             intros [->|?]%elem_of_cons; [congruence|done].
        * done.
        * intros x H1 H2. destruct (Hx x H1 H2) as (d & Hd & H3). exists d. split; [by right|done].
        * intros d Hd Hdp. apply elem_of_cons in Hd as [->|Hd]; [|by apply Hy].
          unfold parent_of in Hdp. rewrite Ec in Hdp. done.
  Qed.

  Lemma disown_spec i w s : w_saddles w !! i = Some s ->
    let w' := disown_children m i w in
    fam_step w w' /\
    forall j a, w_saddles w !! j = Some a ->
      exists b, w_saddles w' !! j = Some b /\
        sa_parent b = (if decide (j ∈ sa_children s) then None else sa_parent a) /\
        (j = i -> sa_children b = []) /\
        (j <> i -> sa_children b `sublist_of` sa_children a /\
          (forall x, x ∈ sa_children a -> x ∉ sa_children b ->
             exists c, c ∈ sa_children s /\ parent_of w c = Some j /\ same_place m w x c) /\
          (forall c, c ∈ sa_children s -> parent_of w c = Some j -> c ∉ sa_children b)).
  Proof.
    intros Hs. cbn zeta. unfold disown_children. rewrite Hs.
    destruct (emancipate_all (sa_children s) w) as [F E]. split.
    { eapply fam_trans; [apply F|]. by apply fam_upd. }
    intros j a Ha. destruct (E j a Ha) as (b & Hb & Hp & Hsub & Hx & Hy).
    rewrite upd_saddle_lookup, Hb. destruct (decide (j = i)) as [Ej|Ej].
    - exists (set_children [] b). split; [done|]. split; [exact Hp|]. split; [done|]. intros Hne. done.
    - exists b. split; [done|]. split; [exact Hp|]. split; [done|]. intros _. split_and!; done.
  Qed.

  (** ** Deletion *)

  Lemma deleted_refl w : deleted [] w w.
  Proof.
    split_and!; [done..| | |].
    - intros j a Ha. exists a. split_and!; try done; [|by left]. intros H. by apply elem_of_nil in H.
    - intros j a Ha. exists a. split_and!; try done. by destruct (su_domain a).
    - intros k l Hl. exists l. split_and!; try done. split; [by left|].
      intros [H|(i & s & H & _)]; [done|by apply elem_of_nil in H].
  Qed.

  Lemma deleted_trans R1 R2 w1 w2 w3 :
    deleted R1 w1 w2 -> deleted R2 w2 w3 -> deleted (R1 ++ R2) w1 w3.
  Proof.
    intros (A1 & A2 & A3 & A4 & A5 & A6) (B1 & B2 & B3 & B4 & B5 & B6).
    split_and!; [congruence..| | |].
    - intros j a Ha. destruct (A4 j a Ha) as (b & Hb & ?&?&?&?&I1&O1&?&?&P1).
      destruct (B4 j b Hb) as (c & Hc & ?&?&?&?&I2&O2&?&?&P2). exists c.
      split_and!; try congruence; try (by etrans).
      + intros [HR|HR]%elem_of_app; [|by apply I2].
        destruct (decide (j ∈ R2)); [by apply I2|]. rewrite O2 by done. by apply I1.
      + intros HR. rewrite elem_of_app in HR. rewrite O2 by tauto. apply O1. tauto.
      + destruct P2 as [-> | ->]; [done|by right].
    - intros j a Ha. destruct (A5 j a Ha) as (b & Hb & ?&?&Da).
      destruct (B5 j b Hb) as (c & Hc & ?&?&Db). exists c. split_and!; try congruence.
      destruct (su_domain a), (su_domain b), (su_domain c); try done. by etrans.
    - intros k l Hl. destruct (A6 k l Hl) as (l2 & Hl2 & ?&?&D1).
      destruct (B6 k l2 Hl2) as (l3 & Hl3 & ?&?&D2). exists l3. split_and!; try congruence.
      rewrite D2, D1. split.
      + intros [[HR|(i & s & Hi & Hs & Hk)]|(i & s & Hi & Hs & Hk)]; [by left| |].
        * right. exists i, s. split; [|done]. apply elem_of_app. by left.
        * right. assert (i < length (w_saddles w1))%nat as Hlt.
          { rewrite <-A1. by eapply lookup_lt_Some. }
          apply lookup_lt_is_Some in Hlt as [s1 Hs1].
          destruct (A4 i s1 Hs1) as (s2 & Hs2 & _ & Hlk & _).
          exists i, s1. split_and!; [apply elem_of_app; by right|done|]. congruence.
      + intros [HR|(i & s & Hi & Hs & Hk)]; [tauto|]. apply elem_of_app in Hi as [Hi|Hi].
        * left. right. by exists i, s.
        * right. destruct (A4 i s Hs) as (s2 & Hs2 & _ & Hlk & _). exists i, s2.
          split_and!; try done. congruence.
  Qed.

  (** A family step in which lists only shrink. *)
  Lemma fam_deleted w w' : fam_step w w' ->
    (forall j a b, w_saddles w !! j = Some a -> w_saddles w' !! j = Some b ->
       sa_children b `sublist_of` sa_children a /\ (sa_parent b = sa_parent a \/ sa_parent b = None)) ->
    deleted [] w w'.
  Proof.
    intros (F1 & F2 & F3 & F4) H. split_and!; [done|congruence|congruence| | |].
    - intros j a Ha. destruct (F4 j a Ha) as (b & Hb & ?&?&?&?&E&?). exists b.
      destruct (H j a b Ha Hb). split_and!; try done.
      + intros Hn. by apply elem_of_nil in Hn.
      + by rewrite E.
    - intros j a Ha. exists a. rewrite F1. split_and!; try done. by destruct (su_domain a).
    - intros k l Hl. exists l. rewrite F2. split_and!; try done. split; [by left|].
      intros [Hd|(i & s & Hi & _)]; [done|by apply elem_of_nil in Hi].
  Qed.

  Lemma emancipate_deleted i w : deleted [] w (emancipate m i w).
  Proof.
    destruct (w_saddles w !! i) as [s|] eqn:Es.
    - destruct (emancipate_spec i w s Es) as [F E]. apply fam_deleted; [done|].
      intros j a b Ha Hb. destruct (E j a Ha) as (b' & Hb' & _ & Hp & Hc & _).
      assert (b' = b) as -> by congruence. split; [done|]. rewrite Hp. case_decide; tauto.
    - unfold emancipate. rewrite Es. apply deleted_refl.
  Qed.
  Lemma disown_deleted i w : deleted [] w (disown_children m i w).
  Proof.
    destruct (w_saddles w !! i) as [s|] eqn:Es.
    - destruct (disown_spec i w s Es) as [F E]. apply fam_deleted; [done|].
      intros j a b Ha Hb. destruct (E j a Ha) as (b' & Hb' & Hp & H1 & H2).
      assert (b' = b) as -> by congruence. split.
      + destruct (decide (j = i)) as [Hj|Hj]; [rewrite H1 by done; apply sublist_nil_l|].
        by apply H2.
      + rewrite Hp. case_decide; tauto.
    - unfold disown_children. rewrite Es. apply deleted_refl.
  Qed.

  (** The loop over the alternatives. *)
  Lemma alts_loop i s ls : forall w, w_saddles w !! i = Some s ->
    let w' := foldl (fun w b => upd_saddle b (fun bs =>
      set_alts (filter (fun x => saddle_ne m w x i = true) (sa_alts bs)) bs) w) w ls in
    w_summits w' = w_summits w /\ w_links w' = w_links w /\
    length (w_saddles w') = length (w_saddles w) /\
    forall j a, w_saddles w !! j = Some a -> exists al,
      w_saddles w' !! j = Some (set_alts al a) /\ al `sublist_of` sa_alts a /\
      forall x, x ∈ al <-> x ∈ sa_alts a /\ (j ∈ ls -> ~ same_place m w x i).
  Proof.
    revert s. induction ls as [|l ls IH]; intros s w Hs; cbn [foldl]; cbn zeta.
    - split_and!; [done..|]. intros j a Ha. exists (sa_alts a). split; [by destruct a|].
      split; [done|]. intros x. split; [|tauto]. intros H. split; [done|].
      intros Hn. by apply elem_of_nil in Hn.
    - set (w1 := upd_saddle l _ w).
      assert (Hone : forall j a, w_saddles w !! j = Some a -> exists al,
        w_saddles w1 !! j = Some (set_alts al a) /\ al `sublist_of` sa_alts a /\
        forall x, x ∈ al <-> x ∈ sa_alts a /\ (j = l -> ~ same_place m w x i)).
      { intros j a Ha. unfold w1. rewrite upd_saddle_lookup, Ha. case_decide as E; cbn.
        - eexists. split; [done|]. split; [apply filter_sublist_of|].
          intros x. rewrite elem_of_list_filter, (saddle_ne_iff w x i s Hs). intuition.
        - exists (sa_alts a). split; [by destruct a|]. split; [done|]. intros x. split; [|tauto]. done. }
      assert (Hlen : length (w_saddles w1) = length (w_saddles w)) by (unfold w1; cbn; apply alter_length).
      destruct (Hone i s Hs) as (al0 & Hs1 & _ & _).
      destruct (IH _ w1 Hs1) as (G1 & G2 & G3 & G4).
      assert (Hpl : forall x, same_place m w1 x i <-> same_place m w x i).
      { intros x. unfold same_place. destruct (w_saddles w !! x) as [xs|] eqn:Ex.
        - destruct (Hone x xs Ex) as (al & Hx1 & _). rewrite Hx1, Hs1, Hs. cbn. split.
          + intros (a & b & [= <-] & [= <-] & H). by exists xs, s.
          + intros (a & b & [= <-] & [= <-] & H). by eexists _, _.
        - assert (w_saddles w1 !! x = None) as ->.
          { apply lookup_ge_None. rewrite Hlen. by apply lookup_ge_None. }
          split; intros (a & b & H & _); done. }
      split_and!; [by rewrite G1|by rewrite G2|by rewrite G3|].
      intros j a Ha. destruct (Hone j a Ha) as (al & Hj & Hsub & Hx).
      destruct (G4 j _ Hj) as (al2 & Hj2 & Hsub2 & Hx2). exists al2. split.
      + rewrite Hj2. by destruct a.
      + cbn in Hsub2, Hx2. split; [by etrans|]. intros x. rewrite Hx2, Hx, elem_of_cons, Hpl. intuition.
  Qed.

  Lemma soft_delete_spec i w s : w_saddles w !! i = Some s ->
    deleted [i] w (soft_delete m i w) /\
    exists b, w_saddles (soft_delete m i w) !! i = Some b /\
      sa_parent b = None /\ sa_children b = [] /\ sa_alts b = [].
  Proof.
    intros Hs. unfold soft_delete. rewrite Hs.
    set (w1 := if decide (sa_children s = []) then w else disown_children m i w).
    assert (D1 : deleted [] w w1) by (unfold w1; case_decide; [apply deleted_refl|apply disown_deleted]).
    assert (C1 : exists s1, w_saddles w1 !! i = Some s1 /\ sa_children s1 = []).
    { unfold w1. case_decide as E; [by exists s|]. destruct (disown_spec i w s Hs) as [_ H].
      destruct (H i s Hs) as (b & Hb & _ & Hc & _). exists b. split; [done|by apply Hc]. }
    clearbody w1. destruct C1 as (s1 & Hs1 & Hc1).
    pose proof (emancipate_deleted i w1) as D2.
    destruct (emancipate_spec i w1 s1 Hs1) as [_ E2].
    destruct (E2 i s1 Hs1) as (s2 & Hs2 & _ & Hp2 & Hc2 & _). rewrite decide_True in Hp2 by done.
    rewrite Hc1 in Hc2. apply sublist_nil_r in Hc2.
    set (w2 := emancipate m i w1) in *. clearbody w2. rewrite Hs2.
    destruct (alts_loop i s2 (sa_alts s2) w2 Hs2) as (G1 & G2 & G3 & G4).
    set (w3 := foldl _ w2 (sa_alts s2)) in *. clearbody w3.
    destruct (G4 i s2 Hs2) as (al & Hs3 & _).
    assert (D3 : deleted [] w2 w3).
    { split_and!; [done|congruence|congruence| | |].
      - intros j a Ha. destruct (G4 j a Ha) as (al' & Hj & Hsub & _). eexists. split; [done|].
        cbn. split_and!; try done; [|by left]. intros Hn. by apply elem_of_nil in Hn.
      - intros j a Ha. exists a. rewrite G1. split_and!; try done. by destruct (su_domain a).
      - intros k l Hl. exists l. rewrite G2. split_and!; try done. split; [by left|].
        intros [Hd|(i' & s' & Hi & _)]; [done|by apply elem_of_nil in Hi]. }
    set (w4 := upd_saddle i (set_alts []) w3).
    assert (Hs4 : w_saddles w4 !! i = Some (set_alts [] s2)).
    { unfold w4. rewrite upd_saddle_lookup, decide_True, Hs3 by done. by destruct s2. }
    assert (D4 : deleted [i] w3 (disqualify_self_and_linkers false false i w4)).
    { destruct (disqualify_spec false false i w4 _ Hs4) as (Q1 & Q2 & Q3 & Q4 & Q5).
      split_and!.
      - rewrite Q3. unfold w4. cbn. apply alter_length.
      - by rewrite Q4.
      - apply Nat.le_antisymm.
        + apply Nat.nlt_ge. intros Hlt. apply lookup_lt_is_Some in Hlt as [x Hx]. rewrite Q5 in Hx.
          change (w_links w4) with (w_links w3) in Hx. rewrite (proj2 (lookup_ge_None _ _)) in Hx; done.
        + apply Nat.nlt_ge. intros Hlt. apply lookup_lt_is_Some in Hlt as [x Hx].
          pose proof (Q5 (length (w_links (disqualify_self_and_linkers false false i w4)))) as H.
          change (w_links w4) with (w_links w3) in H. rewrite Hx in H.
          rewrite (proj2 (lookup_ge_None _ _)) in H; done.
      - intros j a Ha. destruct (decide (j = i)) as [->|Hj].
        + rewrite Q1. eexists. split; [done|]. cbn. rewrite Hs3 in Ha. injection Ha as <-. cbn.
          rewrite !orb_false_r. split_and!; try done; [|apply sublist_nil_l|by left].
          intros Hn. destruct Hn. by left.
        + rewrite Q2 by done. unfold w4. rewrite upd_saddle_lookup, decide_False by done.
          exists a. split_and!; try done; [|by left].
          intros Hn. by apply elem_of_list_singleton in Hn.
      - intros j a Ha. exists a. rewrite Q4. split_and!; try done. by destruct (su_domain a).
      - intros k l Hl. rewrite Q5. change (w_links w4) with (w_links w3). rewrite Hl. eexists.
        split; [done|]. cbn. split_and!; try done. rewrite orb_true_iff, bool_decide_eq_true. split.
        + intros [H|H]; [by left|]. right. exists i, (set_alts al s2). split; [by left|done].
        + intros [H|(i' & s' & Hi & Hs' & Hk)]; [by left|]. right.
          apply elem_of_list_singleton in Hi. subst i'. rewrite Hs3 in Hs'. by injection Hs' as <-. }
    split.
    - change [i] with ([] ++ ([] ++ ([] ++ [i]))).
      eapply deleted_trans; [exact D1|]. eapply deleted_trans; [exact D2|].
      eapply deleted_trans; [exact D3|exact D4].
    - destruct (disqualify_spec false false i w4 _ Hs4) as (Q1 & _).
      eexists. split; [exact Q1|]. done.
  Qed.

  (** ** Families stay consistent *)

  Lemma parent_child_exists w c p : family w -> c ∈ children_of w p ->
    exists a, w_saddles w !! c = Some a /\ sa_parent a = Some p.
  Proof.
    intros [Hf _] Hc. apply Hf in Hc. unfold parent_of in Hc.
    destruct (w_saddles w !! c) as [a|]; [|done]. by exists a.
  Qed.

  (** The view of a world that families depend on. *)
  Lemma emancipate_view i w : family w -> siblings_apart m w ->
    (forall c, parent_of (emancipate m i w) c = if decide (c = i) then None else parent_of w c) /\
    (forall p x, x ∈ children_of (emancipate m i w) p <-> x ∈ children_of w p /\ x <> i).
  Proof.
    intros Hf [Hap _]. destruct (w_saddles w !! i) as [s|] eqn:Es.
    - destruct (emancipate_spec i w s Es) as [F E]. split.
      + intros c. unfold parent_of. destruct (w_saddles w !! c) as [a|] eqn:Ec.
        * destruct (E c a Ec) as (b & -> & _ & Hp & _). exact Hp.
        * destruct (w_saddles (emancipate m i w) !! c) as [b|] eqn:Eb.
          -- destruct (fam_back _ _ _ _ F Eb) as (? & H & _). congruence.
          -- by destruct (decide (c = i)).
      + intros p x. unfold children_of. destruct (w_saddles w !! p) as [a|] eqn:Ep.
        * destruct (E p a Ep) as (b & -> & _ & _ & _ & Hx). cbn. rewrite Hx. clear Hx.
          assert (Hch : children_of w p = sa_children a) by (unfold children_of; by rewrite Ep).
          split.
          -- intros [H1 H2]. split; [done|]. intros ->.
             assert (sa_parent s = Some p) as Hsp.
             { rewrite <-Hch in H1. apply (proj1 Hf) in H1. unfold parent_of in H1. by rewrite Es in H1. }
             apply (H2 Hsp). exists s, s. by split_and!.
          -- intros [H1 H2]. split; [done|]. intros Hsp Hpl. apply H2.
             apply (Hap p); [by rewrite Hch| |done]. apply (proj1 Hf). unfold parent_of. by rewrite Es.
        * destruct (w_saddles (emancipate m i w) !! p) as [b|] eqn:Eb.
          -- destruct (fam_back _ _ _ _ F Eb) as (? & H & _). congruence.
          -- cbn. rewrite elem_of_nil. tauto.
    - assert (emancipate m i w = w) as -> by (unfold emancipate; by rewrite Es).
      assert (parent_of w i = None) as Hn by (unfold parent_of; by rewrite Es).
      split.
      + intros c. case_decide; [by subst|done].
      + intros p x. split; [|tauto]. intros H. split; [done|]. intros ->.
        apply (proj1 Hf) in H. congruence.
  Qed.

  Lemma emancipate_family i w : family w -> siblings_apart m w ->
    family (emancipate m i w) /\ siblings_apart m (emancipate m i w).
  Proof.
    intros Hf Ha. destruct (emancipate_view i w Hf Ha) as [H1 H2].
    pose proof (emancipate_fam i w) as F. split.
    - split.
      + intros c p. rewrite H1, H2. rewrite <-(proj1 Hf). case_decide; [|tauto].
        split; [done|]. intros [_ HH]. done.
      + intros a b. rewrite !(fam_alts _ _ _ F). apply Hf.
    - split.
      + intros p x y. rewrite !H2. intros [Hx _] [Hy _] Hp. apply (proj1 Ha p); try done.
        by apply (fam_place _ _ _ _ F).
      + intros b x y. rewrite !(fam_alts _ _ _ F). intros Hx Hy Hp. apply (proj2 Ha b); try done.
        by apply (fam_place _ _ _ _ F).
  Qed.

  Lemma emancipate_all_family cs : forall w, family w -> siblings_apart m w ->
    let w' := foldl (fun w c => emancipate m c w) w cs in
    family w' /\ siblings_apart m w' /\
    (forall c, parent_of w' c = if decide (c ∈ cs) then None else parent_of w c) /\
    (forall p x, x ∈ children_of w' p <-> x ∈ children_of w p /\ x ∉ cs).
  Proof.
    induction cs as [|c cs IH]; intros w Hf Ha; cbn [foldl]; cbn zeta.
    - split_and!; [done..| |].
      + intros c. rewrite decide_False by apply not_elem_of_nil. done.
      + intros p x. split; [|tauto]. intros H. split; [done|apply not_elem_of_nil].
    - destruct (emancipate_family c w Hf Ha) as [Hf1 Ha1].
      destruct (emancipate_view c w Hf Ha) as [V1 V2].
      destruct (IH _ Hf1 Ha1) as (I1 & I2 & I3 & I4). split_and!; [done..| |].
      + intros d. rewrite I3, V1. destruct (decide (d = c)) as [->|Hd].
        * rewrite (decide_True (P := c ∈ c :: cs)) by left. by case_decide.
        * destruct (decide (d ∈ cs)).
          -- rewrite (decide_True (P := d ∈ c :: cs)); [done|by right].
          -- rewrite (decide_False (P := d ∈ c :: cs)); [done|]. by intros [?|?]%elem_of_cons.
      + intros p x. rewrite I4, V2, not_elem_of_cons. tauto.
  Qed.

  Lemma disown_family i w : family w -> siblings_apart m w ->
    family (disown_children m i w) /\ siblings_apart m (disown_children m i w) /\
    (forall c, parent_of (disown_children m i w) c =
       if decide (parent_of w c = Some i) then None else parent_of w c) /\
    (forall p x, x ∈ children_of (disown_children m i w) p <-> x ∈ children_of w p /\ p <> i).
  Proof.
    intros Hf Ha. unfold disown_children. destruct (w_saddles w !! i) as [s|] eqn:Es.
    - destruct (emancipate_all_family (sa_children s) w Hf Ha) as (F1 & F2 & F3 & F4).
      destruct (emancipate_all (sa_children s) w) as [F _].
      set (w1 := foldl _ w _) in *. clearbody w1.
      assert (Hch : sa_children s = children_of w i) by (unfold children_of; by rewrite Es).
      assert (F5 : fam_step w1 (upd_saddle i (set_children []) w1)) by (by apply fam_upd).
      assert (P5 : forall c, parent_of (upd_saddle i (set_children []) w1) c = parent_of w1 c).
      { intros c. unfold parent_of. rewrite upd_saddle_lookup. case_decide; [|done].
        by destruct (w_saddles w1 !! c). }
      assert (C5 : forall p x, x ∈ children_of (upd_saddle i (set_children []) w1) p <->
                               x ∈ children_of w1 p).
      { intros p x. unfold children_of. rewrite upd_saddle_lookup. case_decide as E; [|done]. subst p.
        destruct (w_saddles w1 !! i) as [s1|] eqn:Es1; [|done]. cbn. rewrite elem_of_nil.
        split; [done|]. intros Hx. assert (x ∈ children_of w1 i) as Hx1 by (unfold children_of; by rewrite Es1).
        apply F4 in Hx1 as [Hx1 Hx2]. apply Hx2. by rewrite Hch. }
      assert (P6 : forall c, parent_of w1 c = if decide (parent_of w c = Some i) then None else parent_of w c).
      { intros c. rewrite F3. destruct (decide (c ∈ sa_children s)) as [Hin|Hin].
        - rewrite Hch, <-(proj1 Hf) in Hin. by rewrite decide_True.
        - rewrite decide_False; [done|]. intros Hp. apply Hin. rewrite Hch. by apply (proj1 Hf). }
      assert (C6 : forall p x, x ∈ children_of w1 p <-> x ∈ children_of w p /\ p <> i).
      { intros p x. rewrite F4, Hch, <-!(proj1 Hf). split.
        - intros [H1 H2]. split; [done|]. by intros ->.
        - intros [H1 H2]. split; [done|]. intros H. congruence. }
      split_and!.
      + split.
        * intros c p. rewrite P5, C5. apply F1.
        * intros a b. rewrite !(fam_alts _ _ _ F5). apply F1.
      + split.
        * intros p x y. rewrite !C5. intros Hx Hy Hp. apply (proj1 F2 p); try done.
          by apply (fam_place _ _ _ _ F5).
        * intros b x y. rewrite !(fam_alts _ _ _ F5). intros Hx Hy Hp. apply (proj2 F2 b); try done.
          by apply (fam_place _ _ _ _ F5).
      + intros c. by rewrite P5, P6.
      + intros p x. by rewrite C5, C6.
    - split_and!; [done..| |].
      + intros c. case_decide as E; [|done]. apply (proj1 Hf) in E. unfold children_of in E.
        rewrite Es in E. by apply elem_of_nil in E.
      + intros p x. split; [|tauto]. intros H. split; [done|]. intros ->. unfold children_of in H.
        rewrite Es in H. by apply elem_of_nil in H.
  Qed.

  Lemma soft_delete_family i w s : family w -> siblings_apart m w -> w_saddles w !! i = Some s ->
    family (soft_delete m i w) /\ siblings_apart m (soft_delete m i w) /\
    (forall c, parent_of (soft_delete m i w) c =
       if decide (c = i \/ parent_of w c = Some i) then None else parent_of w c) /\
    (forall p x, x ∈ children_of (soft_delete m i w) p <-> x ∈ children_of w p /\ p <> i /\ x <> i) /\
    (forall b x, x ∈ alts_of (soft_delete m i w) b <-> x ∈ alts_of w b /\ b <> i /\ x <> i).
  Proof.
    intros Hf Ha Hs. unfold soft_delete. rewrite Hs.
    set (w1 := if decide (sa_children s = []) then w else disown_children m i w).
    assert (H1 : fam_step w w1 /\ family w1 /\ siblings_apart m w1 /\
      (forall c, parent_of w1 c = if decide (parent_of w c = Some i) then None else parent_of w c) /\
      (forall p x, x ∈ children_of w1 p <-> x ∈ children_of w p /\ p <> i)).
    { unfold w1. destruct (decide (sa_children s = [])) as [E|E].
      - assert (Hno : forall x, x ∉ children_of w i).
        { intros x. unfold children_of. rewrite Hs. cbn. rewrite E. apply not_elem_of_nil. }
        split_and!; [apply fam_refl|done..| |].
        + intros c. case_decide as E2; [|done]. apply (proj1 Hf) in E2. by destruct (Hno c).
        + intros p x. split; [|tauto]. intros H. split; [done|]. intros ->. by destruct (Hno x).
      - destruct (disown_family i w Hf Ha) as (?&?&?&?). split_and!; [|done..].
        apply (disown_spec i w s Hs). }
    clearbody w1. destruct H1 as (S1 & F1 & A1 & P1 & C1).
    destruct (emancipate_family i w1 F1 A1) as [F2 A2].
    destruct (emancipate_view i w1 F1 A1) as [P2 C2].
    pose proof (emancipate_fam i w1) as S2.
    assert (S12 : fam_step w (emancipate m i w1)) by (by eapply fam_trans).
    set (w2 := emancipate m i w1) in *. clearbody w2.
    destruct S12 as (S12a & S12b & S12c & S12d) eqn:ES. clear ES.
    destruct (S12d i s Hs) as (s2 & Hs2 & Hb2). rewrite Hs2.
    destruct (alts_loop i s2 (sa_alts s2) w2 Hs2) as (G1 & G2 & G3 & G4).
    set (w3 := foldl _ w2 (sa_alts s2)) in *. clearbody w3.
    destruct (G4 i s2 Hs2) as (al & Hs3 & Hal3 & Hal3x).
    set (w4 := upd_saddle i (set_alts []) w3).
    assert (Hs4 : w_saddles w4 !! i = Some (set_alts [] s2)).
    { unfold w4. rewrite upd_saddle_lookup, decide_True, Hs3 by done. by destruct s2. }
    destruct (disqualify_spec false false i w4 _ Hs4) as (Q1 & Q2 & Q3 & Q4 & Q5).
    set (w5 := disqualify_self_and_linkers false false i w4) in *. clearbody w5.
    (* the final saddles in terms of [w2] *)
    assert (L5 : length (w_saddles w5) = length (w_saddles w2)).
    { rewrite Q3. unfold w4. cbn. by rewrite alter_length. }
    assert (X5 : forall j a, w_saddles w2 !! j = Some a -> exists b, w_saddles w5 !! j = Some b /\
      sa_feat b = sa_feat a /\ sa_parent b = sa_parent a /\ sa_children b = sa_children a /\
      forall x, x ∈ sa_alts b <-> x ∈ sa_alts a /\ j <> i /\ (j ∈ sa_alts s2 -> ~ same_place m w2 x i)).
    { intros j a Hj. destruct (decide (j = i)) as [->|Hne].
      - eexists. split; [exact Q1|]. cbn. assert (a = s2) as -> by congruence. split_and!; try done.
        intros x. rewrite elem_of_nil. tauto.
      - destruct (G4 j a Hj) as (al' & Hj3 & _ & Hx). eexists. split.
        + rewrite Q2 by done. unfold w4. rewrite upd_saddle_lookup, decide_False by done. exact Hj3.
        + cbn. split_and!; try done. intros x. rewrite Hx. tauto. }
    assert (N5 : forall j, w_saddles w2 !! j = None -> w_saddles w5 !! j = None).
    { intros j. rewrite !lookup_ge_None. lia. }
    assert (P5 : forall c, parent_of w5 c = parent_of w2 c).
    { intros c. unfold parent_of. destruct (w_saddles w2 !! c) as [a|] eqn:Ec.
      - destruct (X5 c a Ec) as (b & -> & _ & H & _). exact H.
      - by rewrite (N5 c Ec). }
    assert (C5 : forall p, children_of w5 p = children_of w2 p).
    { intros c. unfold children_of. destruct (w_saddles w2 !! c) as [a|] eqn:Ec.
      - destruct (X5 c a Ec) as (b & -> & _ & _ & H & _). exact H.
      - by rewrite (N5 c Ec). }
    assert (B5 : forall x y, same_place m w5 x y <-> same_place m w2 x y).
    { intros x y. split; intros (a & b & H1 & H2 & H).
      - destruct (w_saddles w2 !! x) as [a2|] eqn:Ex; [|rewrite (N5 x Ex) in H1; done].
        destruct (w_saddles w2 !! y) as [b2|] eqn:Ey; [|rewrite (N5 y Ey) in H2; done].
        destruct (X5 x a2 Ex) as (a3 & Ha3 & Ea & _). destruct (X5 y b2 Ey) as (b3 & Hb3 & Eb & _).
        assert (a3 = a) as -> by congruence. assert (b3 = b) as -> by congruence.
        exists a2, b2. rewrite <-Ea, <-Eb. done.
      - destruct (X5 x a H1) as (a3 & Ha3 & Ea & _). destruct (X5 y b H2) as (b3 & Hb3 & Eb & _).
        exists a3, b3. rewrite Ea, Eb. done. }
    assert (T2 : alts_of w2 i = sa_alts s2) by (unfold alts_of; by rewrite Hs2).
    assert (T5 : forall b x, x ∈ alts_of w5 b <-> x ∈ alts_of w2 b /\ b <> i /\ x <> i).
    { intros b x. unfold alts_of at 1. destruct (w_saddles w2 !! b) as [a|] eqn:Eb.
      - destruct (X5 b a Eb) as (b5 & -> & _ & _ & _ & H). cbn. rewrite H.
        assert (Hab : alts_of w2 b = sa_alts a) by (unfold alts_of; by rewrite Eb). rewrite <-Hab, <-T2.
        split.
        + intros (H1 & H2 & H3). split_and!; try done. intros ->.
          apply H3; [|exists s2, s2; by split_and!]. by apply (proj2 F2).
        + intros (H1 & H2 & H3). split_and!; try done. intros H4 Hpl. apply H3.
          apply (proj2 A2 b); try done. by apply (proj2 F2).
      - rewrite (N5 b Eb). cbn. unfold alts_of. rewrite Eb. cbn. rewrite elem_of_nil. tauto. }
    split_and!.
    - split.
      + intros c p. rewrite P5, C5. apply F2.
      + intros a b. rewrite !T5. intros (H1 & H2 & H3). split_and!; try done. by apply (proj2 F2).
    - split.
      + intros p x y. rewrite !C5, B5. apply A2.
      + intros b x y. rewrite !T5, B5. intros (H1 & _ & _) (H2 & _ & _). by apply (proj2 A2 b).
    - intros c. rewrite P5, P2, P1. repeat case_decide; try done; tauto.
    - intros p x. rewrite C5, C2, C1. tauto.
    - intros b x. rewrite T5, (fam_alts w w2 b); [tauto|]. by split_and!.
  Qed.
End family.
