(** The whole of basin saddle detection in a simple graph. *)
From Verif Require Import Base_model Graph_model Basin_model Graph_spec Basin_spec Graph_proof Basin_proof Search_proof
  Basin_facts Cycle_proof Forest_proof.
From Coq Require Import Sorted.
Local Open Scope Z_scope.

Lemma lowest_marked S B A w w' c b : marked S B A w w' -> lowest_on w' c b <-> lowest_on w c b.
Proof.
  intros M. unfold lowest_on. split; intros [H1 H2]; (split; [done|]); intros y Hy; specialize (H2 y Hy);
    by rewrite !(ele_marked _ _ _ _ _ _ M) in *.
Qed.
Lemma blamed_marked S B A w w' b : marked S B A w w' -> blamed (closed (open_edge w')) w' b ->
  blamed (closed (open_edge w)) w b.
Proof.
  intros M (c & Hc & Hl). exists c. split; [|by apply (lowest_marked _ _ _ _ _ _ _ M)].
  eapply closed_mono; [|done]. intros x y. by eapply marked_open_edge.
Qed.
Lemma alternatives_marked m S B A w w' w2 a : marked S B A w w' ->
  alternatives m (closed (open_edge w')) w' w2 a -> alternatives m (closed (open_edge w)) w w2 a.
Proof.
  intros M (c & low & x & s & Hc & H1 & H2 & H3 & H4 & H5 & H6 & H7). exists c, low, x, s.
  split; [eapply closed_mono; [|done]; intros ? ?; by eapply marked_open_edge|].
  split; [done|]. split; [done|]. split; [|split; [done|split; [done|split; [|done]]]].
  - intros i. rewrite H3. by eapply lowest_marked.
  - by rewrite <-(saddle_same_marked _ _ _ _ _ _ _ _ M).
Qed.
Lemma alternatives_kept m P S B A w w1 w2 a : marked S B A w1 w2 -> a ∉ A ->
  alternatives m P w w1 a -> alternatives m P w w2 a.
Proof.
  intros M Ha (c & low & x & s & Hc & H1 & H2 & H3 & H4 & H5 & H6 & H7).
  destruct (mk_saddle _ _ _ _ _ M _ _ H5) as (b & Hb & _ & _ & _ & _ & _ & _ & _ & E).
  exists c, low, x, b. rewrite (E Ha). done.
Qed.

Section loop.
  Variable m : datamap.

  (** What one search does. *)
  Lemma search_result w R feats : simple_graph w -> open_ w (Sad R) ->
    match search m (search_fuel w) (Sad R) (search_init w feats (Sad R)) with
    | Ok st => exists B A dn, bs_stack st = [] /\ iinv m w (Sad R) feats dn st /\ marked [] B A w (bs_world st) /\
        (forall b, b ∈ B -> blamed (closed (open_edge w)) w b) /\
        (forall a, a ∈ A -> alternatives m (closed (open_edge w)) w (bs_world st) a) /\
        (bs_cyc st = [] -> bs_world st = w) /\
        exists B' A', marked [] B' A' w (bs_world st) /\ forall b, b ∈ B' -> last_lowest w dn b
    | Err e => False
    end.
  Proof.
    intros G HR. pose proof (search_cycles m w (Sad R) feats G HR) as H.
    destruct (search _ _ _ _) as [st|e]; [|done]. destruct H as [Hs [dn I]].
    destruct (si_mark _ _ _ _ _ _ _ (i_s _ _ _ _ _ _ I)) as (B & A & M & HB & HA & _ & Hc).
    exists B, A, dn. split; [done|]. split; [done|]. split; [done|]. split; [|split; [|split]].
    - intros b Hb. by apply HB.
    - intros a Ha. by apply HA.
    - intros H. by apply Hc.
    - apply (p_ord _ _ _ _ (i_p _ _ _ _ _ _ I)).
  Qed.
  Lemma last_beaten w dn b : last_lowest w dn b -> exists c, beaten w (later w dn) c b.
  Proof.
    intros (c & Hc & Hb & Hy). exists c. split; [done|]. split; [done|]. intros j Hj Hne. apply Hy; [done|congruence].
  Qed.

  Lemma loop_cycles fuel : forall w feats, simple_graph w ->
    match basin_loop m fuel w feats with
    | Ok w' => exists B A, marked [] B A w w' /\ (forall b, b ∈ B -> blamed (closed (open_edge w)) w b) /\
        (forall a, a ∈ A -> alternatives m (closed (open_edge w)) w w' a)
    | Err e => e = OutOfFuel
    end.
  Proof.
    induction fuel as [|fuel IH]; intros w feats G; [done|]. cbn [basin_loop].
    destruct feats as [|r feats].
    { exists [], []. split; [apply marked_refl|]. split; intros b H; by apply elem_of_nil in H. }
    destruct (dead w (Sad r)) eqn:Ed; [by apply IH|].
    pose proof (search_result w r feats G (proj2 (open_dead _ _) Ed)) as Hs.
    destruct (search _ _ _ _) as [st|e]; cbn [rbind]; [|done].
    destruct Hs as (B & A & dn & _ & _ & M & HB & HA & _ & _).
    specialize (IH (bs_world st) (if decide (bs_cyc st = []) then drop_exempt (bs_look st) (bs_cyc st) (bs_feats st)
      else r :: drop_exempt (bs_look st) (bs_cyc st) (bs_feats st)) (simple_marked _ _ _ _ _ M G)).
    destruct (basin_loop _ _ _ _) as [w'|e]; [|done]. destruct IH as (B2 & A2 & M2 & HB2 & HA2).
    exists (B ++ B2), (A ++ A2). split; [exact (marked_trans _ _ _ _ _ _ _ _ _ M M2)|]. split.
    - intros b [Hb|Hb]%elem_of_app; [by apply HB|]. eapply blamed_marked; [done|by apply HB2].
    - intros a Ha. destruct (decide (a ∈ A2)) as [Ha2|Ha2].
      + eapply alternatives_marked; [done|by apply HA2].
      + apply elem_of_app in Ha as [Ha|Ha]; [|done]. eapply alternatives_kept; [done|done|by apply HA].
  Qed.

  (** ** What a search has seen *)
  Section seen.
    Variables (w : world) (R : nat) (feats : list nat) (dn : list node) (st : bstate).
    Hypothesis G : simple_graph w.
    Hypothesis I : iinv m w (Sad R) feats dn st.
    Hypothesis Hend : bs_stack st = [].

    Notation seen n := (is_Some (bs_look st !! n)).
    Lemma seen_dn n : seen n <-> n ∈ dn.
    Proof.
      pose proof (si_seen _ _ _ _ _ _ _ (i_s _ _ _ _ _ _ I) n) as H. rewrite Hend, app_nil_r in H. by rewrite H.
    Qed.
    Lemma seen_open n : seen n -> open_ w n.
    Proof. intros H. apply open_dead. by apply (si_open _ _ _ _ _ _ _ (i_s _ _ _ _ _ _ I)). Qed.
    Lemma seen_root : seen (Sad R).
    Proof.
      apply seen_dn. destruct (i_root _ _ _ _ _ _ I) as [H|[_ H]]; [by eapply elem_of_list_lookup_2|]. by rewrite Hend in H.
    Qed.

    Lemma first_root : dn !! 0%nat = Some (Sad R).
    Proof. destruct (i_root _ _ _ _ _ _ I) as [H|[_ H]]; [done|]. by rewrite Hend in H. Qed.

    Definition reach_ (w : world) : nat -> nat -> Prop :=
      rtc (hop2 w (fun i => open_ w (Sad i)) (fun a => open_ w (Sum a))).
    Definition join_ (w : world) (i j : nat) : Prop :=
      exists a r, a ∈ summits_of w i /\ open_ w (Sum a) /\ r ∈ summits_of w j /\ open_ w (Sum r) /\ reach_ w a r.

    (** Everything seen is connected to the root. *)
    Lemma seen_joined n : seen n ->
      match n with
      | inr a => exists r, r ∈ summits_of w R /\ open_ w (Sum r) /\ reach_ w a r
      | inl i => i = R \/ join_ w i R
      end.
    Proof.
      destruct (si_tree _ _ _ _ _ _ _ (i_s _ _ _ _ _ _ I)) as [d T].
      remember (d n) as k eqn:Ek. revert n Ek. induction (lt_wf k) as [k _ IH]. intros n -> Hn.
      destruct (decide (n = Sad R)) as [->|HnR]; [by left|].
      pose proof (seen_open n Hn) as Hon. destruct (bs_look st !! n) as [p|] eqn:El; [|by destruct Hn].
      destruct (t_up _ _ _ T n p El HnR) as [Hp Hd]. specialize (IH (d p) Hd p eq_refl Hp).
      destruct (p_tree _ _ _ _ (i_p _ _ _ _ _ _ I) n p El HnR) as (_ & He & _).
      pose proof (seen_open p Hp) as Hop. pose proof (sg_sym _ G _ _ Hop Hon He) as He'.
      destruct n as [i|a], p as [j|b]; try done.
      - right. destruct IH as (r & H1 & H2 & H3). by exists b, r.
      - destruct IH as [->|(a' & r & H1 & H2 & H3 & H4 & H5)].
        + exists a. done.
        + exists r. split; [done|]. split; [done|]. eapply rtc_l; [|exact H5].
          exists j. split; [done|]. split; [by apply open_disq|]. done.
    Qed.

    Hypothesis Hplain : bs_cyc st = [].
    Hypothesis Hw : bs_world st = w.
    Lemma seen_met x y : seen x -> open_edge w x y -> met st x y.
    Proof.
      intros Hx (H1 & H2 & H3). apply (i_done _ _ _ _ _ _ I); [by apply seen_dn|done|..]; rewrite Hw; by apply open_dead.
    Qed.
    Lemma seen_next x y : seen x -> open_edge w x y -> seen y.
    Proof. intros Hx He. by apply (seen_met x y Hx He). Qed.
    Lemma seen_all i : join_ w i R -> open_ w (Sad i) -> seen (Sad i).
    Proof.
      intros (a & r & H1 & H2 & H3 & H4 & H5) Hi.
      assert (seen (Sum r)) as Hr.
      { apply (seen_next (Sad R)); [apply seen_root|]. split; [apply seen_open, seen_root|]. done. }
      assert (seen (Sum a)) as Ha.
      { clear H1 H2 H3 H4 Hi. induction H5 as [|x y z (j & Hj & _ & Hx & Hy & Hx' & Hy') _ IH]; [done|].
        specialize (IH Hr). apply (seen_next (Sad j)); [|done]. apply (seen_next (Sum y)); [done|].
        split; [done|]. split; [done|]. by apply (sg_sym _ G (Sad j) (Sum y)). }
      apply (seen_next (Sum a)); [done|]. split; [done|]. split; [done|]. by apply (sg_sym _ G (Sad i) (Sum a)).
    Qed.

    Lemma seen_tree x y : seen x -> open_edge w x y ->
      (y <> Sad R /\ bs_look st !! y = Some x) \/ (x <> Sad R /\ bs_look st !! x = Some y).
    Proof.
      intros Hx He. destruct (seen_met x y Hx He) as [_ [(py & H1 & H2)|(px & H1 & H2)]]; [left|right];
        by apply (p_plain _ _ _ _ (i_p _ _ _ _ _ _ I) Hplain _ _ _ H1 H2).
    Qed.

    Lemma linked_all (c : list node) : linked (open_edge w) c -> (forall x, x ∈ c -> exists y, y ∈ c /\ seen y) -> forall x, x ∈ c -> seen x.
    Proof.
      intros Hl Hex x Hx. destruct (Hex x Hx) as (y & Hy & Hs).
      apply elem_of_list_lookup in Hx as [i Hi], Hy as [j Hj].
      assert (forall k z, (j <= k)%nat -> c !! k = Some z -> seen z) as Hup.
      { intros k z Hk. revert z. induction Hk as [|k Hk IH]; intros z Hz; [congruence|].
        destruct (c !! k) as [v|] eqn:Ev; [|apply lookup_ge_None in Ev; apply lookup_lt_Some in Hz; lia].
        apply (seen_next v); [by apply IH|]. by apply (Hl k). }
      assert (forall n k z, (k + n = j)%nat -> c !! k = Some z -> seen z) as Hdown.
      { induction n as [|n IH]; intros k z Hk Hz; [replace j with k in Hj by lia; congruence|].
        destruct (c !! S k) as [v|] eqn:Ev; [|apply lookup_ge_None in Ev; apply lookup_lt_Some in Hj; lia].
        destruct (Hl k z v Hz Ev) as (H1 & H2 & H3).
        apply (seen_next v); [by apply (IH (S k)); [lia|]|]. split; [done|]. split; [done|]. by apply (sg_sym _ G z v). }
      destruct (decide (j <= i)%nat); [by apply (Hup i)|]. apply (Hdown (j - i)%nat i); [lia|done].
    Qed.

    Lemma max_depth (d : node -> nat) c : c <> [] -> exists x, x ∈ c /\ forall y, y ∈ c -> (d y <= d x)%nat.
    Proof.
      induction c as [|x c IH]; [done|]. intros _. destruct c as [|x' c].
      - exists x. split; [by left|]. by intros y ->%elem_of_list_singleton.
      - destruct IH as (z & Hz & Hmax); [done|]. destruct (decide (d x <= d z)%nat).
        + exists z. split; [by right|]. intros y [->|Hy]%elem_of_cons; [done|by apply Hmax].
        + exists x. split; [by left|]. intros y [->|Hy]%elem_of_cons; [done|]. specialize (Hmax y Hy). lia.
    Qed.

    (** No closed chain passes through anything seen. *)
    Lemma seen_acyclic c x : closed (open_edge w) c -> x ∈ c -> seen x -> False.
    Proof.
      intros Hc Hx Hs. assert (forall z, z ∈ c -> seen z) as Hall.
      { apply linked_all; [by apply (linked_app _ c (take 1 c)), Hc|]. intros z _. by exists x. }
      destruct (si_tree _ _ _ _ _ _ _ (i_s _ _ _ _ _ _ I)) as [d T].
      destruct (max_depth d c) as (n & Hn & Hmax); [by intros ->; apply elem_of_nil in Hx|].
      destruct (closed_from _ _ _ Hc Hn) as (a & b & l & _ & Hmem & Ha & Hb & Hab & Hna & Hbn & _).
      assert (a ∈ c) as Hac. { apply Hmem. right. by eapply elem_of_list_lookup_2. }
      assert (b ∈ c) as Hbc. { apply Hmem. right. apply last_Some in Hb as [l' ->]. apply elem_of_app. right. by left. }
      assert (forall y, y ∈ c -> open_edge w n y -> bs_look st !! n = Some y) as Hpar.
      { intros y Hy He. destruct (seen_tree n y (Hall n Hn) He) as [[H1 H2]|[_ H]]; [|done].
        destruct (t_up _ _ _ T y n H2 H1) as [_ Hd]. specialize (Hmax y Hy). lia. }
      pose proof (Hpar a Hac Hna) as E1.
      assert (open_edge w n b) as Hnb. { destruct Hbn as (H1 & H2 & H3). split; [done|]. split; [done|]. by apply (sg_sym _ G). }
      pose proof (Hpar b Hbc Hnb) as E2. congruence.
    Qed.
  End seen.

  (** ** Acyclicity *)
  Definition no_chain (w : world) (i : nat) : Prop := forall c, closed (open_edge w) c -> Sad i ∉ c.
  Record jinv (w : world) (feats : list nat) : Prop := {
    j_sorted : StronglySorted (fun i j => ele_at w (Sad j) <= ele_at w (Sad i)) feats;
    j_rest : forall i, open_ w (Sad i) -> i ∉ feats -> no_chain w i \/
      exists R rest, feats = R :: rest /\ open_ w (Sad R) /\ ele_at w (Sad i) <= ele_at w (Sad R) /\ join_ w i R }.

  Lemma sorted_sub {A} (P : A -> A -> Prop) l k : l `sublist_of` k -> StronglySorted P k -> StronglySorted P l.
  Proof.
    induction 1 as [|x l k H IH|x l k H IH]; [done| |]; intros [Hs Hf]%StronglySorted_inv; [|auto].
    constructor; [auto|]. rewrite Forall_forall in *. intros y Hy. apply Hf.
    by eapply elem_of_submseteq, sublist_submseteq.
  Qed.
  Lemma sorted_ext {A} (P Q : A -> A -> Prop) l : (forall x y, P x y -> Q x y) -> StronglySorted P l -> StronglySorted Q l.
  Proof.
    intros H. induction 1 as [|x l Hs IH Hf]; constructor; [done|]. eapply Forall_impl; [done|]. auto.
  Qed.
  Lemma no_chain_marked S B A w w' i : marked S B A w w' -> no_chain w i -> no_chain w' i.
  Proof. intros M H c Hc. apply H. eapply closed_mono; [|done]. intros ? ?. by eapply marked_open_edge. Qed.

  (** A closed chain has a second saddle. *)
  Lemma other_saddle w c r : simple_graph w -> closed (open_edge w) c -> Sad r ∈ c ->
    exists j, j <> r /\ Sad j ∈ c /\ open_ w (Sad j).
  Proof.
    intros G Hc Hr. destruct (closed_from _ _ _ Hc Hr) as (a & _ & l & _ & Hmem & Ha & _ & _ & (H1 & H2 & H3) & _).
    assert (a ∈ c) as Hac. { apply Hmem. right. by eapply elem_of_list_lookup_2. }
    destruct a as [?|u]; [done|].
    destruct (closed_from _ _ _ Hc Hac) as (x & y & l' & _ & Hmem' & Hx & Hy & Hxy & (_ & Ho1 & E1) & (Ho2 & _ & E2) & _).
    assert (x ∈ c) as Hxc. { apply Hmem'. right. by eapply elem_of_list_lookup_2. }
    assert (y ∈ c) as Hyc. { apply Hmem'. right. apply last_Some in Hy as [l2 ->]. apply elem_of_app. right. by left. }
    destruct x as [j|?]; [|done]. destruct y as [k|?]; [|done].
    destruct (decide (j = r)) as [->|]; [|by exists j]. exists k. split; [congruence|done].
  Qed.

  Lemma loop_forest fuel : forall w feats w', simple_graph w ->
    (forall i, open_ w (Sad i) -> (length (summits_of w i) <= 2)%nat) ->
    jinv w feats -> basin_loop m fuel w feats = Ok w' -> forall c, ~ closed (open_edge w') c.
  Proof.
    induction fuel as [|fuel IH]; intros w feats w' G two [J1 J2]; [done|]. cbn [basin_loop].
    destruct feats as [|R feats].
    { intros [= <-] c Hc. pose proof Hc as (Hlen & _). destruct c as [|n c]; [cbn in Hlen; lia|].
      assert (exists i, Sad i ∈ n :: c /\ open_ w (Sad i)) as (i & Hi & Hoi).
      { destruct (closed_from _ _ n Hc ltac:(by left)) as (a & _ & l & _ & Hmem & Ha & _ & _ & (H1 & H2 & H3) & _).
        assert (a ∈ n :: c) as Hac. { apply Hmem. right. by eapply elem_of_list_lookup_2. }
        destruct n as [i|u]; [exists i; split; [by left|done]|]. destruct a as [i|]; [by exists i|done]. }
      destruct (J2 i Hoi) as [H|(R & rest & H & _)]; [apply not_elem_of_nil| |done]. by apply (H _ Hc). }
    apply StronglySorted_inv in J1 as [J1 J1']. rewrite Forall_forall in J1'.
    destruct (dead w (Sad R)) eqn:Ed.
    { apply IH; [done|done|]. split; [done|]. intros i Hoi Hi. destruct (decide (i = R)) as [->|Hne].
      { apply open_dead in Hoi. congruence. }
      destruct (J2 i Hoi) as [H|(R' & rest & [= <- <-] & H & _)]; [rewrite elem_of_cons; tauto|by left|].
      apply open_dead in H; congruence. }
    pose proof (proj2 (open_dead _ _) Ed) as HoR.
    pose proof (search_result w R feats G HoR) as Hs.
    destruct (search _ _ _ _) as [st|e]; cbn [rbind]; [|done].
    destruct Hs as (_ & _ & dn & Hend & Inv & _ & _ & _ & Hpl & B & A & M & HB).
    set (left_ := drop_exempt (bs_look st) (bs_cyc st) (bs_feats st)).
    pose proof (si_feats _ _ _ _ _ _ _ (i_s _ _ _ _ _ _ Inv)) as Hsub.
    assert (left_ `sublist_of` feats) as Hleft by (etrans; [apply drop_exempt_sub|done]).
    assert (forall i, open_ (bs_world st) (Sad i) -> i ∉ left_ -> i ∈ feats -> is_Some (bs_look st !! Sad i)) as Hgone.
    { intros i Hoi Hi Hif. destruct (decide (i ∈ bs_feats st)) as [Hib|Hib].
      - destruct (bs_look st !! Sad i) eqn:E; [done|]. destruct Hi. apply elem_of_list_filter. split; [by left|done].
      - apply (si_gone _ _ _ _ _ _ _ (i_s _ _ _ _ _ _ Inv)) in Hib; [|done]. apply open_dead in Hoi. congruence. }
    assert (simple_graph (bs_world st)) as G' by by eapply simple_marked.
    assert (forall i, open_ (bs_world st) (Sad i) -> (length (summits_of (bs_world st) i) <= 2)%nat) as two'.
    { intros i Hi. rewrite (marked_summits_of _ _ _ _ _ _ M). apply two. by eapply marked_open. }
    destruct (decide (bs_cyc st = [])) as [Ec|Ec]; apply IH; try done.
    - specialize (Hpl Ec). rewrite Hpl in *. split; [by eapply sorted_sub|]. intros i Hoi Hi. left.
      assert (is_Some (bs_look st !! Sad i) -> no_chain w i) as Hno.
      { intros H c Hc Hic. by eapply (seen_acyclic w R feats dn st). }
      destruct (decide (i ∈ feats)) as [Hif|Hif]; [by apply Hno, Hgone|].
      destruct (decide (i = R)) as [->|Hne]; [apply Hno; by eapply seen_root|].
      destruct (J2 i Hoi) as [H|(R' & rest & [= <- <-] & _ & _ & H)]; [rewrite elem_of_cons; tauto|done|].
      apply Hno. by eapply seen_all.
    - assert (R ∉ B) as HRB.
      { intros Hb. destruct (HB R Hb) as (c & Hc & HRc & Hmin).
        destruct (other_saddle w c R G Hc HRc) as (j & Hj & Hjc & Hoj).
        assert (ele_at w (Sad R) < ele_at w (Sad j)) as Hlt.
        { destruct (Hmin _ Hjc) as [|[_ (k & Hk & HRk)]]; [congruence|done|].
          pose proof (first_root w R feats dn st Inv Hend) as H0. specialize (HRk 0%nat H0). lia. }
        destruct (decide (j ∈ R :: feats)) as [Hin|Hin].
        - apply elem_of_cons in Hin as [->|Hin]; [done|]. specialize (J1' j Hin). cbn beta in J1'. lia.
        - destruct (J2 j Hoj Hin) as [H|(R' & rest & [= <- <-] & _ & H & _)]; [by apply (H c)|lia]. }
      assert (open_ (bs_world st) (Sad R)) as HoR'. { eapply open_marked; [done|done|]. by intros i [= <-]. }
      assert (forall i, open_ (bs_world st) (Sad i) -> join_ w i R -> join_ (bs_world st) i R) as Hjoin.
      { intros i Hi (a & r & H1 & H2 & H3 & H4 & H5). exists a, r. rewrite !(marked_summits_of _ _ _ _ _ _ M).
        assert (forall x, open_ w (Sum x) <-> open_ (bs_world st) (Sum x)) as Hsu.
        { intros x. cbn. by rewrite (mk_summits _ _ _ _ _ M). }
        rewrite <-!Hsu. split; [done|]. split; [done|]. split; [done|]. split; [done|].
        unfold reach_ in *.
        eapply (hops_kept w B G two (later w dn) (later_trans w dn) (later_wf w dn) (fun b Hb => last_beaten w dn b (HB b Hb)) A (bs_world st) M (fun i => open_ w (Sad i)) (fun a => open_ w (Sum a))) in H5; [|done|done].
        eapply rtc_subrel; [|exact H5]. intros x y (j & Hj1 & Hj2 & Hj3 & Hj4 & Hj5). exists j.
        split; [|split; [done|]; rewrite <-!Hsu; done].
        destruct Hj1 as (s & Hs1 & _ & Hs2). destruct Hj2 as (s' & Hs'1 & Hs'2). exists s'. split; [done|]. split; [done|].
        destruct (mk_saddle _ _ _ _ _ M _ _ Hs1) as (b & Hb & Ef & _). assert (b = s') as -> by congruence. by rewrite Ef. }
      split.
      + constructor; [eapply sorted_ext; [|by eapply sorted_sub]|].
        * intros x y. by rewrite !(ele_marked _ _ _ _ _ _ M).
        * apply Forall_forall. intros y Hy. rewrite !(ele_marked _ _ _ _ _ _ M). apply J1'.
          by eapply elem_of_submseteq, sublist_submseteq.
      + intros i Hoi [HiR Hi]%not_elem_of_cons. pose proof (marked_open _ _ _ _ _ _ M Hoi) as Hoi'.
        assert (ele_at w (Sad i) <= ele_at w (Sad R) -> join_ w i R -> no_chain (bs_world st) i \/
          exists R0 rest, R :: left_ = R0 :: rest /\ open_ (bs_world st) (Sad R0) /\
            ele_at (bs_world st) (Sad i) <= ele_at (bs_world st) (Sad R0) /\ join_ (bs_world st) i R0) as Hsecond.
        { intros H1 H2. right. exists R, left_. split; [done|]. split; [done|]. rewrite !(ele_marked _ _ _ _ _ _ M).
          split; [done|]. by apply Hjoin. }
        destruct (decide (i ∈ feats)) as [Hif|Hif].
        * pose proof (seen_joined w R feats dn st G Inv (Sad i) (Hgone i Hoi Hi Hif)) as [->|Hj]; [done|].
          apply Hsecond; [|done]. by apply J1'.
        * destruct (J2 i Hoi') as [H|(R' & rest & [= <- <-] & _ & H1 & H2)]; [rewrite elem_of_cons; tauto| |by apply Hsecond].
          left. by eapply no_chain_marked.
  Qed.

  (** Connections survive. *)
  Lemma loop_joined fuel (ok su : nat -> Prop) : forall w feats w', simple_graph w ->
    (forall i, open_ w (Sad i) -> (length (summits_of w i) <= 2)%nat) ->
    (forall i j, ok i -> open_ w (Sad j) -> ele_at w (Sad i) <= ele_at w (Sad j) -> ok j) ->
    (forall a, open_ w (Sum a) -> su a) -> basin_loop m fuel w feats = Ok w' ->
    forall a b, rtc (hop2 w ok su) a b <-> rtc (hop2 w' ok su) a b.
  Proof.
    induction fuel as [|fuel IH]; intros w feats w' G two Hok Hsu; [done|]. cbn [basin_loop].
    destruct feats as [|R feats]; [by intros [= <-]|].
    destruct (dead w (Sad R)) eqn:Ed; [by apply IH|].
    pose proof (search_result w R feats G (proj2 (open_dead _ _) Ed)) as Hs.
    destruct (search _ _ _ _) as [st|e]; cbn [rbind]; [|done].
    destruct Hs as (_ & _ & dn & _ & _ & _ & _ & _ & _ & B & A & M & HB). intros E a b.
    etrans; [|eapply IH; [..|exact E]].
    - apply (hops_kept w B G two (later w dn) (later_trans w dn) (later_wf w dn)
        (fun b Hb => last_beaten w dn b (HB b Hb)) A (bs_world st) M); [|done].
      intros i j Hi Hj Hl. apply (Hok i j Hi Hj). destruct Hl as [|[? _]]; lia.
    - by eapply simple_marked.
    - intros i Hi. rewrite (marked_summits_of _ _ _ _ _ _ M). apply two. by eapply marked_open.
    - intros i j Hi Hj. rewrite !(ele_marked _ _ _ _ _ _ M). apply Hok; [done|by eapply marked_open].
    - intros x Hx. apply Hsu. by eapply marked_open.
  Qed.
End loop.
