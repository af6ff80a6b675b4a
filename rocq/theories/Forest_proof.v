(** Cycles and connections under the removal of lowest saddles. *)
From Verif Require Import Base_model Graph_model Basin_model Graph_spec Basin_spec Graph_proof Basin_proof Search_proof
  Basin_facts Cycle_proof.
Local Open Scope Z_scope.

(** ** Chains *)
Lemma linked_app {A} (R : A -> A -> Prop) l1 l2 : linked R (l1 ++ l2) -> linked R l1 /\ linked R l2.
Proof.
  intros H. split.
  - intros i x y Hx Hy. apply (H i); by apply lookup_app_l_Some.
  - intros i x y Hx Hy. apply (H (length l1 + i)%nat).
    + rewrite lookup_app_r by lia. by replace (length l1 + i - length l1)%nat with i by lia.
    + rewrite lookup_app_r by lia. by replace (S (length l1 + i) - length l1)%nat with (S i) by lia.
Qed.
Lemma linked_app_intro {A} (R : A -> A -> Prop) l1 x l2 : linked R (l1 ++ [x]) -> linked R (x :: l2) -> linked R (l1 ++ x :: l2).
Proof.
  induction l1 as [|y l1 IH]; cbn; intros H1 H2; [done|]. apply linked_cons in H1 as [Ha Hb].
  apply linked_cons. split; [|by apply IH]. intros z Hz. apply Ha. by destruct l1.
Qed.
Lemma linked_mono {A} (R R' : A -> A -> Prop) l : (forall x y, R x y -> R' x y) -> linked R l -> linked R' l.
Proof. intros H Hl i x y Hx Hy. apply H. by eapply Hl. Qed.
Lemma closed_mono {A} (R R' : A -> A -> Prop) l : (forall x y, R x y -> R' x y) -> closed R l -> closed R' l.
Proof. intros H (H1 & H2 & H3). split; [done|]. split; [done|]. by eapply linked_mono. Qed.

(** A closed chain can start at any member. *)
Lemma closed_rotate {A} (R : A -> A -> Prop) l1 x l2 : closed R (l1 ++ x :: l2) -> closed R (x :: l2 ++ l1).
Proof.
  intros (H1 & H2 & H3). split; [|split].
  - rewrite app_length in H1. cbn in *. rewrite app_length. lia.
  - rewrite app_comm_cons. by rewrite (Permutation_app_comm (x :: l2) l1).
  - destruct l1 as [|y l1].
    + cbn in *. by rewrite app_nil_r.
    + assert (linked R ((y :: l1) ++ (x :: l2 ++ [y]))) as H4.
      { cbn [take app] in H3 |- *. rewrite <-app_assoc in H3. cbn in H3. by rewrite take_0 in H3. }
      clear H3. rename H4 into H3.
      cbn [take app]. rewrite take_0, <-app_assoc. cbn [app].
      pose proof (linked_app _ _ _ H3) as [_ Hr].
      replace ((y :: l1) ++ x :: l2 ++ [y]) with (((y :: l1) ++ [x]) ++ (l2 ++ [y])) in H3
        by (rewrite <-!app_assoc; done).
      apply linked_app in H3 as [Hl _].
      change (x :: l2 ++ y :: l1 ++ [x]) with ((x :: l2) ++ y :: (l1 ++ [x])).
      apply linked_app_intro; done.
Qed.
(** Seen from member [x]. *)
Lemma closed_from {A} (R : A -> A -> Prop) c x : closed R c -> x ∈ c ->
  exists a b l, closed R (x :: l) /\ (forall z, z ∈ c <-> z = x \/ z ∈ l) /\
    l !! 0%nat = Some a /\ last l = Some b /\ a <> b /\ R x a /\ R b x /\ linked R l.
Proof.
  intros Hc Hx. apply elem_of_list_split in Hx as (l1 & l2 & ->).
  pose proof (closed_rotate _ _ _ _ Hc) as Hr. pose proof Hr as (H1 & H2 & H3). cbn [take] in H3. cbn [app] in H3.
  destruct (l2 ++ l1) as [|a l] eqn:E; [cbn in H1; lia|]. rewrite <-E in *.
  destruct (last (l2 ++ l1)) as [b|] eqn:Eb; [|apply last_None in Eb; by rewrite E in Eb].
  exists a, b, (l2 ++ l1). split; [done|]. split.
  { intros z. rewrite !elem_of_app, elem_of_cons. tauto. }
  split; [by rewrite E|]. split; [done|].
  rewrite app_comm_cons in H3. pose proof H3 as [Hl _]%linked_app. apply linked_cons in Hl as [Hxa Hl].
  split; [|split; [apply Hxa; by rewrite E|split; [|done]]].
  - rewrite E in Eb, H1, H2. cbn in H1. intros ->. rewrite last_cons in Eb. apply NoDup_cons in H2 as [_ H2].
    apply NoDup_cons in H2 as [H2 _]. apply H2. destruct (last l) eqn:El.
    + injection Eb as ->. apply last_Some in El as [l' ->]. apply elem_of_app. right. by left.
    + apply last_None in El as ->. cbn in H1. lia.
  - apply last_Some in Eb as [l' Eb]. rewrite Eb in H3. apply (H3 (length (x :: l'))).
    + rewrite app_comm_cons, lookup_app_l; [|rewrite app_length; cbn; lia].
      by rewrite lookup_app_r, Nat.sub_diag by done.
    + rewrite lookup_app_r; cbn [length]; rewrite app_length; cbn [length]; [|lia].
      by replace (S (S (length l')) - S (length l' + 1))%nat with 0%nat by lia.
Qed.

(** ** Marking keeps a graph simple *)
Lemma marked_open_edge S B A w w' n n' : marked S B A w w' -> open_edge w' n n' -> open_edge w n n'.
Proof.
  intros M (H1 & H2 & H3). split; [by eapply marked_open|]. split; [by eapply marked_open|]. by apply (marked_edge _ _ _ _ _ _ _ M).
Qed.
Lemma ele_marked S B A w w' n : marked S B A w w' -> ele_at w' n = ele_at w n.
Proof. intros M. rewrite <-!ele_node. by eapply marked_ele. Qed.
Lemma filter_sub {A} (P Q : A -> Prop) `{!forall x, Decision (P x), !forall x, Decision (Q x)} (l : list A) :
  (forall x, P x -> Q x) -> filter P l `sublist_of` filter Q l.
Proof.
  intros Hi. induction l as [|x l IH]; [done|]. rewrite !filter_cons. destruct (decide (P x)), (decide (Q x)).
  - by constructor.
  - by destruct n; apply Hi.
  - by constructor.
  - done.
Qed.
Lemma sub_NoDup {A} (l k : list A) : l `sublist_of` k -> NoDup k -> NoDup l.
Proof.
  induction 1 as [|x l k H IH|x l k H IH]; [done| |]; intros [H1 H2]%NoDup_cons; [|auto].
  constructor; [|auto]. intros Hx. apply H1. by eapply elem_of_submseteq, sublist_submseteq.
Qed.
Lemma simple_marked S B A w w' : marked S B A w w' -> simple_graph w -> simple_graph w'.
Proof.
  intros M G. split.
  - intros n n' H1 H2 H3. apply (marked_edge _ _ _ _ _ _ _ M). apply (marked_edge _ _ _ _ _ _ _ M) in H3.
    apply (sg_sym _ G); [by eapply marked_open|by eapply marked_open|done].
  - intros i Hi. rewrite (marked_summits_of _ _ _ _ _ _ M). eapply sub_NoDup; [|apply (sg_sad _ G i)].
    + apply filter_sub. intros a Ha. destruct (dead w (Sum a)) eqn:E; [|done]. by rewrite (marked_dead _ _ _ _ _ _ M E) in Ha.
    + by eapply marked_open.
  - intros i Hi. rewrite (marked_saddles_of _ _ _ _ _ _ M). eapply sub_NoDup; [|apply (sg_sum _ G i)].
    + apply filter_sub. intros a Ha. destruct (dead w (Sad a)) eqn:E; [|done]. by rewrite (marked_dead _ _ _ _ _ _ M E) in Ha.
    + by eapply marked_open.
  - intros i a H1 H2 H3. rewrite !(ele_marked _ _ _ _ _ _ M). apply (sg_up _ G); [by eapply marked_open|by eapply marked_open|].
    by apply (marked_edge _ _ _ _ _ _ _ M).
Qed.
Lemma open_marked B A w w' n : marked [] B A w w' -> open_ w n -> (forall i, n = Sad i -> i ∉ B) -> open_ w' n.
Proof.
  intros M. destruct n as [i|a].
  - intros (s & Hs & Hd & He) Hn. specialize (Hn i eq_refl).
    destruct (mk_saddle _ _ _ _ _ M _ _ Hs) as (b & Hb & Ef & _ & _ & _ & Eo & Es & Eb & _).
    exists b. split; [done|]. rewrite Ef. split; [|done]. unfold disqualified in *. rewrite Eo.
    destruct (sa_over s); [done|].
    assert (sa_single b = sa_single s) as ->. { apply eq_true_iff_eq. rewrite Es, elem_of_nil. tauto. }
    assert (sa_basin b = sa_basin s) as ->; [|done]. apply eq_true_iff_eq. rewrite Eb. tauto.
  - intros H _. cbn in *. by rewrite (mk_summits _ _ _ _ _ M).
Qed.
Lemma not_disq_marked B A w w' i : marked [] B A w w' -> not_disq w i -> i ∉ B -> not_disq w' i.
Proof.
  intros M (s & Hs & Hd) Hn.
  destruct (mk_saddle _ _ _ _ _ M _ _ Hs) as (b & Hb & _ & _ & _ & _ & Eo & Es & Eb & _).
  exists b. split; [done|]. unfold disqualified in *. rewrite Eo. destruct (sa_over s); [done|].
  assert (sa_single b = sa_single s) as ->. { apply eq_true_iff_eq. rewrite Es, elem_of_nil. tauto. }
  assert (sa_basin b = sa_basin s) as ->; [|done]. apply eq_true_iff_eq. rewrite Eb. tauto.
Qed.
Lemma disq_marked S B A w w' i : marked S B A w w' -> not_disq w' i -> not_disq w i.
Proof.
  intros M (b & Hb & Hd). destruct (marked_back _ _ _ _ _ _ _ M Hb) as [a Ha]. exists a. split; [done|].
  destruct (disqualified a) eqn:E; [|done]. by rewrite (marked_disq _ _ _ _ _ _ _ _ M Ha Hb E) in Hd.
Qed.

(** ** Removing lowest saddles keeps connections *)

(** Like [hop], with a condition on the summits. *)
Definition hop2 (w : world) (ok su : nat -> Prop) (a b : nat) : Prop :=
  exists i, ok i /\ not_disq w i /\ su a /\ su b /\ a ∈ summits_of w i /\ b ∈ summits_of w i.
Lemma hop2_sym w ok su a b : hop2 w ok su a b -> hop2 w ok su b a.
Proof. intros (i & H1 & H2 & H3 & H4 & H5 & H6). exists i. split_and!; done. Qed.
Lemma rtc_sym' {A} (R : A -> A -> Prop) x y : (forall a b, R a b -> R b a) -> rtc R x y -> rtc R y x.
Proof. intros Hs. induction 1 as [|a b c H _ IH]; [done|]. eapply rtc_r; [done|]. by apply Hs. Qed.

Section red.
  Variables (w : world) (Bs : list nat).
  Hypothesis G : simple_graph w.
  Hypothesis two : forall i, open_ w (Sad i) -> (length (summits_of w i) <= 2)%nat.
  (** [below b i]: saddle [b] comes before saddle [i] in the order of removal. *)
  Variable below : nat -> nat -> Prop.
  Definition beaten (c : list node) (b : nat) : Prop :=
    closed (open_edge w) c /\ Sad b ∈ c /\ forall j, Sad j ∈ c -> j <> b -> below b j.

  Lemma open_disq i : open_ w (Sad i) -> not_disq w i.
  Proof. intros (s & H1 & H2 & _). by exists s. Qed.

  (** Along a chain of open nodes. *)
  Lemma chain_hops (ok : nat -> Prop) l : forall n v, linked (open_edge w) (n :: l) -> last (n :: l) = Some (Sum v) ->
    (forall i, Sad i ∈ n :: l -> ok i /\ open_ w (Sad i)) -> open_ w n ->
    match n with
    | inr u => rtc (hop2 w ok (fun a => open_ w (Sum a))) u v
    | inl i => forall u, u ∈ summits_of w i -> open_ w (Sum u) -> rtc (hop2 w ok (fun a => open_ w (Sum a))) u v
    end.
  Proof.
    induction l as [|n' l IH]; intros n v Hl Hv Hok Hn.
    { injection Hv as ->. done. }
    apply linked_cons in Hl as [He Hl]. specialize (He n' eq_refl). destruct He as (H1 & H2 & He).
    specialize (IH n' v Hl). rewrite last_cons_cons in Hv. specialize (IH Hv (fun i Hi => Hok i ltac:(by right)) H2).
    destruct n as [i|u], n' as [j|u']; try done.
    - intros u Hu Hou. eapply rtc_l; [|exact IH]. destruct (Hok i) as [Hi Hi']; [by left|].
      exists i. split_and!; try done. by apply open_disq.
    - apply IH; [|done]. by apply (sg_sym _ G (Sum u) (Sad j)) in He.
  Qed.

  Lemma two_other b u v x : open_ w (Sad b) -> u ∈ summits_of w b -> v ∈ summits_of w b -> u <> v ->
    x ∈ summits_of w b -> x = u \/ x = v.
  Proof.
    intros Hb Hu Hv Huv Hx. specialize (two b Hb). destruct (summits_of w b) as [|s1 [|s2 [|s3 l]]]; cbn in two; try lia;
      rewrite ?elem_of_cons, ?elem_of_nil in *; naive_solver.
  Qed.

  (** The chain around a blamed saddle, seen from it. *)
  Lemma around c b : beaten c b ->
    open_ w (Sad b) /\ exists u v, u <> v /\ u ∈ summits_of w b /\ v ∈ summits_of w b /\
      open_ w (Sum u) /\ open_ w (Sum v) /\
      rtc (hop2 w (fun i => open_ w (Sad i) /\ below b i) (fun a => open_ w (Sum a))) u v.
  Proof.
    intros (Hc & Hb & Hmin). destruct (closed_from _ _ _ Hc Hb) as (x & y & l & Hcl & Hmem & Hx & Hy & Hxy & Ebx & Eyb & Hl).
    destruct Ebx as (Hob & Hox & Ebx). destruct Eyb as (Hoy & _ & Eyb).
    split; [done|]. apply (sg_sym _ G) in Eyb; [|done..].
    destruct x as [?|u], y as [?|v]; try done. exists u, v. split; [congruence|].
    split; [done|]. split; [done|]. split; [done|]. split; [done|].
    destruct l as [|? l]; [done|]. injection Hx as ->.
    apply (chain_hops _ l (Sum u) v Hl Hy); [|done].
    intros i Hi. assert (i <> b) as Hne.
    { intros ->. destruct Hcl as (_ & Hnd & _). by apply NoDup_cons in Hnd as [Hnd _]. }
    assert (Sad i ∈ c) as Hic by (apply Hmem; by right).
    assert (open_ w (Sad i)) as Hoi.
    { apply elem_of_list_lookup in Hic as [k Hk]. destruct Hc as (Hlen & _ & Hlk).
      assert (exists z, (c ++ take 1 c) !! S k = Some z) as [z Hz].
      { apply lookup_lt_is_Some_2. rewrite app_length. apply lookup_lt_Some in Hk. destruct c; cbn in *; lia. }
      assert (open_edge w (Sad i) z) as [H _]; [|done]. apply (Hlk k); [|done]. by apply lookup_app_l_Some. }
    split; [|done]. split; [done|]. by apply Hmin.
  Qed.

  Hypothesis below_trans : forall a b c, below a b -> below b c -> below a c.
  Hypothesis below_wf : well_founded (fun i b => open_ w (Sad b) /\ open_ w (Sad i) /\ below b i).
  Hypothesis Hbeaten : forall b, b ∈ Bs -> exists c, beaten c b.
  Variables (A : list nat) (w' : world).
  Hypothesis M : marked [] Bs A w w'.

  (** The ends of a removed saddle stay connected by saddles above it. *)
  Lemma detour b : b ∈ Bs -> forall x y, x ∈ summits_of w b -> y ∈ summits_of w b ->
    open_ w (Sum x) /\ open_ w (Sum y) /\
    rtc (hop2 w' (fun i => open_ w (Sad i) /\ below b i) (fun a => open_ w (Sum a))) x y.
  Proof.
    induction (below_wf b) as [b _ IH]. intros Hb x y Hx Hy.
    destruct (Hbeaten b Hb) as (c & Hc). destruct (around c b Hc) as (Hob & u & v & Huv & Hu & Hv & Hou & Hov & Hp).
    assert (rtc (hop2 w' (fun i => open_ w (Sad i) /\ below b i) (fun a => open_ w (Sum a))) u v) as Hp'.
    { clear Huv Hu Hv Hou Hov Hx Hy. induction Hp as [|p q r (i & (Hoi & Hlt) & Hi & Hp1 & Hq1 & Hp2 & Hq2) _ IHp]; [done|].
      etrans; [|exact IHp]. clear IHp. destruct (decide (i ∈ Bs)) as [HiB|HiB].
      - destruct (IH i ltac:(done) HiB p q Hp2 Hq2) as (_ & _ & Hpq).
        eapply rtc_subrel; [|exact Hpq]. intros s t (j & [Hj1 Hj2] & Hj). exists j. split; [|done]. split; [done|].
        by apply (below_trans b i j).
      - apply rtc_once. exists i. split; [done|]. split; [by eapply not_disq_marked|].
        rewrite (marked_summits_of _ _ _ _ _ _ M). done. }
    assert (forall z, z ∈ summits_of w b -> z = u \/ z = v) as Hz by (intros z; by apply two_other).
    assert (forall P : nat -> Prop, P u -> P v -> P x /\ P y) as HP by (intros P Pu Pv; destruct (Hz x Hx), (Hz y Hy); by subst).
    destruct (HP (fun a => open_ w (Sum a))) as [? ?]; [done|done|]. split; [done|]. split; [done|].
    destruct (Hz x Hx), (Hz y Hy); subst; try done. apply rtc_sym'; [|done]. intros ? ?. apply hop2_sym.
  Qed.

  Lemma hops_kept (ok su : nat -> Prop) : (forall i j, ok i -> open_ w (Sad j) -> below i j -> ok j) ->
    (forall a, open_ w (Sum a) -> su a) ->
    forall a b, rtc (hop2 w ok su) a b <-> rtc (hop2 w' ok su) a b.
  Proof.
    intros Hok Hsu a b. split.
    - induction 1 as [|p q r (i & Hi1 & Hi2 & Hp1 & Hq1 & Hp2 & Hq2) _ IH]; [done|]. etrans; [|exact IH]. clear IH.
      destruct (decide (i ∈ Bs)) as [HiB|HiB].
      + destruct (detour i HiB p q Hp2 Hq2) as (_ & _ & H). eapply rtc_subrel; [|exact H].
        intros s t (j & [Hj1 Hj2] & Hj & Hs & Ht & Hj3). exists j. split; [by apply (Hok i)|]. split; [done|]. auto.
      + apply rtc_once. exists i. split; [done|]. split; [by eapply not_disq_marked|].
        rewrite (marked_summits_of _ _ _ _ _ _ M). done.
    - apply rtc_subrel. intros p q (i & Hi1 & Hi2 & Hi3). exists i. split; [done|]. split; [by eapply disq_marked|].
      by rewrite (marked_summits_of _ _ _ _ _ _ M) in Hi3.
  Qed.
End red.

(** Lower, or as low and taken later. *)
Section order.
  Variables (w : world) (dn : list node).
  Definition later (b i : nat) : Prop :=
    ele_at w (Sad b) < ele_at w (Sad i) \/ (ele_at w (Sad b) = ele_at w (Sad i) /\ before dn (Sad i) (Sad b)).
  Lemma later_trans a b c : later a b -> later b c -> later a c.
  Proof.
    intros [H1|[H1 H1']] [H2|[H2 H2']]; [left; lia|left; lia|left; lia|]. right. split; [lia|]. by eapply before_trans.
  Qed.
  Lemma ele_bound : exists M, forall i, open_ w (Sad i) -> ele_at w (Sad i) <= M.
  Proof.
    exists (foldr Z.max 0 (map (fun s => ft_ele (sa_feat s)) (w_saddles w))). intros i (s & Hs & _). cbn. rewrite Hs.
    apply elem_of_list_lookup_2 in Hs. induction (w_saddles w) as [|y l IH]; [by apply elem_of_nil in Hs|].
    cbn. apply elem_of_cons in Hs as [->|Hs]; [lia|]. specialize (IH Hs). lia.
  Qed.
  Lemma later_wf : well_founded (fun i b => open_ w (Sad b) /\ open_ w (Sad i) /\ later b i).
  Proof.
    destruct ele_bound as [Mx HM].
    assert (forall n b, (Z.to_nat (Mx - ele_at w (Sad b)) < n)%nat ->
      Acc (fun i b => open_ w (Sad b) /\ open_ w (Sad i) /\ later b i) b) as HH.
    2:{ intros b. apply (HH (S (Z.to_nat (Mx - ele_at w (Sad b))))). lia. }
    induction n as [|n IH]; intros b Hn; [lia|].
    assert (forall k y, dn !! k = Some (Sad y) -> ele_at w (Sad y) = ele_at w (Sad b) ->
      Acc (fun i b => open_ w (Sad b) /\ open_ w (Sad i) /\ later b i) y) as Hk.
    { intros k. induction (lt_wf k) as [k _ IHk]. intros y Hy Ey. constructor. intros i (Hoy & Hoi & [Hl|[Hl Hb]]).
      - apply IH. pose proof (HM y Hoy). pose proof (HM i Hoi). lia.
      - destruct Hb as (k' & Hk' & Hb). apply (IHk k'); [by apply Hb|done|lia]. }
    constructor. intros i (Hob & Hoi & [Hl|[Hl Hb]]).
    - apply IH. pose proof (HM b Hob). pose proof (HM i Hoi). lia.
    - destruct Hb as (k & Hk1 & _). apply (Hk k); [done|lia].
  Qed.
End order.
