(** Detection changes nothing where there is nothing left to detect. *)
From Verif Require Import Base_model Graph_model Graph_spec Basin_model Basin_spec Graph_proof Basin_proof Basin_facts
  Search_proof Forest_proof Detect_proof.
From Coq Require Import ZifyBool.
Local Open Scope nat_scope.

Lemma free_proper m w : no_override w -> kept_proper m w.
Proof. intros H i s Hs Ho. by destruct (H i s Hs). Qed.
Lemma nothing_in (l : list nat) : (forall x, x ∉ l) -> l = [].
Proof. destruct l as [|x l]; [done|]. intros H. destruct (H x). by left. Qed.

(** Marks on the given saddles, all of which are there already. *)
Lemma marked_none A w w' : marked [] [] A w w' ->
  (forall b s s', w_saddles w !! b = Some s -> w_saddles w' !! b = Some s' -> sa_alts s' = sa_alts s) -> w' = w.
Proof.
  intros M H. destruct w as [ss us ks], w' as [ss' us' ks']. f_equal.
  - apply list_eq. intros i. destruct (ss !! i) as [s|] eqn:Hs.
    + destruct (mk_saddle _ _ _ _ _ M i s Hs) as (b & Hb & F1 & F2 & F3 & F4 & F5 & F6 & F7 & _). cbn in Hb. rewrite Hb.
      pose proof (H i s b Hs Hb) as F8. destruct s, b; cbn in *. subst. rewrite elem_of_nil in F6, F7.
      repeat f_equal; apply eq_true_iff_eq; tauto.
    + apply lookup_ge_None. apply lookup_ge_None in Hs. pose proof (mk_len _ _ _ _ _ M) as E. cbn in E. lia.
  - exact (mk_summits _ _ _ _ _ M).
  - apply list_eq. intros k. destruct (ks !! k) as [l|] eqn:Hl.
    + destruct (mk_link _ _ _ _ _ M k l Hl) as (l' & Hl' & F1 & F2 & F3). cbn in Hl'. rewrite Hl'. destruct l, l'; cbn in *. subst.
      repeat f_equal. apply eq_true_iff_eq. rewrite F3. split; [|by left]. intros [?|(j & a & [Hj|Hj] & _)]; [done|by apply elem_of_nil in Hj..].
    + apply lookup_ge_None. apply lookup_ge_None in Hl. pose proof (mk_lenl _ _ _ _ _ M) as E. cbn in E. lia.
Qed.

Lemma settled m w saddles fuel : basin_graph m w saddles -> no_override w -> (forall c, ~ closed (open_edge w) c) ->
  (forall i, i ∈ saddles -> not_disq w i -> ~ one_summit m w i) -> length saddles + length (w_saddles w) < fuel ->
  disqualify_basin_saddles m fuel w saddles = Ok w.
Proof.
  intros G Hno Hc Hone Hfuel. destruct (detect_completes m w saddles fuel G Hno Hfuel) as [w1 E]. rewrite E. f_equal.
  pose proof (detect_minimum m w saddles fuel w1 G (free_proper m w Hno) E) as Hmin.
  destruct (basin_marks m fuel _ _ _ E) as (S & B & A & M & HS & HB).
  assert (S = []) as ->.
  { apply nothing_in. intros i (H1 & H2 & H3)%HS. by destruct (Hone i H1 H2). }
  assert (B = []) as ->.
  { apply nothing_in. intros b Hb. destruct (HB b (or_introl Hb)) as [(s & Hs & Hd & _) _].
    destruct (mk_saddle _ _ _ _ _ M b s Hs) as (s' & Hs' & _ & _ & _ & _ & _ & _ & F & _).
    destruct (Hmin b s s' Hs Hs') as [K _]. destruct (K (proj2 F (or_intror Hb))) as [Hf|(c & [Hcl _] & _)]; [|by destruct (Hc c)].
    unfold disqualified in Hd. pose proof (Hno b s Hs) as Hn. destruct (sa_over s) as [[]|]; [done|done|].
    rewrite Hf, orb_true_r in Hd. done. }
  apply (marked_none A _ _ M). intros b s s' Hs Hs'. destruct (Hmin b s s' Hs Hs') as [_ [?|(c & low & x & o & Hcl & _)]]; [done|].
  by destruct (Hc c).
Qed.

Lemma marked_spot S B A m w w' a b : marked S B A w w' -> summit_same m w' a b = summit_same m w a b.
Proof. intros M. unfold summit_same, summit_spot. by rewrite (mk_summits _ _ _ _ _ M). Qed.
Lemma marked_ele_at S B A w w' n : marked S B A w w' -> ele_at w' n = ele_at w n.
Proof.
  intros M. destruct n as [i|a]; cbn; [|by rewrite (mk_summits _ _ _ _ _ M)].
  destruct (w_saddles w !! i) as [s|] eqn:Hs.
  - destruct (mk_saddle _ _ _ _ _ M i s Hs) as (b & -> & -> & _). done.
  - destruct (w_saddles w' !! i) as [s'|] eqn:Hs'; [|done]. destruct (marked_back _ _ _ _ _ _ _ M Hs'). congruence.
Qed.
(** Marks keep a graph fit for detection. *)
Lemma marked_graph S B A m w w' l : marked S B A w w' -> basin_graph m w l -> basin_graph m w' l.
Proof.
  intros M [G1 G2 G3 G4 G5 G6 G7]. split.
  - intros i Hi. rewrite (marked_summits_of _ _ _ _ _ _ M). apply G1. by eapply marked_open.
  - intros i Hi. rewrite (marked_summits_of _ _ _ _ _ _ M). apply G2. by eapply marked_open.
  - intros i s' k Hi Hs' Hk. destruct (marked_back _ _ _ _ _ _ _ M Hs') as [s Hs].
    destruct (mk_saddle _ _ _ _ _ M i s Hs) as (b & Hb & _ & F & _). assert (b = s') as -> by congruence. rewrite F in Hk.
    destruct (G3 i s k) as (x & Hx & E1 & E2); [by eapply marked_open|done|done|].
    destruct (mk_link _ _ _ _ _ M k x Hx) as (x' & Hx' & F1 & F2 & _). exists x'. split; [done|]. split; [congruence|].
    rewrite F1, (mk_summits _ _ _ _ _ M). done.
  - intros a u k Ha Hu Hk. rewrite (mk_summits _ _ _ _ _ M) in Hu.
    destruct (G4 a u k) as (x & Hx & E1 & E2); [by eapply marked_open|done|done|].
    destruct (mk_link _ _ _ _ _ M k x Hx) as (x' & Hx' & F1 & F2 & _). exists x'. split; [done|]. split; [congruence|].
    rewrite F2. intros s' Hs' Hd He. destruct (marked_back _ _ _ _ _ _ _ M Hs') as [s Hs].
    destruct (mk_saddle _ _ _ _ _ M _ s Hs) as (b & Hb & K1 & K2 & _). assert (b = s') as -> by congruence. rewrite K2.
    apply (E2 s Hs); [|by rewrite <-K1]. destruct (disqualified s) eqn:Eq; [|done].
    rewrite (marked_disq _ _ _ _ _ _ _ _ M Hs Hs' Eq) in Hd. done.
  - intros a u Ha Hu. rewrite (mk_summits _ _ _ _ _ M) in Hu. apply (G5 a u); [by eapply marked_open|done].
  - intros i a Hi. rewrite !(marked_ele_at _ _ _ _ _ _ M). apply G6. by eapply marked_open_edge.
  - intros a b. rewrite (marked_spot _ _ _ _ _ _ _ _ M). apply G7.
Qed.

(** What detection leaves has nothing left to detect. *)
Record calm (m : datamap) (w : world) (l : list nat) : Prop := {
  ca_graph : basin_graph m w l;
  ca_free : no_override w;
  ca_forest : forall c, ~ closed (open_edge w) c;
  ca_two : forall i, i ∈ l -> not_disq w i -> ~ one_summit m w i }.

Lemma detect_calm m fuel w l w' : basin_graph m w l -> no_override w -> disqualify_basin_saddles m fuel w l = Ok w' -> calm m w' l.
Proof.
  intros G Hno E. destruct (basin_marks m fuel _ _ _ E) as (S & B & A & M & HS & _). split.
  - by eapply marked_graph.
  - intros i s' Hs'. destruct (marked_back _ _ _ _ _ _ _ M Hs') as [s Hs].
    destruct (mk_saddle _ _ _ _ _ M i s Hs) as (b & Hb & _ & _ & _ & _ & F & _). assert (b = s') as -> by congruence. rewrite F.
    by apply (Hno i).
  - exact (detect_forest m w l G (free_proper m w Hno) fuel w' E).
  - intros i Hi (s' & Hs' & Hd) H1. destruct (marked_back _ _ _ _ _ _ _ M Hs') as [s Hs].
    assert (disqualified s = false) as Hds.
    { destruct (disqualified s) eqn:Eq; [|done]. by rewrite (marked_disq _ _ _ _ _ _ _ _ M Hs Hs' Eq) in Hd. }
    assert (sa_over s = None) as Ho.
    { pose proof (Hno i s Hs). unfold disqualified in Hds. by destruct (sa_over s) as [[]|]. }
    destruct (single_disqualified m fuel w l w' i s E Hi Hs Ho) as (b & Hb & Hbd & _); [|congruence].
    intros x y Hx Hy. rewrite <-(marked_spot _ _ _ _ _ _ _ _ M). apply H1; by rewrite (marked_summits_of _ _ _ _ _ _ M).
Qed.
