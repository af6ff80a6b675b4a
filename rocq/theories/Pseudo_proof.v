(** Proofs about pseudo-summits. *)
From Verif Require Import Pseudo_model Pseudo_spec Container_spec Container_proof.
Local Open Scope Z_scope.

Lemma fold_index l : forall (t : gmap xy pte), NoDup (map fst l) -> (forall p, p ∈ l -> t !! p.1 = None) -> forall k p,
  foldl (fun t p => <[p.1 := p]> t) t l !! k = Some p <-> (p ∈ l /\ k = p.1) \/ t !! k = Some p.
Proof.
  induction l as [|x l IH]; intros t Hd Ht k p; cbn.
  - split; [by right|]. intros [[H _]|H]; [by apply elem_of_nil in H|done].
  - cbn in Hd. apply NoDup_cons in Hd as [Hx Hd]. rewrite IH; [|done|].
    + rewrite elem_of_cons. destruct (decide (x.1 = k)) as [<-|E].
      * rewrite lookup_insert. split.
        -- intros [[H1 H2]|[= ->]]; [by left; split; [right|]|by left; split; [left|]].
        -- intros [[[->|H1] H2]|H]; [by right|left; done|]. rewrite Ht in H by by left. done.
      * rewrite lookup_insert_ne by done. split.
        -- intros [[H1 H2]|H]; [left; split; [by right|done]|by right].
        -- intros [[[->|H1] H2]|H]; [done|by left|by right].
    + intros y Hy. rewrite lookup_insert_ne; [apply Ht; by right|]. intros E. apply Hx. rewrite E.
      apply elem_of_list_fmap. by exists y.
Qed.
Lemma index_spec l k p : NoDup (map fst l) -> gp_index l !! k = Some p <-> p ∈ l /\ k = p.1.
Proof.
  intros Hd. unfold gp_index. rewrite fold_index; [|done|intros; apply lookup_empty]. rewrite lookup_empty.
  split; [intros [H|H]; done|by left].
Qed.
Lemma index_size l : (size (gp_index l) <= length l)%nat.
Proof.
  unfold gp_index. assert (forall t : gmap xy pte, (size (foldl (fun t p => <[p.1 := p]> t) t l) <= size t + length l)%nat) as H.
  { induction l as [|x l IH]; intros t; cbn; [lia|]. etransitivity; [apply IH|].
    destruct (t !! x.1) as [y|] eqn:E; [rewrite map_size_insert_Some by by eexists|rewrite map_size_insert_None by done]; lia. }
  etransitivity; [apply H|]. by rewrite map_size_empty.
Qed.

Lemma shifts_touch (a b : xy) : (exists s, s ∈ gp_shifts /\ b = (a.1 + s.1, a.2 + s.2)) <-> touching a b.
Proof.
  destruct a as [ax ay], b as [bx by_]. unfold touching. cbn. split.
  - intros (s & Hs & [= -> ->]). unfold gp_shifts in Hs. rewrite !elem_of_cons, elem_of_nil in Hs.
    repeat (destruct Hs as [->|Hs]; [cbn; split; [intros [= ? ?]; lia|lia]|]). done.
  - intros (Hne & H1 & H2). exists (bx - ax, by_ - ay). split; [|cbn; f_equal; lia].
    assert (bx - ax = -1 \/ bx - ax = 0 \/ bx - ax = 1) as Hx by lia.
    assert (by_ - ay = -1 \/ by_ - ay = 0 \/ by_ - ay = 1) as Hy by lia.
    unfold gp_shifts. rewrite !elem_of_cons.
    destruct Hx as [-> |[Hx| ->]], Hy as [-> |[Hy| ->]]; rewrite ?Hx, ?Hy; try tauto.
    exfalso. apply Hne. f_equal; lia.
Qed.
Lemma neighbors_spec l p q : NoDup (map fst l) -> q ∈ gp_neighbors (gp_index l) p <-> q ∈ l /\ touching p.1 q.1.
Proof.
  intros Hd. unfold gp_neighbors. rewrite elem_of_list_omap, <-shifts_touch. setoid_rewrite (index_spec l _ q Hd). split.
  - intros (s & Hs & Hq & E). split; [done|]. by exists s.
  - intros (Hq & s & Hs & E). by exists s.
Qed.
Lemma neighbors_length t p : (length (gp_neighbors t p) <= 8)%nat.
Proof. unfold gp_neighbors, gp_shifts. cbn. repeat destruct (t !! _); cbn; lia. Qed.

Lemma in_sublist {A} (l k : list A) x : l `sublist_of` k -> x ∈ l -> x ∈ k.
Proof. induction 1; rewrite ?elem_of_cons; naive_solver. Qed.

Section search.
  Context (l : list pte) (Hd : NoDup (map fst l)).
  Let t := gp_index l.

  Lemma at_place p q : p ∈ l -> q ∈ l -> p.1 = q.1 -> p = q.
  Proof.
    intros Hp Hq E. pose proof (proj2 (index_spec l p.1 p Hd) (conj Hp eq_refl)) as H1.
    pose proof (proj2 (index_spec l q.1 q Hd) (conj Hq eq_refl)) as H2. rewrite E in H1. congruence.
  Qed.

  (** *** The neighbour loop *)

  Lemma blob_neighbors_none e ex ns stack : blob_neighbors e ex ns stack = None ->
    exists n, n ∈ ns /\ n.1 ∉ ex /\ e < n.2.
  Proof.
    revert stack. induction ns as [|n ns IH]; intros stack; cbn; [done|]. destruct (decide _) as [Hn|Hn].
    - intros H. apply IH in H as (n' & H1 & H2). exists n'. split; [by right|done].
    - destruct (e <? n.2) eqn:E; [intros _; exists n; split; [by left|]; split; [done|lia]|].
      intros H. apply IH in H as (n' & H1 & H2). exists n'. split; [by right|done].
  Qed.
  Lemma blob_neighbors_some e ex ns stack stack' : blob_neighbors e ex ns stack = Some stack' ->
    exists new, stack' = new ++ stack /\ (length new <= length ns)%nat /\
      forall n, n ∈ new -> n ∈ ns /\ n.1 ∉ ex /\ n.2 = e.
  Proof.
    revert stack. induction ns as [|n ns IH]; intros stack; cbn.
    - intros [= <-]. exists []. split; [done|]. split; [done|]. intros n Hn. by apply elem_of_nil in Hn.
    - destruct (decide _) as [Hn|Hn].
      + intros H. apply IH in H as (new & -> & Hl & Hnew). exists new. split; [done|]. split; [lia|].
        intros n' Hn'. destruct (Hnew n' Hn') as [? ?]. split; [by right|done].
      + destruct (e <? n.2); [done|]. intros H. apply IH in H as (new & -> & Hl & Hnew).
        destruct (n.2 =? e) eqn:E.
        * exists (new ++ [n]). rewrite <-app_assoc. split; [done|]. rewrite app_length. cbn. split; [lia|].
          intros n' [Hn'|Hn']%elem_of_app; [destruct (Hnew n' Hn') as [? ?]; split; [by right|done]|].
          apply elem_of_list_singleton in Hn' as ->. split; [by left|]. split; [done|lia].
        * exists new. split; [done|]. split; [lia|]. intros n' Hn'. destruct (Hnew n' Hn') as [? ?]. split; [by right|done].
  Qed.

  (** *** Termination *)

  Definition left_over (ex : gset xy) : nat := size (dom t ∖ ex).
  Definition bonus (ex : gset xy) (stack : list pte) : nat :=
    match stack with [] => 8 | g :: _ => if decide (g.1 ∈ ex) then 8 else 0 end.

  Lemma bonus_le ex stack : (bonus ex stack <= 8)%nat.
  Proof. unfold bonus. destruct stack; [lia|]. case_decide; lia. Qed.
  Lemma left_over_step g ex : g ∈ l -> g.1 ∉ ex -> left_over ex = S (left_over ({[g.1]} ∪ ex)).
  Proof.
    intros Hg Hn. unfold left_over. assert (g.1 ∈ dom t) as Hdom.
    { apply elem_of_dom. exists g. by apply index_spec. }
    replace (dom t ∖ ex) with ({[g.1]} ∪ (dom t ∖ ({[g.1]} ∪ ex))).
    - rewrite size_union by set_solver. by rewrite size_singleton.
    - apply leibniz_equiv. intros x. destruct (decide (x = g.1)) as [->|]; set_solver.
  Qed.
  Lemma left_over_mono g ex : (left_over ({[g]} ∪ ex) <= left_over ex)%nat.
  Proof. unfold left_over. apply subseteq_size. set_solver. Qed.

  Lemma blob_total fuel : forall stack an ex, (forall g, g ∈ stack -> g ∈ l) ->
    (length stack + 17 * left_over ex + bonus ex stack < fuel + 8)%nat ->
    exists r, blob t fuel stack an ex = Ok r.
  Proof.
    induction fuel as [|fuel IH]; intros stack an ex Hs Hf.
    - exfalso. destruct stack as [|g stack]; cbn [bonus length] in Hf; [lia|]. destruct (decide (g.1 ∈ ex)) as [D|D]; [lia|].
      rewrite (left_over_step g ex) in Hf; [lia|apply Hs; by left|done].
    - destruct stack as [|g stack]; cbn [blob]; [by eexists|].
      destruct (blob_neighbors _ _ _ _) as [st|] eqn:E; [|by eexists].
      apply blob_neighbors_some in E as (new & -> & Hl & Hnew). pose proof (neighbors_length t g) as H8.
      assert (forall n, n ∈ new -> n ∈ l) as Hnl.
      { intros n Hn. destruct (Hnew n Hn) as (Hn' & _). by apply neighbors_spec in Hn' as [? _]. }
      apply IH.
      + intros n [Hn|Hn]%elem_of_app; [by apply Hnl|apply Hs; by right].
      + rewrite app_length. cbn [length] in Hf. cbn [bonus] in Hf.
        assert (bonus ({[g.1]} ∪ ex) (new ++ stack) <= 8)%nat as Hb.
        { apply bonus_le. }
        destruct (decide (g.1 ∈ ex)) as [D|D].
        * pose proof (left_over_mono g.1 ex) as Hm. destruct new as [|n new]; [cbn [app length] in *; lia|].
          assert (bonus ({[g.1]} ∪ ex) ((n :: new) ++ stack) = 0)%nat as ->.
          { cbn [app bonus]. rewrite decide_False; [done|]. by apply Hnew; left. }
          lia.
        * rewrite (left_over_step g ex) in Hf by (try done; apply Hs; by left). lia.
  Qed.
  Lemma blob_starts p ex : p ∈ l -> p.1 ∈ ex -> exists r, blob t (blob_fuel (length l)) [p] [] ex = Ok r.
  Proof.
    intros Hp Hin. apply blob_total.
    - intros g Hg. by apply elem_of_list_singleton in Hg as ->.
    - cbn. rewrite decide_True by done. unfold blob_fuel.
      assert (left_over ex < length l)%nat; [|lia].
      unfold left_over. eapply Nat.lt_le_trans; [|apply index_size]. fold t. rewrite <-(size_dom t).
      apply subset_size. split; [set_solver|]. intros H. assert (p.1 ∈ dom t) as Hp'.
      { apply elem_of_dom. exists p. by apply index_spec. }
      apply H in Hp'. set_solver.
  Qed.

  (** *** What is explored *)

  Lemma same_flat_in p q : same_flat l p q -> q ∈ l /\ q.2 = p.2.
  Proof. by induction 1. Qed.
  Lemma same_flat_trans p q r : same_flat l p q -> same_flat l q r -> same_flat l p r.
  Proof.
    intros H1 H2. apply same_flat_in in H1 as H3. induction H2 as [|r s H2 IH Hs Ht He]; [done|].
    eapply flat_step; [exact IH|done|done|]. destruct H3. congruence.
  Qed.
  Lemma touching_sym a b : touching a b -> touching b a.
  Proof. unfold touching. intros (H1 & H2 & H3). split; [congruence|lia]. Qed.
  Lemma same_flat_sym p q : same_flat l p q -> same_flat l q p.
  Proof.
    intros H. assert (p ∈ l) as Hp by (induction H; done). induction H as [|q r H IH Hr Ht He]; [by constructor|].
    eapply same_flat_trans; [|exact IH]. apply same_flat_in in H as [Hq Eq].
    eapply flat_step; [by apply flat_here|done|by apply touching_sym|congruence].
  Qed.
  Lemma pseudo_flat p q : same_flat l p q -> pseudo_summit l p -> pseudo_summit l q.
  Proof.
    intros H [Hp Hf]. split; [by destruct (same_flat_in _ _ H)|]. intros r Hr. apply Hf. by eapply same_flat_trans.
  Qed.

  Lemma blob_sound p fuel : forall stack an ex r, p ∈ l ->
    (forall g, g ∈ stack -> same_flat l p g) -> (forall g, g ∈ an -> same_flat l p g) ->
    blob t fuel stack an ex = Ok r ->
    ex ⊆ r.2 /\ (forall g, g ∈ l -> g.1 ∈ r.2 -> g.1 ∈ ex \/ same_flat l p g) /\
    (forall a, r.1 = Some a -> an `sublist_of` a /\ (forall g, g ∈ l -> g.1 ∈ r.2 -> g.1 ∈ ex \/ g ∈ a) /\
        (forall g, g ∈ stack -> g ∈ a) /\ (forall g, g ∈ a -> same_flat l p g)) /\
    (pseudo_summit l p -> is_Some r.1).
  Proof.
    induction fuel as [|fuel IH]; intros stack an ex r Hp Hs Ha; cbn [blob]; [done|].
    destruct stack as [|g stack].
    - intros [= <-]. cbn. split; [done|]. split; [by left|]. split; [|by eexists].
      intros a [= <-]. split; [done|]. split; [by left|]. split; [|done]. intros g Hg. by apply elem_of_nil in Hg.
    - assert (same_flat l p g) as Hg by (apply Hs; by left). pose proof (same_flat_in _ _ Hg) as [Hgl Hge].
      destruct (blob_neighbors _ _ _ _) as [st|] eqn:E.
      + apply blob_neighbors_some in E as (new & -> & Hl & Hnew). intros H. apply IH in H as (H1 & H2 & H3 & H4); [|done|..].
        * split; [clear -H1; set_solver|]. split; [|split; [|done]].
          -- intros q Hq Hin. destruct (H2 q Hq Hin) as [[Hin'|Hin']%elem_of_union|H]; [|by left|by right].
             apply elem_of_singleton in Hin'. right. by rewrite (at_place q g).
          -- intros a Ea. destruct (H3 a Ea) as (I1 & I2 & I3 & I4). split; [|split; [|split; [|done]]].
             ++ etransitivity; [|exact I1]. by apply sublist_inserts_r.
             ++ intros q Hq Hin. destruct (I2 q Hq Hin) as [[Hin'|Hin']%elem_of_union|H]; [|by left|by right].
                apply elem_of_singleton in Hin'. right. rewrite (at_place q g) by done.
                eapply in_sublist; [exact I1|]. apply elem_of_app. right. by left.
             ++ intros q [->|Hq]%elem_of_cons.
                ** eapply in_sublist; [exact I1|]. apply elem_of_app. right. by left.
                ** apply I3, elem_of_app. by right.
        * intros n [Hn|Hn]%elem_of_app; [|apply Hs; by right]. destruct (Hnew n Hn) as (Hn' & _ & He).
          apply neighbors_spec in Hn' as [Hnl Hnt]; [|done]. eapply flat_step; [exact Hg|done|done|congruence].
        * intros n [Hn|Hn]%elem_of_app; [by apply Ha|]. by apply elem_of_list_singleton in Hn as ->.
      + intros [= <-]. cbn. split; [clear; set_solver|]. split; [|split; [done|]].
        * intros q Hq [Hin|Hin]%elem_of_union; [|by left]. apply elem_of_singleton in Hin. right. by rewrite (at_place q g).
        * intros [_ Hps]. exfalso. apply blob_neighbors_none in E as (n & Hn & _ & He).
          apply neighbors_spec in Hn as [Hnl Hnt]; [|done]. specialize (Hps g Hg n Hnl Hnt). lia.
  Qed.

  Lemma main_neighbors_ok fuel p : fuel = blob_fuel (length l) -> p ∈ l -> forall ns found ex,
    (forall n, n ∈ ns -> n ∈ l /\ touching p.1 n.1) -> p.1 ∈ ex ->
    exists r, main_neighbors t fuel p ns found ex = Ok r /\
      ex ⊆ r.2 /\ (forall g, g ∈ l -> g.1 ∈ r.2 -> g.1 ∈ ex \/ same_flat l p g) /\ found ⊆ r.1.2 /\
      (forall g, g ∈ r.1.2 -> g ∈ found \/ g ∈ l) /\
      (pseudo_summit l p -> r.1.1 = false -> r.2 = ex) /\
      (pseudo_summit l p -> r.1.1 = true -> p ∈ r.1.2 /\ forall g, g ∈ l -> g.1 ∈ r.2 -> g.1 ∈ ex \/ g ∈ r.1.2).
  Proof.
    intros Ef Hp. induction ns as [|n ns IH]; intros found ex Hns Hex; cbn [main_neighbors].
    - eexists. split; [done|]. cbn. split; [done|]. split; [by left|]. split; [done|]. split; [by left|]. split; [done|done].
    - assert (forall n, n ∈ ns -> n ∈ l /\ touching p.1 n.1) as Hns' by (intros; apply Hns; by right).
      destruct (Hns n) as [Hnl Hnt]; [by left|]. destruct (n.2 =? p.2) eqn:E.
      + destruct (blob_starts p ex Hp Hex) as [[o ex'] Hb]. rewrite <-Ef in Hb. rewrite Hb. cbn [rbind fst snd].
        destruct (blob_sound p fuel [p] [] ex (o, ex') Hp) as (B1 & B2 & B3 & B4); [| |done|].
        { intros g Hg. apply elem_of_list_singleton in Hg as ->. by apply flat_here. }
        { intros g Hg. by apply elem_of_nil in Hg. }
        cbn [fst snd] in *. destruct o as [a|].
        * destruct (B3 a eq_refl) as (_ & I2 & I3 & I4).
          assert (p ∈ a) as Hpa by (apply I3; by left). destruct a as [|x a]; [by apply elem_of_nil in Hpa|].
          eexists. split; [done|]. cbn [fst snd]. split; [done|]. split; [done|]. split; [clear; set_solver|]. split.
          { intros g [Hg|Hg]%elem_of_app; [by left|]. right. by apply I4, same_flat_in in Hg as [? _]. }
          split; [done|]. intros _ _. split; [apply elem_of_app; by right|]. intros g Hg Hin. destruct (I2 g Hg Hin); [by left|right; apply elem_of_app; by right].
        * destruct (IH found ex') as (r & -> & R1 & R2 & R3 & R4 & R5 & R6); [done|set_solver|].
          eexists. split; [done|]. split; [by etransitivity|]. split.
          { intros g Hg Hin. destruct (R2 g Hg Hin) as [H|H]; [by apply B2|by right]. }
          split; [done|]. split; [done|]. split; intros Hps; destruct (B4 Hps); done.
      + destruct (p.2 <? n.2) eqn:E2.
        * eexists. split; [done|]. cbn. split; [done|]. split; [by left|]. split; [done|]. split; [by left|]. split; [done|].
          intros [_ Hps] _. exfalso. specialize (Hps p (flat_here l p Hp) n Hnl Hnt). lia.
        * by apply IH.
  Qed.

  Lemma pseudo_loop_ok fuel : fuel = blob_fuel (length l) -> forall k found ex, (forall p, p ∈ k -> p ∈ l) ->
    (forall p, p ∈ found -> p ∈ l) ->
    (forall p, pseudo_summit l p -> p.1 ∈ ex -> p ∈ found) ->
    exists r, pseudo_loop t fuel k found ex = Ok r /\ (forall p, p ∈ r -> p ∈ l) /\ found ⊆ r /\
      forall p, pseudo_summit l p -> p ∈ k -> p ∈ r.
  Proof.
    intros Ef. induction k as [|p k IH]; intros found ex Hk Hfl Hinv; cbn [pseudo_loop].
    - eexists. split; [done|]. split; [done|]. split; [done|]. intros p _ Hp. by apply elem_of_nil in Hp.
    - assert (forall p, p ∈ k -> p ∈ l) as Hk' by (intros; apply Hk; by right). assert (p ∈ l) as Hp by (apply Hk; by left).
      destruct (decide _) as [D|D].
      + destruct (IH found ex Hk' Hfl Hinv) as (r & -> & H1 & H2 & H3). eexists. split; [done|]. split; [done|]. split; [done|].
        intros q Hq [->|Hqk]%elem_of_cons; [|by apply H3]. apply H2. by apply Hinv.
      + destruct (main_neighbors_ok fuel p Ef Hp (gp_neighbors t p) found ({[p.1]} ∪ ex)) as (r & -> & R1 & R2 & R3 & R4 & R5 & R6).
        { intros n Hn. by apply neighbors_spec in Hn. }
        { set_solver. }
        cbn [rbind]. set (found' := if r.1.1 then r.1.2 else r.1.2 ++ [p]).
        assert (r.1.2 ⊆ found') as Hsub by (unfold found'; destruct r.1.1; set_solver).
        assert (pseudo_summit l p -> p ∈ found') as Hpf.
        { intros Hps. unfold found'. destruct r.1.1 eqn:E; [by apply R6|]. set_solver. }
        destruct (IH found' r.2 Hk') as (r' & -> & H1 & H2 & H3).
        * intros q Hq. unfold found' in Hq. destruct r.1.1.
          -- destruct (R4 q Hq); [by apply Hfl|done].
          -- apply elem_of_app in Hq as [Hq|Hq]; [destruct (R4 q Hq); [by apply Hfl|done]|].
             by apply elem_of_list_singleton in Hq as ->.
        * intros q Hq Hin.
          assert (q.1 ∈ {[p.1]} ∪ ex -> q ∈ found') as Hold.
          { intros [Hin'|Hin']%elem_of_union.
            - apply elem_of_singleton in Hin'. rewrite (at_place q p); [|by destruct Hq|done|done]. apply Hpf.
              rewrite <-(at_place q p); [done|by destruct Hq|done|done].
            - apply Hsub, R3. by apply Hinv. }
          destruct (R2 q) as [H|H]; [by destruct Hq|done|by apply Hold|].
          assert (pseudo_summit l p) as Hps by (eapply pseudo_flat; [by apply same_flat_sym|done]).
          destruct r.1.1 eqn:E.
          -- destruct (proj2 (R6 Hps eq_refl) q) as [H'|H']; [by destruct Hq|done|by apply Hold|]. by apply Hsub.
          -- apply Hold. by rewrite <-(R5 Hps eq_refl).
        * eexists. split; [done|]. split; [done|]. split; [clear -R3 Hsub H2; etransitivity; [exact R3|]; by etransitivity|].
          intros q Hq [->|Hqk]%elem_of_cons; [by apply H2, Hpf|by apply H3].
  Qed.
End search.

Lemma find_pseudo_total l : NoDup (map fst l) -> exists r, find_pseudo_summits l = Ok r /\
  (forall p, p ∈ r -> p ∈ l) /\ forall p, pseudo_summit l p -> p ∈ r.
Proof.
  intros Hd. unfold find_pseudo_summits.
  destruct (pseudo_loop_ok l Hd _ eq_refl l [] ∅) as (r & -> & H1 & _ & H3).
  - done.
  - intros p Hp. by apply elem_of_nil in Hp.
  - set_solver.
  - exists r. split; [done|]. split; [done|]. intros p Hp. apply H3; [done|]. by destruct Hp.
Qed.

(** *** No two touching members of equal elevation *)

Lemma main_neighbors_uneven t fuel p found ex : forall ns, (forall n, n ∈ ns -> n.2 <> p.2) ->
  main_neighbors t fuel p ns found ex = Ok (existsb (fun n => p.2 <? n.2) ns, found, ex).
Proof.
  induction ns as [|n ns IH]; intros H; cbn; [done|].
  destruct (n.2 =? p.2) eqn:E; [exfalso; apply (H n); [by left|lia]|]. destruct (p.2 <? n.2); [done|].
  apply IH. intros; apply H; by right.
Qed.
Lemma find_pseudo_uneven l : NoDup (map fst l) ->
  (forall p q, p ∈ l -> q ∈ l -> touching p.1 q.1 -> p.2 <> q.2) ->
  exists r, find_pseudo_summits l = Ok r /\ picks (fun p => no_higher l p) l r.
Proof.
  intros Hd Hu. unfold find_pseudo_summits. generalize (blob_fuel (length l)). intros fuel.
  assert (forall k found ex, (forall p, p ∈ k -> p ∈ l) -> NoDup (map fst k) -> (forall p, p ∈ k -> p.1 ∉ ex) ->
    exists r, pseudo_loop (gp_index l) fuel k found ex = Ok (found ++ r) /\ picks (fun p => no_higher l p) k r) as H.
  { induction k as [|p k IH]; intros found ex Hk Hdk Hex; cbn [pseudo_loop].
    - exists []. split; [by rewrite app_nil_r|constructor].
    - cbn in Hdk. apply NoDup_cons in Hdk as [Hp Hdk]. rewrite decide_False by (apply Hex; by left).
      rewrite main_neighbors_uneven.
      2:{ intros n Hn. apply neighbors_spec in Hn as [Hn Ht]; [|done]. apply not_eq_sym. apply Hu; [apply Hk; by left|done|done]. }
      cbn [rbind fst snd]. set (found' := if existsb _ _ then _ else _).
      destruct (IH found' ({[p.1]} ∪ ex)) as (r & -> & Hr).
      + intros; apply Hk; by right.
      + done.
      + intros q Hq [Hin|Hin]%elem_of_union; [|by apply (Hex q); [right|]]. apply elem_of_singleton in Hin. apply Hp.
        rewrite <-Hin. apply elem_of_list_fmap. by exists q.
      + unfold found'. destruct (existsb _ _) eqn:E.
        * exists r. split; [done|]. apply picks_out; [|done]. intros Hh. apply existsb_exists in E as (n & Hn & Hlt).
          apply elem_of_list_In, neighbors_spec in Hn as [Hn Ht]; [|done]. specialize (Hh n Hn Ht). lia.
        * exists (p :: r). rewrite <-app_assoc. split; [done|]. apply picks_in; [|done]. intros q Hq Ht.
          apply Z.nlt_ge. intros Hlt. apply not_true_iff_false in E. apply E. apply existsb_exists. exists q.
          split; [|lia]. by apply elem_of_list_In, neighbors_spec. }
  destruct (H l [] ∅) as (r & E & Hr); [done|done|set_solver|]. by exists r.
Qed.
