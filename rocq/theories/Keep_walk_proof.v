(** Relations after a walk: who is listed as a child names that parent, and
    parents are overridden as disqualified. *)
From Verif Require Import Walk_model Graph_spec Graph_proof Synth_proof Links_proof Family_proof.
Local Open Scope nat_scope.

Definition over_at (w : world) (p : nat) : option bool := w_saddles w !! p ≫= sa_over.
(** Children name their parents; parents outside [E] are overridden. *)
Definition raised (E : nat -> Prop) (w : world) : Prop :=
  (forall p x, x ∈ children_of w p -> parent_of w x = Some p) /\
  (forall x p, parent_of w x = Some p -> E p \/ over_at w p = Some true).

Definition rel_view (o : saddle) := (sa_parent o, sa_children o, sa_over o).
Definition same_rel (w w' : world) : Prop := rel_view <$> w_saddles w' = rel_view <$> w_saddles w.
Lemma rel_lookup w w' i : same_rel w w' -> rel_view <$> w_saddles w' !! i = rel_view <$> w_saddles w !! i.
Proof. intros H. by rewrite <-!list_lookup_fmap, H. Qed.
Lemma rel_parent w w' i : same_rel w w' -> parent_of w' i = parent_of w i.
Proof.
  intros H. apply (rel_lookup _ _ i) in H. unfold parent_of.
  destruct (w_saddles w' !! i), (w_saddles w !! i); cbn in *; try done. injection H as H _ _. exact H.
Qed.
Lemma rel_children w w' i : same_rel w w' -> children_of w' i = children_of w i.
Proof.
  intros H. apply (rel_lookup _ _ i) in H. unfold children_of.
  destruct (w_saddles w' !! i), (w_saddles w !! i); cbn in *; try done. injection H as _ H _. exact H.
Qed.
Lemma rel_over w w' i : same_rel w w' -> over_at w' i = over_at w i.
Proof.
  intros H. apply (rel_lookup _ _ i) in H. unfold over_at.
  destruct (w_saddles w' !! i), (w_saddles w !! i); cbn in *; try done. injection H as _ _ H. exact H.
Qed.
Lemma rel_raised E w w' : same_rel w w' -> raised E w -> raised E w'.
Proof.
  intros H [R1 R2]. split.
  - intros p x. rewrite (rel_children _ _ _ H), (rel_parent _ _ _ H). apply R1.
  - intros x p. rewrite (rel_over _ _ _ H), (rel_parent _ _ _ H). apply R2.
Qed.
Lemma rel_refl w : same_rel w w.
Proof. done. Qed.
Lemma rel_trans w1 w2 w3 : same_rel w1 w2 -> same_rel w2 w3 -> same_rel w1 w3.
Proof. unfold same_rel. congruence. Qed.
Lemma rel_upd i f w : (forall o, rel_view (f o) = rel_view o) -> same_rel w (upd_saddle i f w).
Proof.
  intros Hf. unfold same_rel. cbn. apply list_eq. intros j. rewrite !list_lookup_fmap. destruct (decide (i = j)) as [->|].
  - rewrite list_lookup_alter. destruct (w_saddles w !! j); [|done]. cbn. by rewrite Hf.
  - by rewrite list_lookup_alter_ne.
Qed.
Lemma rel_remote m b k w : same_rel w (add_to_remote m b k w).
Proof.
  unfold add_to_remote. destruct (w_links w !! k) as [l|]; [|done].
  repeat match goal with |- context [if ?b then _ else _] => destruct b end; try done;
    (eapply rel_trans; [|apply rel_upd; done]); done.
Qed.
Definition still (s s' : walk_state) : Prop := same_rel (ws_world s) (ws_world s').
Lemma still_trans s1 s2 s3 : still s1 s2 -> still s2 s3 -> still s1 s3.
Proof. apply rel_trans. Qed.
Lemma foldM_still {A} (f : A -> walk_state -> res walk_state) l :
  (forall a s s', f a s = Ok s' -> still s s') -> forall s s', foldM f l s = Ok s' -> still s s'.
Proof.
  intros Hf. induction l as [|a l IH]; intros s s'; cbn; [intros [= ->]; apply rel_refl|].
  destruct (f a s) as [s1|] eqn:E; [|done]. cbn. intros H. eapply still_trans; [by eapply Hf|by apply IH].
Qed.

Section raise.
  Variables (fpath : datamap -> list mpoint -> mpoint -> mpoint -> option (list mpoint * Q)).
  Variables (near : searches) (m : datamap).

  Lemma link_still b d k s : still s (link_saddle m b d k s).
  Proof. unfold still, link_saddle. cbn [ws_world]. eapply rel_trans; [|apply rel_remote]. done. Qed.
  Lemma link_edge_still b k g s s' : link_edge m b k g s = Ok s' -> still s s'.
  Proof.
    unfold link_edge. destruct g as [|h g]; [done|]. destruct (_ !! _); intros [= <-]; [apply link_still|apply rel_refl].
  Qed.
  Lemma climb_still k s s' : climb_edges near m k s = Ok s' -> still s s'.
  Proof.
    unfold climb_edges. destruct (hpn_of k s) as [hs|]; [|done]. cbn [rbind].
    destruct (foldM _ hs (ws_climb s)); [|done]. cbn. by intros [= <-].
  Qed.

  (** A new saddle. *)
  Lemma alloc_raised f (E : nat -> Prop) w : raised E w -> raised E (alloc_saddle (new_saddle f) w).1.
  Proof.
    intros [R1 R2]. assert (forall p, over_at w p = Some true -> over_at (alloc_saddle (new_saddle f) w).1 p = Some true) as Ho.
    { intros p H. unfold over_at. rewrite alloc_lookup. destruct (decide _) as [->|]; [|done].
      unfold over_at in H. by rewrite lookup_ge_None_2 in H. }
    assert (forall x p, parent_of w x = Some p -> parent_of (alloc_saddle (new_saddle f) w).1 x = Some p) as Hp.
    { intros x p H. unfold parent_of. rewrite alloc_lookup. destruct (decide _) as [->|]; [|done].
      unfold parent_of in H. by rewrite lookup_ge_None_2 in H. }
    split.
    - intros p x. unfold children_of. rewrite alloc_lookup. destruct (decide _) as [->|]; [by intros ?%elem_of_nil|]. intros H. by apply Hp, R1.
    - intros x p. unfold parent_of. rewrite alloc_lookup. destruct (decide _) as [->|]; [done|]. intros H.
      destruct (R2 x p H); auto.
  Qed.

  Lemma parent_set k v w x : parent_of (upd_saddle k (set_parent (Some v)) w) x =
    if decide (x = k /\ x < length (w_saddles w)) then Some v else parent_of w x.
  Proof.
    unfold parent_of. rewrite upd_saddle_lookup. destruct (decide (x = k)) as [->|]; [|by rewrite decide_False by tauto].
    destruct (w_saddles w !! k) as [o|] eqn:Eo.
    - rewrite decide_True; [done|]. split; [done|]. by eapply lookup_lt_Some.
    - rewrite decide_False; [done|]. intros [_ H]. apply lookup_lt_is_Some in H as [? ?]. congruence.
  Qed.
  Lemma children_set k v w x : children_of (upd_saddle k (set_parent v) w) x = children_of w x.
  Proof.
    unfold children_of. rewrite upd_saddle_lookup. case_decide; [|done]. by destruct (w_saddles w !! x).
  Qed.
  Lemma over_set k v w x : over_at (upd_saddle k (set_parent v) w) x = over_at w x.
  Proof. unfold over_at. rewrite upd_saddle_lookup. case_decide; [|done]. by destruct (w_saddles w !! x). Qed.
  Lemma parent_list i k w x : parent_of (upd_saddle i (fun o => set_children (sa_children o ++ [k]) o) w) x = parent_of w x.
  Proof. unfold parent_of. rewrite upd_saddle_lookup. case_decide; [|done]. by destruct (w_saddles w !! x). Qed.
  Lemma over_list i k w x : over_at (upd_saddle i (fun o => set_children (sa_children o ++ [k]) o) w) x = over_at w x.
  Proof. unfold over_at. rewrite upd_saddle_lookup. case_decide; [|done]. by destruct (w_saddles w !! x). Qed.
  Lemma children_list i k w p x : x ∈ children_of (upd_saddle i (fun o => set_children (sa_children o ++ [k]) o) w) p ->
    x ∈ children_of w p \/ (p = i /\ x = k).
  Proof.
    unfold children_of. rewrite upd_saddle_lookup. case_decide as Hp; [|auto]. destruct (w_saddles w !! p); [|auto]. cbn.
    rewrite elem_of_app, elem_of_list_singleton. tauto.
  Qed.
  Lemma parent_over i v w x : parent_of (upd_saddle i (set_over v) w) x = parent_of w x.
  Proof. unfold parent_of. rewrite upd_saddle_lookup. case_decide; [|done]. by destruct (w_saddles w !! x). Qed.
  Lemma children_over i v w x : children_of (upd_saddle i (set_over v) w) x = children_of w x.
  Proof. unfold children_of. rewrite upd_saddle_lookup. case_decide; [|done]. by destruct (w_saddles w !! x). Qed.
  Lemma over_over i w x : over_at w x = Some true -> over_at (upd_saddle i (set_over (Some true)) w) x = Some true.
  Proof. unfold over_at. rewrite upd_saddle_lookup. case_decide; [|done]. by destruct (w_saddles w !! x). Qed.
  Lemma over_here i w : is_Some (w_saddles w !! i) -> over_at (upd_saddle i (set_over (Some true)) w) i = Some true.
  Proof. intros [o Ho]. unfold over_at. by rewrite upd_saddle_lookup, decide_True, Ho. Qed.

  (** Making [k] a child of [i]. *)
  Lemma adopt_raised (E : nat -> Prop) i k w : raised E w -> E i -> k < length (w_saddles w) ->
    parent_of w k = None \/ parent_of w k = Some i ->
    raised E (upd_saddle i (fun o => set_children (sa_children o ++ [k]) o) (upd_saddle k (set_parent (Some i)) w)).
  Proof.
    intros [R1 R2] HE Hk Hp. split.
    - intros p x Hx. rewrite parent_list, parent_set. apply children_list in Hx as [Hx|[-> ->]].
      + rewrite children_set in Hx. apply R1 in Hx. case_decide as Hd; [|done]. destruct Hd as [-> _]. destruct Hp; congruence.
      + by rewrite decide_True.
    - intros x p. rewrite parent_list, parent_set, over_list, over_set. case_decide; [|apply R2]. intros [= <-]. by left.
  Qed.
  Lemma over_raised (E : nat -> Prop) i w : raised E w -> raised E (upd_saddle i (set_over (Some true)) w).
  Proof.
    intros [R1 R2]. split.
    - intros p x. rewrite children_over, parent_over. apply R1.
    - intros x p. rewrite parent_over. intros H. destruct (R2 x p H) as [?|?]; [by left|right]. by apply over_over.
  Qed.

  (** The new saddles, all of which come after [n]. *)
  Lemma children_raised (E : nat -> Prop) i f : forall rs w w' js, alloc_children i f rs w = (w', js) -> raised E w ->
    ((exists pos e h c, New pos e h (Some c) ∈ rs) -> E i) -> i < length (w_saddles w) ->
    raised E w' /\ (forall j, j ∈ js -> j < length (w_saddles w') /\ length (w_saddles w) <= j) /\
    length (w_saddles w) <= length (w_saddles w') /\
    (forall j, length (w_saddles w) <= j -> parent_of w' j = None \/ parent_of w' j = Some i) /\
    (forall j, j < length (w_saddles w) -> parent_of w' j = parent_of w j).
  Proof.
    induction rs as [|[f' dq|pos e h c] rs IH]; intros w w' js; cbn [alloc_children].
    - intros [= <- <-] R _ _. split_and!; try done.
      + by intros j ?%elem_of_nil.
      + intros j Hj. left. unfold parent_of. by rewrite lookup_ge_None_2.
    - intros H R HE Hi. apply (IH w w' js H R); [|done]. intros (p & e & h & c & Hin). apply HE. exists p, e, h, c. by right.
    - destruct (alloc_saddle (new_saddle (piece f pos h)) w) as [w1 j] eqn:Ea. assert (w1 = (alloc_saddle (new_saddle (piece f pos h)) w).1) as Ew1 by (by rewrite Ea).
      assert (j = length (w_saddles w)) as -> by (unfold alloc_saddle in Ea; by injection Ea).
      set (w2 := match c with Some _ => _ | None => w1 end).
      destruct (alloc_children i f rs w2) as [w3 js'] eqn:Ec. intros [= <- <-] R HE Hi.
      assert (length (w_saddles w1) = S (length (w_saddles w))) as L1 by (rewrite Ew1; unfold alloc_saddle; cbn; rewrite app_length; cbn; lia).
      assert (length (w_saddles w2) = S (length (w_saddles w))) as L2.
      { unfold w2. destruct c; [|done]. cbn. by rewrite !alter_length. }
      assert (raised E w1) as R1 by (rewrite Ew1; by apply alloc_raised).
      assert (forall x, x < length (w_saddles w) -> parent_of w1 x = parent_of w x) as P1.
      { intros x Hx. rewrite Ew1. unfold parent_of. rewrite alloc_lookup, decide_False by lia. done. }
      assert (parent_of w1 (length (w_saddles w)) = None) as P2.
      { rewrite Ew1. unfold parent_of. by rewrite alloc_lookup, decide_True. }
      assert (raised E w2) as R2.
      { unfold w2. destruct c as [c|]; [|done]. apply adopt_raised; [done| |lia|by left].
        apply HE. exists pos, e, h, c. by left. }
      destruct (IH w2 w3 js' Ec R2) as (A1 & A2 & A3 & A4 & A5).
      { intros (p & e' & h' & c' & Hin). apply HE. exists p, e', h', c'. by right. }
      { lia. }
      rewrite L2 in *. split_and!.
      + done.
      + intros x [->|Hx]%elem_of_cons; [lia|]. specialize (A2 x Hx). lia.
      + lia.
      + intros x Hx. destruct (decide (x = length (w_saddles w))) as [->|]; [|apply A4; lia]. rewrite A5 by lia.
        unfold w2. destruct c as [c|]; [|by left]. rewrite parent_list, parent_set, decide_True by lia. by right.
      + intros x Hx. rewrite A5 by lia. unfold w2. destruct c as [c|]; [|by apply P1].
        rewrite parent_list, parent_set, decide_False by lia. by apply P1.
  Qed.

  Lemma synth_raised (E : nat -> Prop) i w w' ks o : generate_synthetic_saddles fpath near m i w = Ok (w', ks) ->
    w_saddles w !! i = Some o -> raised E w -> (ft_edge (sa_feat o) = true -> E i) ->
    raised E w' /\ length (w_saddles w) <= length (w_saddles w') /\
    (forall k, k ∈ ks -> k < length (w_saddles w') /\ (k = i \/ parent_of w' k = None \/ parent_of w' k = Some i)) /\
    (forall j, j < length (w_saddles w) -> parent_of w' j = parent_of w j).
  Proof.
    intros H Ho R HE. unfold generate_synthetic_saddles in H. rewrite Ho in H. pose proof (lookup_lt_Some _ _ _ Ho) as Hlt.
    assert (forall f pos hpn, alloc_saddle (new_saddle (piece f pos hpn)) w = (w', length (w_saddles w)) -> ks = [length (w_saddles w)] ->
      raised E w' /\ length (w_saddles w) <= length (w_saddles w') /\
      (forall k, k ∈ ks -> k < length (w_saddles w') /\ (k = i \/ parent_of w' k = None \/ parent_of w' k = Some i)) /\
      (forall j, j < length (w_saddles w) -> parent_of w' j = parent_of w j)) as Hone.
    { intros f pos hpn Ea ->. assert (w' = (alloc_saddle (new_saddle (piece f pos hpn)) w).1) as -> by (by rewrite Ea). split_and!.
      - by apply alloc_raised.
      - cbn. rewrite app_length. lia.
      - intros j ->%elem_of_list_singleton. split; [cbn; rewrite app_length; cbn; lia|]. right. left. unfold parent_of.
        by rewrite alloc_lookup, decide_True.
      - intros j Hj. unfold parent_of. rewrite alloc_lookup, decide_False by lia. done. }
    destruct (ft_hpn (sa_feat o)) as [|g0 [|g1 [|g2 gs]]].
    - injection H as <- <-. split_and!; try done. intros k ->%elem_of_list_singleton. auto.
    - injection H as <- <-. split_and!; try done. intros k ->%elem_of_list_singleton. auto.
    - destruct (ft_multi (sa_feat o)) as [|z zs].
      + destruct (highest g0) as [h0|]; [|done]. cbn in H. destruct (highest g1) as [h1|]; [|done]. cbn in H.
        injection H as <- <-. by apply (Hone (sa_feat o) (ft_pos (sa_feat o)) [h0; h1]).
      + destruct (hpn_shortest_path fpath m (sa_feat o)) as [[[a b] mid]|]; [|done]. cbn in H.
        destruct (as_pte a) as [a'|]; [|done]. cbn in H. destruct (as_pte b) as [b'|]; [|done]. cbn in H.
        injection H as <- <-. by apply (Hone (sa_feat o) mid.1 [[a']; [b']]).
    - destruct (generate_child_saddles near m (sa_feat o)) as [rs|] eqn:Er; [|done]. cbn in H. injection H as H.
      destruct (children_raised E i (sa_feat o) rs w w' ks H R) as (A1 & A2 & A3 & A4 & A5); [|done|].
      { intros (pos & e & h & c & Hin). apply HE. by eapply generated_child. }
      split_and!; try done. intros k Hk. destruct (A2 k Hk). split; [done|]. right. by apply A4.
  Qed.

  Lemma still_len s s' : still s s' -> length (w_saddles (ws_world s')) = length (w_saddles (ws_world s)).
  Proof. intros H. apply (f_equal length) in H. by rewrite !fmap_length in H. Qed.

  Lemma edge_saddle_raised (E : nat -> Prop) i k s s' : edge_saddle m i k s = Ok s' -> raised E (ws_world s) -> E i ->
    k < length (w_saddles (ws_world s)) -> parent_of (ws_world s) k = None \/ parent_of (ws_world s) k = Some i ->
    raised E (ws_world s') /\ length (w_saddles (ws_world s')) = length (w_saddles (ws_world s)) /\
    (forall j, parent_of (ws_world s') j = if decide (j = k) then Some i else parent_of (ws_world s) j).
  Proof.
    unfold edge_saddle. destruct (hpn_of k s) as [hs|]; [|done]. cbn [rbind]. destruct (foldM _ hs s) as [s1|] eqn:Ef; [|done]. cbn [rbind].
    intros [= <-] R HE Hk Hp. pose proof (foldM_still _ _ (link_edge_still true k) _ _ Ef) as Q.
    pose proof (still_len _ _ Q) as Hlen. cbn [ws_world add_feat set_world].
    assert (forall j, parent_of (ws_world s1) j = parent_of (ws_world s) j) as HP by (intros j; by apply rel_parent).
    split_and!.
    - apply over_raised, adopt_raised; [by eapply rel_raised|done|lia|by rewrite HP].
    - cbn. rewrite !alter_length. done.
    - intros j. rewrite parent_over, parent_list, parent_set, HP.
      destruct (decide (j = k)) as [->|]; [rewrite decide_True; [done|lia]|by rewrite decide_False by tauto].
  Qed.
  Lemma edge_saddles_raised (E : nat -> Prop) i ks : forall s s', foldM (edge_saddle m i) ks s = Ok s' -> raised E (ws_world s) -> E i ->
    (forall k, k ∈ ks -> k < length (w_saddles (ws_world s)) /\ (parent_of (ws_world s) k = None \/ parent_of (ws_world s) k = Some i)) ->
    raised E (ws_world s') /\ length (w_saddles (ws_world s')) = length (w_saddles (ws_world s)) /\
    (forall j, j ∉ ks -> parent_of (ws_world s') j = parent_of (ws_world s) j).
  Proof.
    induction ks as [|k ks IH]; intros s s'; cbn; [by intros [= <-]|].
    destruct (edge_saddle m i k s) as [s1|] eqn:E1; [|done]. cbn. intros H R HE Hk.
    destruct (edge_saddle_raised E i k s s1 E1 R HE) as (A1 & A2 & A3); [apply Hk; by left..|].
    destruct (IH s1 s' H A1 HE) as (B1 & B2 & B3).
    { intros k' Hk'. rewrite A2, A3. destruct (Hk k') as [? ?]; [by right|]. split; [done|]. case_decide; auto. }
    split_and!; [done|congruence|]. intros j [Hj1 Hj2]%not_elem_of_cons. rewrite B3, A3, decide_False by done. done.
  Qed.

  Lemma synthetics_still ks : forall s s', foldM (walk_synthetic near m) ks s = Ok s' -> still s s'.
  Proof.
    apply foldM_still. intros k s s' E.
    unfold walk_synthetic in E. destruct (climb_edges near m k s) as [s2|] eqn:E2; [|done]. cbn in E.
    destruct (hpn_of k s2) as [hs|]; [|done]. cbn in E. destruct (foldM _ hs s2) as [s3|] eqn:E3; [|done]. cbn in E. injection E as <-.
    apply climb_still in E2. apply (foldM_still _ _ (link_edge_still false k)) in E3. by eapply still_trans.
  Qed.

  (** During the walk: what is not walked yet has no parent. *)
  Record rinv (n : nat) (pre : list nat) (s : walk_state) : Prop := {
    r_rel : raised (fun _ => False) (ws_world s);
    r_len : n <= length (w_saddles (ws_world s));
    r_bare : forall i, i < n -> i ∉ pre -> parent_of (ws_world s) i = None }.

  Lemma raised_weaken (E E' : nat -> Prop) w : (forall i, E i -> E' i) -> raised E w -> raised E' w.
  Proof. intros H [R1 R2]. split; [done|]. intros x p Hx. destruct (R2 x p Hx); auto. Qed.

  Lemma walk_one_raised n pre i s s' : rinv n pre s -> i ∉ pre -> i < n -> walk_one fpath near m i s = Ok s' -> rinv n (pre ++ [i]) s'.
  Proof.
    intros [R L B] Hi Hn H. pose proof (B i Hn Hi) as Hpi. unfold walk_one in H.
    destruct (w_saddles (ws_world s) !! i) as [o|] eqn:Ho; [|done].
    assert (forall ks s1 s', raised (fun p => p = i) (ws_world s1) -> n <= length (w_saddles (ws_world s1)) ->
      (forall j, j < n -> parent_of (ws_world s1) j = parent_of (ws_world s) j) ->
      (forall k, k ∈ ks -> k < length (w_saddles (ws_world s1)) /\ (k = i \/ n <= k) /\ (k = i \/ parent_of (ws_world s1) k = None \/ parent_of (ws_world s1) k = Some i)) ->
      (let* s := foldM (edge_saddle m i) ks s1 in
       Ok (add_feat i (set_world (upd_saddle i (set_over (Some true)) (ws_world s)) s))) = Ok s' -> rinv n (pre ++ [i]) s') as Hfin.
    { clear s' H. intros ks s1 s' R1 L1 P1 Hks H. destruct (foldM (edge_saddle m i) ks s1) as [s2|] eqn:E2; [|done]. cbn in H. injection H as <-.
      destruct (edge_saddles_raised (fun p => p = i) i ks s1 s2 E2 R1 eq_refl) as (A1 & A2 & A3).
      { intros k Hk. destruct (Hks k Hk) as (K1 & _ & [->|K2]); split; try done. left. by rewrite P1. }
      split; cbn [ws_world add_feat set_world].
      - destruct (over_raised _ i _ A1) as [R3 R4]. split; [done|]. intros x p Hx. right. destruct (R4 x p Hx) as [->|?]; [|done].
        apply over_here. apply lookup_lt_is_Some. lia.
      - cbn. rewrite alter_length. lia.
      - intros j Hj [Hj1 Hj2]%not_elem_of_app. rewrite parent_over. rewrite A3.
        + rewrite P1 by done. by apply B.
        + intros Hk. destruct (Hks j Hk) as (_ & [->|?] & _); [|lia]. destruct Hj2. by left. }
    destruct (ft_edge (sa_feat o)) eqn:He.
    - unfold walk_border in H. destruct (climb_edges near m i s) as [s1|] eqn:E1; [|done]. cbn [rbind] in H.
      apply climb_still in E1 as Q.
      destruct (w_saddles (ws_world s1) !! i) as [o1|] eqn:Ho1; [|done].
      assert (forall s2, still s1 s2 -> raised (fun p => p = i) (ws_world s2) /\ n <= length (w_saddles (ws_world s2)) /\
        (forall j, parent_of (ws_world s2) j = parent_of (ws_world s) j)) as Hq.
      { intros s2 Q2. pose proof (still_trans _ _ _ Q Q2) as Q3. split_and!.
        - eapply rel_raised; [exact Q3|]. by eapply raised_weaken; [|exact R].
        - by rewrite (still_len _ _ Q3).
        - intros j. by apply rel_parent. }
      assert (forall s2 s', still s1 s2 ->
        (let* (w, ks) := generate_synthetic_saddles fpath near m i (ws_world s2) in
         let* s := foldM (edge_saddle m i) ks (set_world w s2) in
         Ok (add_feat i (set_world (upd_saddle i (set_over (Some true)) (ws_world s)) s))) = Ok s' -> rinv n (pre ++ [i]) s') as Hsyn.
      { intros s2 s3 Q2 E. destruct (Hq s2 Q2) as (H1 & H2 & H3).
        destruct (generate_synthetic_saddles fpath near m i (ws_world s2)) as [[w2 ks]|] eqn:Es; [|done]. cbn [rbind] in E.
        assert (exists o2, w_saddles (ws_world s2) !! i = Some o2) as [o2 Ho2] by (apply lookup_lt_is_Some; lia).
        destruct (synth_raised (fun p => p = i) i _ _ _ _ Es Ho2 H1 ltac:(done)) as (A1 & A2 & A3 & A4).
        apply (Hfin ks (set_world w2 s2) s3); cbn [ws_world set_world]; [done|lia| | |done].
        - intros j Hj. rewrite A4 by lia. apply H3.
        - intros k Hk. destruct (A3 k Hk) as [K1 K2]. split_and!; [done| |done].
          assert (k = i \/ length (w_saddles (ws_world s2)) <= k) as [?|?]; [|by left|right; lia].
          destruct (synth_kin fpath near m i (ws_world s2) w2 ks o2 Es Ho2) as [(_ & -> & _)|(F & _)].
          + left. by apply elem_of_list_singleton in Hk.
          + right. rewrite F in Hk. apply elem_of_seq in Hk. lia. }
      destruct (decide (ft_kind (sa_feat o1) = KRunoff)) as [Hk|Hk].
      + destruct (decide (ft_hpn (sa_feat o1) = [])) as [Hh|Hh].
        * destruct (latlong_to_xy m _ _) as [c|]; [|done]. cbn [rbind] in H. destruct (cs_table (ws_climb s1) !! c) as [d|].
          -- apply (Hsyn (link_saddle m true d i s1)); [apply link_still|done].
          -- injection H as <-. split; cbn.
             ++ by eapply rel_raised.
             ++ by rewrite (still_len _ _ Q).
             ++ intros j Hj [Hj1 _]%not_elem_of_app. rewrite (rel_parent _ _ _ Q). by apply B.
        * destruct (Hq s1 (rel_refl _)) as (H1 & H2 & H3). apply (Hfin [i] s1); try done.
          intros k ->%elem_of_list_singleton. split_and!; [lia|auto|auto].
      + by apply (Hsyn s1 s' (rel_refl _)).
    - destruct (generate_synthetic_saddles fpath near m i (ws_world s)) as [[w2 ks]|] eqn:Es; [|done]. cbn [rbind] in H.
      apply synthetics_still in H. unfold still in H. cbn in H.
      destruct (synth_raised (fun _ => False) i _ _ _ _ Es Ho R) as (A1 & A2 & A3 & A4); [congruence|]. split.
      + by eapply rel_raised.
      + apply (f_equal length) in H. rewrite !fmap_length in H. lia.
      + intros j Hj [Hj1 _]%not_elem_of_app. rewrite (rel_parent _ _ _ H), A4 by lia. by apply B.
  Qed.

  Theorem walk_raised w summits feats s : climb_from_saddles fpath near m w summits feats = Ok s -> NoDup feats ->
    (forall i, i ∈ feats -> i < length (w_saddles w)) ->
    (forall i o, w_saddles w !! i = Some o -> sa_children o = [] /\ sa_parent o = None) ->
    raised (fun _ => False) (ws_world s).
  Proof.
    unfold climb_from_saddles. destruct (walk_init m w summits) as [s0|] eqn:E0; [|done]. cbn. intros H Hnd Hin Hbare.
    destruct (init_view _ _ _ _ E0) as [I1 I2].
    assert (rinv (length (w_saddles w)) [] s0) as K0.
    { split; rewrite ?I1; [split|done|].
      - intros p x. unfold children_of. rewrite I1. destruct (w_saddles w !! p) as [o|] eqn:Ho; cbn; [|by intros ?%elem_of_nil].
        destruct (Hbare p o Ho) as [-> _]. by intros ?%elem_of_nil.
      - intros x p. unfold parent_of. rewrite I1. destruct (w_saddles w !! x) as [o|] eqn:Ho; cbn; [|done].
        by destruct (Hbare x o Ho) as [_ ->].
      - intros i Hi _. unfold parent_of. rewrite I1. destruct (w_saddles w !! i) as [o|] eqn:Ho; cbn; [|done].
        by destruct (Hbare i o Ho) as [_ ->]. }
    enough (forall l pre s0, feats = pre ++ l -> rinv (length (w_saddles w)) pre s0 -> foldM (walk_one fpath near m) l s0 = Ok s ->
      rinv (length (w_saddles w)) feats s) as G by (by apply (G feats [] s0)).
    clear s0 E0 H I1 I2 K0. intros l. induction l as [|i l IH]; intros pre s0 E K H; cbn in H.
    - injection H as <-. by rewrite E, app_nil_r.
    - destruct (walk_one fpath near m i s0) as [s1|] eqn:E1; [|done]. cbn in H. apply (IH (pre ++ [i]) s1); [by rewrite <-app_assoc| |done].
      apply (walk_one_raised _ pre i s0 s1 K); [| |done].
      + rewrite E in Hnd. apply NoDup_app in Hnd as (_ & Hd & _). intros Hi. apply (Hd i Hi). by left.
      + apply Hin. rewrite E. apply elem_of_app. right. by left.
  Qed.
End raise.
