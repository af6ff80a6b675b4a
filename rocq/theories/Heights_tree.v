(** The divide tree depends on the order of the elevations only. *)
From Verif Require Import Base_model Graph_model Basin_model Divide_model Basin_spec Heights_spec Heights_proof.
From Coq Require Import ZifyBool.
Local Open Scope Z_scope.

Lemma foldl_same {A B} (f g : A -> B -> A) l a : (forall a b, f a b = g a b) -> foldl f a l = foldl g a l.
Proof. intros H. revert a. induction l as [|b l IH]; intros a; [done|]. cbn. by rewrite H, IH. Qed.
Lemma existsb_same {A} (f g : A -> bool) l : (forall a, f a = g a) -> existsb f l = existsb g l.
Proof. intros H. induction l as [|b l IH]; [done|]. cbn. by rewrite H, IH. Qed.

Section tree.
  Context (m : datamap) (w1 w2 : world) (H : same_heights w1 w2).

  Lemma busts master t : lp_bust m w1 master t = lp_bust m w2 master t.
  Proof. unfold lp_bust. by rewrite (existsb_same _ (summit_same m w2 master) _ (fun a => summits_eq m m eq_refl _ _ master a H)). Qed.
  Lemma boundaries master s t : lp_boundary m w1 master s t = lp_boundary m w2 master s t.
  Proof.
    unfold lp_boundary. cbv zeta.
    by rewrite (existsb_same _ (summit_same m w2 master) _ (fun a => summits_eq m m eq_refl _ _ master a H)),
      (existsb_same _ (saddle_same m w2 s) _ (fun a => saddles_eq m m eq_refl _ _ s a H)).
  Qed.
  Lemma linkers_ok skip ex j : linker_ok w1 skip ex j = linker_ok w2 skip ex j.
  Proof. unfold linker_ok. by rewrite (sh_links _ _ H). Qed.
  Lemma via b1 b2 k : linkers_to_summits_connected_via_saddle w1 b1 b2 k = linkers_to_summits_connected_via_saddle w2 b1 b2 k.
  Proof.
    unfold linkers_to_summits_connected_via_saddle.
    assert (saddle_links w1 k = saddle_links w2 k) as ->.
    { unfold saddle_links. rewrite (sh_links _ _ H). destruct (w_links w2 !! k) as [l|]; [|done]. cbn.
      destruct (sad _ _ (ln_saddle l) H) as [[-> ->]|(s & s' & -> & -> & L)]; [done|]. cbn. apply L. }
    apply list_filter_iff. intros j. by rewrite linkers_ok.
  Qed.
  Lemma steps rec1 rec2 master b path k l t j : (forall a p t, rec1 a p t = rec2 a p t) -> there w1 (Sum b) ->
    next_step m w1 rec1 master (ele_at w1 (Sum b)) path k l t j = next_step m w2 rec2 master (ele_at w2 (Sum b)) path k l t j.
  Proof.
    intros Hr Hb. unfold next_step. rewrite (sh_links _ _ H). destruct (w_links w2 !! j) as [n|]; [|done].
    destruct (decide _); [done|]. destruct (ln_disq l); [done|].
    destruct (sum _ _ (ln_summit n) H) as [[-> ->]|(s & s' & E & E' & L)]; [done|]. rewrite E, E'.
    pose proof (le_ _ _ (Sum (ln_summit n)) (Sum b) H (there_sum _ _ _ E) Hb) as El.
    rewrite !ele_node in El. unfold ele_at at 1 3 in El. rewrite E, E' in El. rewrite El.
    destruct L as (_ & -> & _). by rewrite Hr, boundaries.
  Qed.
  Lemma links_ rec1 rec2 master b path t k : (forall a p t, rec1 a p t = rec2 a p t) -> there w1 (Sum b) ->
    link_step m w1 rec1 master (ele_at w1 (Sum b)) path t k = link_step m w2 rec2 master (ele_at w2 (Sum b)) path t k.
  Proof.
    intros Hr Hb. unfold link_step. rewrite (sh_links _ _ H). destruct (w_links w2 !! k) as [l|]; [|done].
    destruct (ln_disq l); [done|]. destruct (decide _); [done|]. cbv zeta.
    destruct (sad _ _ (ln_saddle l) H) as [[-> ->]|(s & s' & -> & -> & L)]; [done|].
    rewrite (like_disq _ _ L), via. destruct (disqualified s'); [done|]. destruct L as (_ & -> & _).
    destruct (ft_edge _); [done|]. apply foldl_same. intros. by apply steps.
  Qed.
  Lemma chasers room master : forall branch path t, branch_chaser m w1 room master branch path t = branch_chaser m w2 room master branch path t.
  Proof.
    induction room as [|room IH]; intros branch path t; cbn [branch_chaser]; [apply busts|].
    destruct (sum _ _ branch H) as [[-> ->]|(s & s' & E & E' & L)]; [done|]. rewrite E, E'.
    assert (ft_ele (su_feat s) = ele_at w1 (Sum branch)) as -> by (cbn; by rewrite E).
    assert (ft_ele (su_feat s') = ele_at w2 (Sum branch)) as -> by (cbn; by rewrite E').
    destruct L as (_ & _ & ->). apply foldl_same. intros. apply links_; [done|]. by eapply there_sum.
  Qed.
  Lemma highests summits : (forall a, a ∈ summits -> there w1 (Sum a)) -> first_highest w1 summits = first_highest w2 summits.
  Proof.
    intros Ht. destruct summits as [|a l]; [done|]. cbn [first_highest]. f_equal.
    assert (there w1 (Sum a)) as Ha by (apply Ht; left).
    assert (forall b, b ∈ l -> there w1 (Sum b)) as Hl by (intros; apply Ht; by right). clear Ht.
    revert a Ha. induction l as [|b l IH]; intros a Ha; [done|]. cbn [foldl].
    assert (there w1 (Sum b)) as Hb by (apply Hl; left).
    assert ((summit_ele w1 a <? summit_ele w1 b) = (summit_ele w2 a <? summit_ele w2 b)) as <-.
    { pose proof (lt_ _ _ _ _ H Ha Hb) as E. unfold node_ele in E. cbn [node_feat] in E. unfold summit_ele.
      by destruct (w_summits w1 !! a), (w_summits w1 !! b), (w_summits w2 !! a), (w_summits w2 !! b). }
    apply IH; [|by destruct (_ <? _)]. intros c Hc. apply Hl. by right.
  Qed.
  Lemma same_tree summits t : (forall a, a ∈ summits -> there w1 (Sum a)) -> run_tree m w1 summits t = run_tree m w2 summits t.
  Proof.
    intros Ht. unfold run_tree. rewrite (highests _ Ht). destruct (first_highest w2 summits); [|done]. cbn [rbind].
    erewrite foldl_same; [done|]. intros acc a0. unfold local_prominent_region. by rewrite chasers.
  Qed.
End tree.
