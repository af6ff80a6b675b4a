(** Proofs about what an exploration lists beside the paths. *)
From Verif Require Import Base_model Graph_model Divide_model Basin_model Graph_spec Persist_spec Basin_spec Divide_spec Region_spec
  Divide_proof Region_proof.
From Verif Require Persist_load_proof.
Local Open Scope Z_scope.

(** ** Any graph *)

Section listed.
  Variable m : datamap.
  Variable w : world.
  Hypothesis Hown : own_links w.
  Variable master : nat.

  Definition kind (t : lpr) (q : list nat) (s : nat) : Prop :=
    (lp_edge t = true /\ ends_at w (border_at w) master q s) \/
    (ends_at w (divide_at w) master q s /\ existsb (saddle_same m w s) (lp_at_summit t master) = true /\
     existsb (summit_same m w master) (lp_at_saddle t s) = true).
  Definition kinds (t : lpr) : Prop := forall q s, (q, s) ∈ lp_paths t -> kind t q s.

  Lemma self_saddle s : saddle_same m w s s = true.
  Proof. unfold saddle_same. by rewrite Nat.eqb_refl. Qed.
  Lemma self_summit s : summit_same m w s s = true.
  Proof. unfold summit_same. by rewrite Nat.eqb_refl. Qed.
  Lemma existsb_more {A} (f : A -> bool) l k : existsb f l = true -> existsb f (l ++ k) = true.
  Proof. intros H. rewrite existsb_app, H. done. Qed.
  Lemma existsb_end {A} (f : A -> bool) l x : f x = true -> existsb f (l ++ [x]) = true.
  Proof. intros H. rewrite existsb_app. cbn. rewrite H. cbn. apply orb_true_r. Qed.

  Lemma kinds_bust t : kinds t -> kinds (lp_bust m w master t).
  Proof. intros H. unfold lp_bust. by destruct (existsb _ _). Qed.
  Lemma kinds_mark t k : kinds t -> kinds (lp_mark k t).
  Proof. done. Qed.
  Lemma kinds_border t q s : kinds t -> ends_at w (border_at w) master q s -> kinds (lp_report q s true t).
  Proof.
    intros H Hq q' s'. cbn. rewrite elem_of_app, elem_of_list_singleton. intros [Hin|[= -> ->]].
    - destruct (H _ _ Hin) as [[_ ?]|?]; [by left|by right].
    - by left.
  Qed.
  Lemma boundary_summit t s s' : existsb (saddle_same m w s') (lp_at_summit t master) = true \/ s' = s ->
    existsb (saddle_same m w s') (lp_at_summit (lp_boundary m w master s t) master) = true.
  Proof.
    cbn. destruct (existsb (saddle_same m w s) (lp_at_summit t master)) eqn:E; [by intros [?| ->]|].
    rewrite Nat.eqb_refl. intros [?| ->]; [by apply existsb_more|]. apply existsb_end, self_saddle.
  Qed.
  Lemma boundary_saddle t s s' : existsb (summit_same m w master) (lp_at_saddle t s') = true \/ s' = s ->
    existsb (summit_same m w master) (lp_at_saddle (lp_boundary m w master s t) s') = true.
  Proof.
    cbn. destruct (existsb (summit_same m w master) (lp_at_saddle t s)) eqn:E; [by intros [?| ->]|].
    destruct (Nat.eqb_spec s' s) as [->|Hne].
    - intros _. apply existsb_end, self_summit.
    - by intros [?| ->].
  Qed.
  Lemma kinds_divide t q s : kinds t -> ends_at w (divide_at w) master q s ->
    kinds (lp_boundary m w master s (lp_report q s false t)).
  Proof.
    intros H Hq q' s'. cbn [lp_paths lp_boundary lp_report]. rewrite elem_of_app, elem_of_list_singleton. intros [Hin|[= -> ->]].
    - destruct (H _ _ Hin) as [[? ?]|(H1 & H2 & H3)]; [by left|]. right. split; [done|]. split.
      + apply boundary_summit. by left.
      + apply boundary_saddle. by left.
    - right. split; [done|]. split; [apply boundary_summit; by right|apply boundary_saddle; by right].
  Qed.

  Lemma chaser_kinds room : forall branch path t, leads w master path branch -> kinds t -> kinds (branch_chaser m w room master branch path t).
  Proof using Hown.
    induction room as [|room IH]; intros branch path t Hlead Ht; cbn [branch_chaser]; [by apply kinds_bust|].
    destruct (w_summits w !! branch) as [b|] eqn:Eb; [|done].
    apply foldl_inv; [|done]. clear t Ht. intros t k Hk Ht. unfold link_step.
    destruct (proj1 Hown _ _ _ Eb Hk) as (l & El & Hsu). rewrite El. destruct (ln_disq l) eqn:Ed; [done|].
    destruct (decide _) as [|Hne]; [done|].
    assert (at_summit w branch k) as Hat by (by exists b). assert (joins w k branch (ln_saddle l)) as Hj by (by exists l).
    destruct (w_saddles w !! ln_saddle l) as [sa|] eqn:Es; [|done].
    destruct (disqualified sa) eqn:Edq; [done|]. destruct (ft_edge (sa_feat sa)) eqn:Ee.
    { apply kinds_border; [done|]. exists path, branch, k. repeat split; try done. left. by exists sa. }
    assert (live_saddle w (ln_saddle l) false) as Hlive by (by exists sa).
    apply foldl_inv; [|by apply kinds_mark]. clear t Ht Hne. intros t j Hin Ht. unfold next_step.
    apply (others_spec w Hown k l j El) in Hin as (Hjs & Hjk & n & En & Hns & Hnd). rewrite En.
    destruct (decide _) as [|Hne]; [done|]. rewrite Ed.
    assert (joins w j (ln_summit n) (ln_saddle l)) as Hjn by (by exists n).
    destruct (w_summits w !! ln_summit n) as [su|] eqn:Esu; [|done].
    destruct (ft_ele (su_feat su) <=? ft_ele (su_feat b)) eqn:Ele; cbn [andb].
    - assert (not_higher w (ln_summit n) branch) as Hnh.
      { exists (ft_ele (su_feat su)), (ft_ele (su_feat b)). split; [by exists su|]. split; [by exists b|lia]. }
      destruct (ft_edge (su_feat su)) eqn:Eedge.
      + apply kinds_border; [done|]. exists path, branch, k. repeat split; try done.
        right. split; [done|]. exists j, (ln_summit n). repeat split; try done. by exists su.
      + apply IH; [|done]. eapply leads_step; [done|]. repeat split; try done. by exists su.
    - apply kinds_divide; [done|]. exists path, branch, k. repeat split; try done.
      exists j, (ln_summit n). repeat split; try done.
      exists (ft_ele (su_feat su)), (ft_ele (su_feat b)). split; [by exists su|]. split; [by exists b|lia].
  Qed.
  Lemma region_kinds t0 : kinds (local_prominent_region m w master t0).
  Proof using Hown. apply chaser_kinds; [constructor|]. intros q s Hq. by apply elem_of_nil in Hq. Qed.
  Lemma alike_saddle s l : existsb (saddle_same m w s) l = true -> exists s', s' ∈ l /\ saddle_alike m w s s'.
  Proof.
    intros (s' & Hin & Hs)%existsb_exists. exists s'. split; [by apply elem_of_list_In|]. unfold saddle_same in Hs.
    apply orb_true_iff in Hs as [->%Nat.eqb_eq|Hs]; [by left|]. right. unfold saddle_spot in Hs.
    destruct (w_saddles w !! s) as [x|], (w_saddles w !! s') as [y|]; cbn in Hs; try done.
    exists x, y. split; [done|]. split; [done|]. by apply Persist_load_proof.spot_eq_same.
  Qed.
  Lemma alike_summit s l : existsb (summit_same m w s) l = true -> exists s', s' ∈ l /\ summit_alike m w s s'.
  Proof.
    intros (s' & Hin & Hs)%existsb_exists. exists s'. split; [by apply elem_of_list_In|]. unfold summit_same in Hs.
    apply orb_true_iff in Hs as [->%Nat.eqb_eq|Hs]; [by left|]. right. unfold summit_spot in Hs.
    destruct (w_summits w !! s) as [x|], (w_summits w !! s') as [y|]; cbn in Hs; try done.
    exists x, y. split; [done|]. split; [done|]. by apply Persist_load_proof.spot_eq_same.
  Qed.
  Lemma region_listed t0 q s : (q, s) ∈ lp_paths (local_prominent_region m w master t0) ->
    let r := local_prominent_region m w master t0 in
    (lp_edge r = true /\ ends_at w (border_at w) master q s) \/
    (ends_at w (divide_at w) master q s /\ (exists s', s' ∈ lp_at_summit r master /\ saddle_alike m w s s') /\
     (exists a, a ∈ lp_at_saddle r s /\ summit_alike m w master a)).
  Proof using Hown.
    intros Hq r. destruct (region_kinds t0 q s Hq) as [?|(H1 & H2 & H3)]; [by left|]. right. split; [done|].
    split; [by apply alike_saddle|by apply alike_summit].
  Qed.
End listed.

(** ** Trees *)

Lemma filter_one (P : nat -> Prop) `{forall x, Decision (P x)} ls k : (forall x, P x -> x <> k) -> k ∈ ls -> (length ls <= 2)%nat ->
  (length (filter P ls) <= 1)%nat.
Proof.
  intros Hx Hin H2. apply elem_of_list_split in Hin as (l1 & l2 & ->). rewrite filter_app, filter_cons, decide_False by (intros Hk; exact (Hx k Hk eq_refl)).
  rewrite app_length in *. cbn [length] in H2. pose proof (filter_length P l1). pose proof (filter_length P l2). lia.
Qed.
Section once.
  Variable m : datamap.
  Variable w : world.
  Hypothesis G : tree_graph w.
  Variable master : nat.
  Hypothesis Hmaster : open_ w (Sum master).

  (** Border and higher summit exclude each other at an open saddle. *)
  Lemma one_kind b k s : open_ w (Sum b) -> at_summit w b k -> joins w k b s -> border_at w b k s -> ~ divide_at w b k s.
  Proof using G.
    intros Hb Hk Hj [Hl|[_ (j & c & Hjs & Hjk & Hjc & _ & Hn)]] [Hl' (j' & c' & Hjs' & Hjk' & Hjc' & Hh)].
    - destruct Hl as (? & ? & ? & ?), Hl' as (? & ? & ? & ?). congruence.
    - assert (open_ w (Sad s)) as Hs by (by apply live_open).
      pose proof (tg_sum w G b k s Hb Hk Hj Hs) as (sa & Esa & Hin). destruct Hjs as (sa' & E & Hin1), Hjs' as (sa'' & E' & Hin2).
      assert (sa' = sa) as -> by congruence. assert (sa'' = sa) as -> by congruence.
      assert (j = j') as <-.
      { pose proof (tg_two w G s sa Hs Esa) as H2. destruct (sa_links sa) as [|x [|y [|]]]; cbn in H2; try lia.
        - by apply elem_of_nil in Hin.
        - apply elem_of_list_singleton in Hin, Hin1. congruence.
        - rewrite !elem_of_cons in Hin, Hin1, Hin2. rewrite elem_of_nil in Hin, Hin1, Hin2.
          destruct Hin as [|[|[]]], Hin1 as [|[|[]]], Hin2 as [|[|[]]]; congruence. }
      destruct Hjc as (l & El & <- & _), Hjc' as (l' & El' & <- & _). assert (l' = l) as -> by congruence.
      destruct Hn as (x & y & (? & ? & ?) & (? & ? & ?) & ?), Hh as (x' & y' & (? & ? & ?) & (? & ? & ?) & ?).
      simplify_eq. lia.
  Qed.
  Lemma leads_open p b : leads w master p b -> open_ w (Sum b).
  Proof using Hmaster. destruct 1 as [|p b k s j c _ Hh]; [done|]. by destruct Hh as (_ & _ & _ & _ & _ & _ & (su & E & E2) & _); exists su. Qed.
  Lemma one_end q s : ends_at w (border_at w) master q s -> ~ ends_at w (divide_at w) master q s.
  Proof using G Hmaster.
    intros (p & b & k & -> & Hp & Hk & Hj & Hb) (p' & b' & k' & E & Hp' & Hk' & Hj' & Hd).
    apply app_inj_tail in E as [<- <-]. destruct (joins_det w _ _ _ _ _ Hj Hj') as [<- _].
    by apply (one_kind b k s (leads_open _ _ Hp) Hk Hj).
  Qed.

  Definition once (t : lpr) : Prop :=
    NoDup (lp_paths t) /\ forall q s, (q, s) ∈ lp_paths t -> exists p k, q = p ++ [k] /\ k ∈ lp_exempt t.
  Lemma once_report t p k s e : once t -> k ∈ lp_exempt t -> (forall q s', (q ++ [k], s') ∉ lp_paths t) -> once (lp_report (p ++ [k]) s e t).
  Proof.
    intros [H1 H2] Hk Hn. split; cbn.
    - apply NoDup_app. split; [done|]. split; [|apply NoDup_singleton]. intros x Hx. rewrite elem_of_list_singleton. intros ->. exact (Hn _ _ Hx).
    - intros q s'. rewrite elem_of_app, elem_of_list_singleton. intros [Hin|[= -> ->]]; [exact (H2 q s' Hin)|]. by exists p, k.
  Qed.
  Lemma once_mark t k : once t -> once (lp_mark k t).
  Proof.
    intros [H1 H2]. split; [done|]. cbn. intros q s Hq. destruct (H2 q s Hq) as (p & k' & -> & Hk). exists p, k'. split; [done|].
    apply elem_of_app. by left.
  Qed.
  Lemma few k l b : w_links w !! k = Some l -> ln_summit l = b -> ln_disq l = false -> open_ w (Sum b) -> at_summit w b k ->
    open_ w (Sad (ln_saddle l)) -> (length (linkers_to_summits_connected_via_saddle w true true k) <= 1)%nat.
  Proof using G.
    intros El Eb Ed Hb Hk Hs. assert (joins w k b (ln_saddle l)) as Hj by (by exists l).
    pose proof (tg_sum w G b k _ Hb Hk Hj Hs) as (sa & Esa & Hin). pose proof (tg_two w G _ sa Hs Esa) as H2.
    unfold linkers_to_summits_connected_via_saddle, saddle_links. rewrite El, Esa.
    assert (forall x, linker_ok w true (fun _ => false) x && help_exclude_self k x true = true -> x <> k) as Hx.
    { intros x Hx ->. apply andb_true_iff in Hx as [_ Hx]. unfold help_exclude_self in Hx. by rewrite Nat.eqb_refl in Hx. }
    by apply filter_one with k.
  Qed.

  Lemma chaser_once room : forall branch path t, open_ w (Sum branch) -> once t -> once (branch_chaser m w room master branch path t).
  Proof using G.
    pose proof (tg_own w G) as Hown.
    induction room as [|room IH]; intros branch path t Hopen Ht; cbn [branch_chaser].
    { unfold lp_bust. by destruct (existsb _ _). }
    destruct (w_summits w !! branch) as [b|] eqn:Eb; [|done].
    apply foldl_inv; [|done]. clear t Ht. intros t k Hk Ht. unfold link_step.
    destruct (proj1 Hown _ _ _ Eb Hk) as (l & El & Hsu). rewrite El. destruct (ln_disq l) eqn:Ed; [done|].
    destruct (decide _) as [|Hne]; [done|].
    assert (at_summit w branch k) as Hat by (by exists b).
    pose proof (once_mark t k Ht) as Hm.
    assert (k ∈ lp_exempt (lp_mark k t)) as Hkm by (cbn; apply elem_of_app; right; by left).
    assert (forall q s', (q ++ [k], s') ∉ lp_paths (lp_mark k t)) as Hn.
    { cbn. intros q s' Hq. destruct (proj2 Ht _ _ Hq) as (p & k' & E & Hk'). apply app_inj_tail in E as [_ <-]. done. }
    set (t1 := lp_mark k t) in *. clearbody t1.
    destruct (w_saddles w !! ln_saddle l) as [sa|] eqn:Es; [|done].
    destruct (disqualified sa) eqn:Edq; [done|]. destruct (ft_edge (sa_feat sa)) eqn:Ee; [by apply once_report|].
    assert (open_ w (Sad (ln_saddle l))) as Hs by (by exists sa).
    pose proof (few k l branch El Hsu Ed Hopen Hat Hs) as Hfew.
    destruct (linkers_to_summits_connected_via_saddle w true true k) as [|j [|]] eqn:Ej; cbn in Hfew; try lia; [done|].
    cbn [foldl]. unfold next_step.
    assert (j ∈ linkers_to_summits_connected_via_saddle w true true k) as Hin by (rewrite Ej; by left).
    apply (others_spec w Hown k l j El) in Hin as (Hjs & Hjk & n & En & Hns & Hnd). rewrite En.
    destruct (decide _) as [|Hne']; [done|]. rewrite Ed.
    destruct (w_summits w !! ln_summit n) as [su|] eqn:Esu; [|done].
    destruct (ft_ele (su_feat su) <=? ft_ele (su_feat b)) eqn:Ele; cbn [andb].
    - destruct (ft_edge (su_feat su)) eqn:Eedge; [by apply once_report|]. apply IH; [by exists su|done].
    - by apply (once_report t1 path k (ln_saddle l) false Hm Hkm Hn).
  Qed.
  Lemma region_once t0 : NoDup (lp_paths (local_prominent_region m w master t0)).
  Proof using G Hmaster.
    apply chaser_once; [done|]. split; cbn; [apply NoDup_nil_2|]. intros q s Hq. by apply elem_of_nil in Hq.
  Qed.

  Lemma region_edge t0 : lp_edge (local_prominent_region m w master t0) = true <->
    exists q s, (q, s) ∈ lp_paths (local_prominent_region m w master t0) /\ ends_at w (border_at w) master q s.
  Proof using G Hmaster.
    split; [apply (region_sound m w (tg_own w G) master t0)|]. intros (q & s & Hq & He).
    destruct (region_kinds m w (tg_own w G) master t0 q s Hq) as [[? _]|[Hd _]]; [done|]. by apply one_end in He.
  Qed.
  Lemma region_divides t0 q s : (q, s) ∈ lp_paths (local_prominent_region m w master t0) -> ends_at w (divide_at w) master q s ->
    let r := local_prominent_region m w master t0 in
    (exists s', s' ∈ lp_at_summit r master /\ saddle_alike m w s s') /\ (exists a, a ∈ lp_at_saddle r s /\ summit_alike m w master a).
  Proof using G Hmaster.
    intros Hq Hd r. destruct (region_listed m w (tg_own w G) master t0 q s Hq) as [[_ He]|[_ ?]]; [|done].
    by apply one_end in He.
  Qed.
End once.
