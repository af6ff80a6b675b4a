(** Proofs about the exploration of a divide tree. *)
From Verif Require Import Base_model Graph_model Divide_model Divide_spec Graph_spec.
Local Open Scope Z_scope.

Lemma foldl_inv {A B} (P : B -> Prop) (f : B -> A -> B) l : (forall t x, x ∈ l -> P t -> P (f t x)) -> forall t, P t -> P (foldl f t l).
Proof.
  induction l as [|x l IH]; intros Hs t Ht; [done|]. cbn. apply IH; [|by apply Hs; [left|]].
  intros t' y Hy. apply Hs. by right.
Qed.
Lemma foldl_prefix {A B} (P : list A -> B -> Prop) (f : B -> A -> B) l t : P [] t ->
  (forall pre x t, x ∈ l -> P pre t -> P (pre ++ [x]) (f t x)) -> P l (foldl f t l).
Proof.
  intros H0 Hs. assert (forall pre l' t, (forall x, x ∈ l' -> x ∈ l) -> P pre t -> P (pre ++ l') (foldl f t l')) as H.
  { intros pre l'. revert pre. induction l' as [|x l' IH]; intros pre t' Hl Hp; [by rewrite app_nil_r|]. cbn.
    replace (pre ++ x :: l') with ((pre ++ [x]) ++ l') by (by rewrite <-app_assoc). apply IH.
    - intros y Hy. apply Hl. by right.
    - apply Hs; [apply Hl; by left|done]. }
  by apply (H [] l t).
Qed.

Section divide.
  Variable m : datamap.
  Variable w : world.
  Hypothesis Hown : own_links w.

  Lemma others_spec k l j : w_links w !! k = Some l -> j ∈ linkers_to_summits_connected_via_saddle w true true k <->
    at_saddle w (ln_saddle l) j /\ j <> k /\ exists n, w_links w !! j = Some n /\ ln_saddle n = ln_saddle l /\ ln_disq n = false.
  Proof using Hown.
    intros Ek. unfold linkers_to_summits_connected_via_saddle, saddle_links, at_saddle. rewrite Ek, elem_of_list_filter.
    destruct (w_saddles w !! ln_saddle l) as [sa|] eqn:Es.
    - assert (j ∈ sa_links sa -> linker_ok w true (fun _ => false) j && help_exclude_self k j true = true <->
        j <> k /\ exists n, w_links w !! j = Some n /\ ln_saddle n = ln_saddle l /\ ln_disq n = false) as H.
      { intros Hj. destruct (proj2 Hown _ _ _ Es Hj) as (n & En & Hn). unfold linker_ok, help_exclude_self. rewrite En.
        rewrite orb_false_r. destruct (Nat.eqb_spec k j) as [->|Hne]; destruct (ln_disq n) eqn:Ed; cbn; split; intros Hx; try done.
        - by destruct Hx.
        - by destruct Hx.
        - destruct Hx as (_ & n' & En' & _ & Hd). congruence.
        - split; [done|]. by exists n. }
      split.
      + intros [H1 H2]. split; [by exists sa|]. by apply H.
      + intros [(sa' & E & Hj) H2]. injection E as <-. split; [by apply H|done].
    - split; [intros [_ H]; by apply elem_of_nil in H|]. intros [(sa' & E & _) _]. done.
  Qed.

  (** ** Soundness *)

  Section sound.
    Variables (master : nat) (t0 : tree).
    Definition ended := ends_at w (fun b k s => border_at w b k s \/ divide_at w b k s) master.
    Record sound (t : lpr) : Prop := {
      so_once : NoDup (lp_exempt t);
      so_reach : forall k, k ∈ lp_exempt t -> reach_within w max_depth master k;
      so_paths : forall q s, (q, s) ∈ lp_paths t -> ended q s /\ (length q < 2 * max_depth)%nat;
      so_edge : lp_edge t = true -> exists q s, (q, s) ∈ lp_paths t /\ ends_at w (border_at w) master q s;
      so_edge2 : forall q s, (q, s) ∈ lp_paths t -> live_saddle w s true -> lp_edge t = true;
      so_summit : forall s, s ∈ lp_at_summit t master -> s ∈ tr_at_summit t0 master \/
        exists q, (q, s) ∈ lp_paths t /\ ends_at w (divide_at w) master q s;
      so_others : forall a, a <> master -> lp_at_summit t a = tr_at_summit t0 a;
      so_saddle : forall a s, a ∈ lp_at_saddle t s -> a ∈ tr_at_saddle t0 s \/
        (a = master /\ exists q, (q, s) ∈ lp_paths t /\ ends_at w (divide_at w) master q s);
      so_busted : forall a, a ∈ lp_busted t -> a ∈ tr_busted t0 \/ a = master }.

    Lemma sound_start : sound (Lpr [] [] false (tr_busted t0) (tr_at_saddle t0) (tr_at_summit t0)).
    Proof.
      split; cbn; try done; try (by intros; left); try (by intros; exfalso; eapply not_elem_of_nil).
    Qed.
    Lemma sound_bust t : sound t -> sound (lp_bust m w master t).
    Proof.
      intros [? ? ? ? ? ? ? ? H]. unfold lp_bust. destruct (existsb _ _); [by split|]. split; cbn; try done.
      intros a. rewrite elem_of_app, elem_of_list_singleton. intros [Ha| ->]; [by apply H|by right].
    Qed.
    Lemma sound_mark t k : sound t -> k ∉ lp_exempt t -> reach_within w max_depth master k -> sound (lp_mark k t).
    Proof.
      intros [H1 H2 ? ? ? ? ? ? ?] Hk Hr. split; cbn; try done.
      - apply NoDup_app. split; [done|]. split; [|apply NoDup_singleton]. intros x Hx. rewrite elem_of_list_singleton. by intros ->.
      - intros x. rewrite elem_of_app, elem_of_list_singleton. intros [?| ->]; [by apply H2|done].
    Qed.
    Lemma sound_report t q s e : sound t -> ended q s -> (length q < 2 * max_depth)%nat ->
      (e = true -> ends_at w (border_at w) master q s) -> (live_saddle w s true -> e = true) -> sound (lp_report q s e t).
    Proof.
      intros [H1 H2 H3 H4 H5 H6 H7 H8 H9] Hq Hl He He2. split; cbn; try done.
      - intros q' s'. rewrite elem_of_app, elem_of_list_singleton. intros [?|[= -> ->]]; [by apply H3|done].
      - intros E. apply orb_true_iff in E as [E|E].
        + exists q, s. split; [apply elem_of_app; right; by left|by apply He].
        + destruct (H4 E) as (q' & s' & Hin & Hx). exists q', s'. split; [apply elem_of_app; by left|done].
      - intros q' s'. rewrite elem_of_app, elem_of_list_singleton. intros [Hin|[= -> ->]] Hlive; apply orb_true_iff.
        + right. by eapply H5.
        + left. by apply He2.
      - intros s' Hs. destruct (H6 s' Hs) as [?|(q' & Hin & Hx)]; [by left|]. right. exists q'. split; [apply elem_of_app; by left|done].
      - intros a s' Hs. destruct (H8 a s' Hs) as [?|(-> & q' & Hin & Hx)]; [by left|]. right. split; [done|]. exists q'.
        split; [apply elem_of_app; by left|done].
    Qed.
    Lemma sound_boundary t q s : sound t -> (q, s) ∈ lp_paths t -> ends_at w (divide_at w) master q s -> sound (lp_boundary m w master s t).
    Proof.
      intros [H1 H2 H3 H4 H5 H6 H7 H8 H9] Hin Hq. split; cbn; try done.
      - intros s'. destruct (existsb _ _); [apply H6|]. rewrite Nat.eqb_refl, elem_of_app, elem_of_list_singleton.
        intros [?| ->]; [by apply H6|]. right. by exists q.
      - intros a Ha. destruct (existsb _ _); [by apply H7|]. apply Nat.eqb_neq in Ha. rewrite Ha. by apply H7, Nat.eqb_neq.
      - intros a s'. destruct (existsb _ _); [apply H8|]. destruct (Nat.eqb_spec s' s) as [->|Hne]; [|apply H8].
        rewrite elem_of_app, elem_of_list_singleton. intros [?| ->]; [by apply H8|]. right. split; [done|]. by exists q.
    Qed.

    Lemma chaser_sound room : forall branch path t, (room <= max_depth)%nat -> length path = (2 * (max_depth - room))%nat ->
      leads w master path branch -> sound t -> sound (branch_chaser m w room master branch path t).
    Proof using Hown.
      induction room as [|room IH]; intros branch path t Hr Hlen Hlead Ht; cbn [branch_chaser]; [by apply sound_bust|].
      destruct (w_summits w !! branch) as [b|] eqn:Eb; [|done].
      apply foldl_inv; [|done]. clear t Ht. intros t k Hk Ht. unfold link_step.
      destruct (proj1 Hown _ _ _ Eb Hk) as (l & El & Hsu). rewrite El. destruct (ln_disq l) eqn:Ed; [done|].
      destruct (decide _) as [|Hne]; [done|].
      assert (at_summit w branch k) as Hat by (by exists b). assert (joins w k branch (ln_saddle l)) as Hj by (by exists l).
      assert (sound (lp_mark k t)) as Hm by (apply sound_mark; [done|done|]; exists path, branch, (ln_saddle l); repeat split; [lia|done|done|done]).
      assert ((length (path ++ [k]) < 2 * max_depth)%nat) as Hlk by (rewrite app_length; cbn [length]; lia).
      destruct (w_saddles w !! ln_saddle l) as [sa|] eqn:Es; [|done].
      destruct (disqualified sa) eqn:Edq; [done|]. destruct (ft_edge (sa_feat sa)) eqn:Ee.
      { assert (live_saddle w (ln_saddle l) true) as Hlive by (by exists sa).
        apply sound_report; [done| |done| |done].
        - exists path, branch, k. repeat split; try done. left. by left.
        - intros _. exists path, branch, k. repeat split; try done. by left. }
      assert (live_saddle w (ln_saddle l) false) as Hlive by (by exists sa).
      assert (~ live_saddle w (ln_saddle l) true) as Hnl by (intros (sa' & E & _ & E'); congruence).
      apply foldl_inv; [|done]. clear t Ht Hne Hm. intros t j Hin Ht. unfold next_step.
      apply (others_spec k l j El) in Hin as (Hjs & Hjk & n & En & Hns & Hnd). rewrite En.
      destruct (decide _) as [|Hne]; [done|]. rewrite Ed.
      assert (joins w j (ln_summit n) (ln_saddle l)) as Hjn by (by exists n).
      destruct (w_summits w !! ln_summit n) as [su|] eqn:Esu; [|done].
      destruct (ft_ele (su_feat su) <=? ft_ele (su_feat b)) eqn:Ele; cbn [andb].
      - assert (not_higher w (ln_summit n) branch) as Hnh.
        { exists (ft_ele (su_feat su)), (ft_ele (su_feat b)). split; [by exists su|]. split; [by exists b|lia]. }
        destruct (ft_edge (su_feat su)) eqn:Eedge.
        + assert (border_at w branch k (ln_saddle l)) as Hb.
          { right. split; [done|]. exists j, (ln_summit n). repeat split; try done. by exists su. }
          apply sound_report; [done| |done| |done].
          * exists path, branch, k. repeat split; try done. by left.
          * intros _. by exists path, branch, k.
        + apply IH; [lia| | |done].
          * rewrite app_length. cbn [length]. lia.
          * eapply leads_step; [done|]. repeat split; try done. by exists su.
      - assert (divide_at w branch k (ln_saddle l)) as Hb.
        { split; [done|]. exists j, (ln_summit n). repeat split; try done.
          exists (ft_ele (su_feat su)), (ft_ele (su_feat b)). split; [by exists su|]. split; [by exists b|lia]. }
        apply (sound_boundary _ (path ++ [k])).
        + apply sound_report; [done| |done|done|done]. exists path, branch, k. repeat split; try done. by right.
        + cbn. apply elem_of_app. right. by left.
        + by exists path, branch, k.
    Qed.
    Lemma region_sound : sound (local_prominent_region m w master t0).
    Proof using Hown.
      unfold local_prominent_region. apply chaser_sound; [lia|cbn [length]; lia|constructor|apply sound_start].
    Qed.
  End sound.

  (** ** Completeness *)

  Definition grows (t t' : lpr) : Prop := (forall k, k ∈ lp_exempt t -> k ∈ lp_exempt t') /\ (lp_busted t' = [] -> lp_busted t = []).
  Lemma grows_refl t : grows t t. Proof. by split. Qed.
  Lemma grows_trans t1 t2 t3 : grows t1 t2 -> grows t2 t3 -> grows t1 t3.
  Proof. intros [H1 H2] [H3 H4]. split; [auto|]. intros E. auto. Qed.

  (** All links of summit [a] that are not disqualified are exempt. *)
  Definition done_summit (t : lpr) (a : nat) : Prop := forall k s, at_summit w a k -> joins w k a s -> k ∈ lp_exempt t.
  (** One may step from link [k] down by link [j] to summit [c]. *)
  Definition step (k j c : nat) : Prop := exists a s, hop w a k s j c.
  (** What a call achieves for the links [k] that it adds, if the depth limit is
      not hit. *)
  Record achieves (t t' : lpr) (P : nat -> Prop) : Prop := {
    ac_own : forall k a s, k ∈ lp_exempt t' -> k ∉ lp_exempt t -> joins w k a s -> P a \/ done_summit t' a;
    ac_next : forall k j c, k ∈ lp_exempt t' -> k ∉ lp_exempt t -> step k j c -> j ∈ lp_exempt t \/ P c \/ done_summit t' c }.

  Lemma done_grows t t' a : grows t t' -> done_summit t a -> done_summit t' a.
  Proof. intros [H _] Hd k s H1 H2. apply H. by eapply Hd. Qed.
  Lemma joins_det k a s a' s' : joins w k a s -> joins w k a' s' -> a = a' /\ s = s'.
  Proof. intros (l & E & <- & <- & _) (l' & E' & <- & <- & _). by simplify_eq. Qed.

  Lemma achieves_refl t P : achieves t t P.
  Proof. by split. Qed.
  Lemma achieves_trans t1 t2 t3 P : grows t1 t2 -> grows t2 t3 -> achieves t1 t2 P -> achieves t2 t3 P -> achieves t1 t3 P.
  Proof.
    intros G1 G2 [A1 A2] [B1 B2]. split.
    - intros k a s H3 H1 Hj. destruct (decide (k ∈ lp_exempt t2)) as [H2|H2]; [|by eapply B1].
      destruct (A1 k a s H2 H1 Hj) as [?|?]; [by left|]. right. by eapply done_grows.
    - intros k j c H3 H1 Hs. destruct (decide (k ∈ lp_exempt t2)) as [H2|H2].
      + destruct (A2 k j c H2 H1 Hs) as [?|[?|?]]; [by left|by right; left|]. right; right. by eapply done_grows.
      + destruct (B2 k j c H3 H2 Hs) as [Hj|[?|?]]; [|by right; left|by right; right].
        destruct (decide (j ∈ lp_exempt t1)) as [?|Hj1]; [by left|]. right.
        destruct Hs as (a & s & (_ & _ & _ & _ & _ & Hjc & _)).
        destruct (A1 j c s Hj Hj1 Hjc) as [?|?]; [by left|]. right. by eapply done_grows.
  Qed.
  Lemma achieves_mono t t' (P Q : nat -> Prop) : (forall a, P a -> Q a) -> achieves t t' P -> achieves t t' Q.
  Proof.
    intros HPQ [A B]. split.
    - intros k a s H1 H2 H3. destruct (A k a s H1 H2 H3); [left; auto|by right].
    - intros k j c H1 H2 H3. destruct (B k j c H1 H2 H3) as [?|[?|?]]; [by left|right; left; auto|by right; right].
  Qed.
  (** States that differ in nothing but reports. *)
  Lemma grows_report q s e t : grows t (lp_report q s e t). Proof. by split. Qed.
  Lemma grows_boundary a s t : grows t (lp_boundary m w a s t). Proof. by split. Qed.
  Lemma achieves_same t t' P : lp_exempt t' = lp_exempt t -> achieves t t' P.
  Proof. intros E. split; intros; rewrite E in *; done. Qed.

  Lemma chaser_complete master room : forall branch path t, let t' := branch_chaser m w room master branch path t in
    grows t t' /\ (lp_busted t' = [] -> done_summit t' branch /\ achieves t t' (fun _ => False)).
  Proof using Hown.
    induction room as [|room IH]; intros branch path t; cbn [branch_chaser].
    { unfold lp_bust. destruct (existsb _ _) eqn:Ex.
      - split; [apply grows_refl|]. intros E. rewrite E in Ex. done.
      - split; [split; [done|]|]; cbn; intros E; by destruct (lp_busted t). }
    destruct (w_summits w !! branch) as [b|] eqn:Eb.
    2: { split; [apply grows_refl|]. intros _. split; [|apply achieves_refl]. intros k s (su & E & _). congruence. }
    set (f := link_step _ _ _ _ _ _).
    (* the loop over the links of the branch *)
    assert ((fun pre t' => grows t t' /\ (lp_busted t' = [] ->
      (forall k s, k ∈ pre -> joins w k branch s -> k ∈ lp_exempt t') /\ achieves t t' (fun a => a = branch))) (su_links b) (foldl f t (su_links b))) as H.
    { apply foldl_prefix.
      { split; [apply grows_refl|]. intros _. split; [|apply achieves_refl]. intros k s Hk. by apply elem_of_nil in Hk. }
      intros pre k t1 Hk [G1 A1].
      assert (grows t1 (f t1 k) /\ (lp_busted (f t1 k) = [] -> (forall s, joins w k branch s -> k ∈ lp_exempt (f t1 k)) /\
        achieves t1 (f t1 k) (fun a => a = branch))) as [G2 A2].
      2: { split; [by eapply grows_trans|]. intros E. destruct (A2 E) as [A3 A4]. destruct (A1 (proj2 G2 E)) as [A5 A6]. split.
           - intros k' s. rewrite elem_of_app, elem_of_list_singleton. intros [Hin| ->] Hj; [|by eapply A3]. apply (proj1 G2). by eapply A5.
           - by eapply achieves_trans. }
      clear pre G1 A1 t. rename t1 into t. unfold f, link_step.
      destruct (proj1 Hown _ _ _ Eb Hk) as (l & El & Hsu). rewrite El. destruct (ln_disq l) eqn:Ed.
      { split; [apply grows_refl|]. intros _. split; [|apply achieves_refl]. intros s (l' & E & _ & _ & Hd). congruence. }
      destruct (decide _) as [Hex|Hne].
      { split; [apply grows_refl|]. intros _. split; [done|apply achieves_refl]. }
      assert (joins w k branch (ln_saddle l)) as Hj by (by exists l).
      assert (grows t (lp_mark k t)) as Gm by (split; [intros x Hx; cbn; apply elem_of_app; by left|done]).
      assert (k ∈ lp_exempt (lp_mark k t)) as Hkm by (cbn; apply elem_of_app; right; by left).
      assert (forall t', grows (lp_mark k t) t' -> (forall x, x ∈ lp_exempt t' -> x ∉ lp_exempt (lp_mark k t) -> False) ->
        (forall j c, ~ step k j c) ->
        grows t t' /\ (lp_busted t' = [] -> (forall s, joins w k branch s -> k ∈ lp_exempt t') /\ achieves t t' (fun a => a = branch))) as Hleaf.
      { intros t' G Hno Hns. split; [by eapply grows_trans|]. intros _. split; [intros; by apply (proj1 G)|].
        assert (forall x, x ∈ lp_exempt t' -> x ∉ lp_exempt t -> x = k) as Hx.
        { intros x H1 H2. destruct (decide (x ∈ lp_exempt (lp_mark k t))) as [H3|H3]; [|by destruct (Hno x H1 H3)].
          cbn in H3. apply elem_of_app in H3 as [?|H3]; [done|]. by apply elem_of_list_singleton in H3. }
        split.
        - intros x a s H1 H2 Hxa. rewrite (Hx x H1 H2) in *. left. by destruct (joins_det _ _ _ _ _ Hxa Hj).
        - intros x j c H1 H2 Hst. rewrite (Hx x H1 H2) in *. by destruct (Hns j c). }
      destruct (w_saddles w !! ln_saddle l) as [sa|] eqn:Es.
      2: { apply Hleaf; [apply grows_refl|done|]. intros j c (a & s & (_ & Hj' & (sa' & E & _) & _)).
           destruct (joins_det _ _ _ _ _ Hj Hj') as [_ <-]. congruence. }
      destruct (disqualified sa) eqn:Edq.
      { apply Hleaf; [apply grows_refl|done|]. intros j c (a & s & (_ & Hj' & (sa' & E & E2 & _) & _)).
        destruct (joins_det _ _ _ _ _ Hj Hj') as [_ <-]. congruence. }
      destruct (ft_edge (sa_feat sa)) eqn:Ee.
      { apply Hleaf; [by split|done|]. intros j c (a & s & (_ & Hj' & (sa' & E & E2 & E3) & _)).
        destruct (joins_det _ _ _ _ _ Hj Hj') as [_ <-]. congruence. }
      clear Hleaf.
      (* the loop over the other links of the saddle *)
      set (tm := lp_mark k t) in *. set (js := linkers_to_summits_connected_via_saddle w true true k).
      set (g := next_step _ _ _ _ _ _ _ _).
      assert ((fun pre t' => grows tm t' /\ (lp_busted t' = [] -> achieves tm t' (fun a => a = branch) /\
        forall j c, j ∈ pre -> step k j c -> j ∈ lp_exempt t \/ c = branch \/ done_summit t' c)) js (foldl g tm js)) as H.
      { apply foldl_prefix.
        { split; [apply grows_refl|]. intros _. split; [apply achieves_refl|]. intros j c Hin. by apply elem_of_nil in Hin. }
        intros pre j t1 Hin [G1 A1].
        assert (grows t1 (g t1 j) /\ (lp_busted (g t1 j) = [] -> achieves t1 (g t1 j) (fun a => a = branch) /\
          forall c, step k j c -> j ∈ lp_exempt t1 \/ done_summit (g t1 j) c)) as [G2 A2].
        2: { split; [by eapply grows_trans|]. intros E. destruct (A2 E) as [A3 A4]. destruct (A1 (proj2 G2 E)) as [A5 A6].
             split; [by eapply achieves_trans|]. intros j' c. rewrite elem_of_app, elem_of_list_singleton. intros [Hin'| ->] Hst.
             - destruct (A6 j' c Hin' Hst) as [?|[?|?]]; [by left|by right; left|]. right; right. by eapply done_grows.
             - destruct (A4 c Hst) as [Hj1|?]; [|by right; right]. destruct Hst as (a & s & (Hak & Hjk' & _ & _ & Hne' & Hjc & _)).
               destruct (decide (j ∈ lp_exempt tm)) as [Hjm|Hjm].
               + cbn in Hjm. apply elem_of_app in Hjm as [?|Hjm]; [by left|]. apply elem_of_list_singleton in Hjm. done.
               + destruct (ac_own _ _ _ A5 j c s Hj1 Hjm Hjc) as [?|?]; [by right; left|]. right; right. by eapply done_grows. }
        clear pre G1 A1. unfold g, next_step. apply (others_spec k l j El) in Hin as (Hjs & Hjk & n & En & Hns & Hnd). rewrite En.
        destruct (decide _) as [Hex|Hnex].
        { split; [apply grows_refl|]. intros _. split; [apply achieves_refl|]. by left. }
        rewrite Ed. assert (forall c, step k j c -> c = ln_summit n) as Hc.
        { intros c (a & s & (_ & _ & _ & _ & _ & (n' & E & E2 & _) & _)). congruence. }
        assert (forall t2, lp_exempt t2 = lp_exempt t1 -> lp_busted t2 = lp_busted t1 -> (forall c, ~ step k j c) ->
          grows t1 t2 /\ (lp_busted t2 = [] -> achieves t1 t2 (fun a => a = branch) /\
          forall c, step k j c -> j ∈ lp_exempt t1 \/ done_summit t2 c)) as Hleaf.
        { intros t2 E1 E2 Hns'. split; [split; [by rewrite E1|by intros E; rewrite <-E2]|]. intros _. split; [by apply achieves_same|].
          intros c Hst. by destruct (Hns' c). }
        destruct (w_summits w !! ln_summit n) as [su|] eqn:Esu.
        2: { apply Hleaf; [done|done|]. intros c Hst. pose proof (Hc c Hst) as ->. destruct Hst as (a & s & (_ & _ & _ & _ & _ & _ & (su & E & _) & _)).
             congruence. }
        destruct (ft_ele (su_feat su) <=? ft_ele (su_feat b)) eqn:Ele; cbn [andb].
        - destruct (ft_edge (su_feat su)) eqn:Eedge.
          + apply Hleaf; [done|done|]. intros c Hst. pose proof (Hc c Hst) as ->. destruct Hst as (a & s & (_ & _ & _ & _ & _ & _ & (su' & E & E2) & _)).
            congruence.
          + destruct (IH (ln_summit n) (path ++ [k; j]) t1) as [G A]. split; [done|]. intros E. destruct (A E) as [A3 A4]. split.
            * eapply achieves_mono; [|done]. by intros.
            * intros c Hst. pose proof (Hc c Hst) as ->. by right.
        - apply Hleaf; [done|done|]. intros c Hst. pose proof (Hc c Hst) as ->.
          destruct Hst as (a & s & (_ & Hjk' & _ & _ & _ & _ & _ & (x & y & (su1 & E1 & E2) & (su2 & E3 & E4) & Hle))).
          destruct (joins_det _ _ _ _ _ Hj Hjk') as [<- _]. simplify_eq. lia. }
      cbn beta in H. destruct H as [G A]. split; [by eapply grows_trans|]. intros E. destruct (A E) as [A1 A2].
      split; [intros; by apply (proj1 G)|]. destruct A1 as [B1 B2].
      assert (forall x, x ∉ lp_exempt t -> x ∈ lp_exempt tm -> x = k) as Hx.
      { intros x H2 H3. cbn in H3. apply elem_of_app in H3 as [?|H3]; [done|]. by apply elem_of_list_singleton in H3. }
      split.
      - intros x a s H1 H2 Hxa. destruct (decide (x ∈ lp_exempt tm)) as [H3|H3]; [|by eapply B1].
        rewrite (Hx x H2 H3) in *. left. by destruct (joins_det _ _ _ _ _ Hxa Hj).
      - intros x j c H1 H2 Hst. destruct (decide (x ∈ lp_exempt tm)) as [H3|H3].
        + rewrite (Hx x H2 H3) in *. eapply A2; [|done]. apply (others_spec k l j El).
          destruct Hst as (a & s & (_ & Hj' & _ & Hjs & Hne' & (n & En & _ & Ens & Hnd) & _)).
          destruct (joins_det _ _ _ _ _ Hj Hj') as [_ <-]. split; [done|]. split; [done|]. by exists n.
        + destruct (B2 x j c H1 H3 Hst) as [Hjm|?]; [|by right]. destruct (decide (j ∈ lp_exempt t)) as [?|Hj1]; [by left|].
          pose proof (Hx j Hj1 Hjm) as ->. right. left. destruct Hst as (a & s & (_ & _ & _ & _ & _ & Hjc & _)).
          by destruct (joins_det _ _ _ _ _ Hjc Hj). }
    cbn beta in H. destruct H as [G A]. split; [done|]. intros E. destruct (A E) as [A1 [A2 A3]].
    assert (done_summit (foldl f t (su_links b)) branch) as Hdone.
    { intros k s (su & E1 & Hk) Hj. simplify_eq. by eapply A1. }
    split; [done|]. split.
    - intros k a s H1 H2 H3. right. destruct (A2 k a s H1 H2 H3) as [->|?]; done.
    - intros k j c H1 H2 H3. destruct (A3 k j c H1 H2 H3) as [?|[->|?]]; [by left|by right; right|by right; right].
  Qed.

  Lemma region_complete master t0 : lp_busted (local_prominent_region m w master t0) = [] ->
    forall k, reach w master k -> k ∈ lp_exempt (local_prominent_region m w master t0).
  Proof using Hown.
    unfold local_prominent_region. intros E. destruct (chaser_complete master max_depth master [] (Lpr [] [] false (tr_busted t0) (tr_at_saddle t0) (tr_at_summit t0))) as [_ H].
    destruct (H E) as [Hd [A B]]. set (t' := branch_chaser _ _ _ _ _ _ _) in *.
    assert (forall p b, leads w master p b -> done_summit t' b) as Hall.
    { induction 1 as [|p b k s j c Hl IH Hh]; [done|]. destruct Hh as (H1 & H2 & H3) eqn:Eh. clear Eh.
      destruct (B k j c) as [Hx|[[]|?]].
      - by eapply IH.
      - apply not_elem_of_nil.
      - by exists b, s.
      - by apply elem_of_nil in Hx.
      - done. }
    intros k (p & b & s & Hl & Hat & Hj). by eapply Hall.
  Qed.
End divide.

(** ** The whole run *)

Section run.
  Variable m : datamap.
  Variable w : world.
  Hypothesis Hown : own_links w.

  Lemma first_highest_spec summits h : first_highest w summits = Ok h ->
    exists l1 l2, summits = l1 ++ h :: l2 /\ Forall (fun a => summit_ele w a < summit_ele w h) l1 /\
      Forall (fun a => summit_ele w a <= summit_ele w h) l2.
  Proof.
    destruct summits as [|a l]; [done|]. cbn. intros [= <-].
    apply (foldl_prefix (fun pre h => exists l1 l2, a :: pre = l1 ++ h :: l2 /\ Forall (fun a => summit_ele w a < summit_ele w h) l1 /\
      Forall (fun a => summit_ele w a <= summit_ele w h) l2)).
    - exists [], []. by repeat split.
    - intros pre x h _ (l1 & l2 & E & H1 & H2). destruct (summit_ele w h <? summit_ele w x) eqn:El.
      + exists (a :: pre), []. split; [done|]. split; [|done]. rewrite E. apply Forall_app. split.
        * eapply Forall_impl; [exact H1|]. cbn. lia.
        * constructor; [lia|]. eapply Forall_impl; [exact H2|]. cbn. lia.
      + exists l1, (l2 ++ [x]). split; [by rewrite app_comm_cons, E, <-app_assoc|]. split; [done|]. apply Forall_app. split; [done|].
        constructor; [lia|done].
  Qed.
  Lemma run_tree_spec summits t : match run_tree m w summits t with
    | Err e => summits = [] /\ e = IndexError
    | Ok (h, out, t') => first_highest w summits = Ok h /\ map fst out = summits /\
        forall a p, (a, p) ∈ out -> exists t0, p = local_prominent_region m w a t0 /\ (tr_busted t' = [] -> lp_busted p = [])
    end.
  Proof using Hown.
    unfold run_tree. destruct (first_highest w summits) as [h|e] eqn:E.
    2: { destruct summits; [|done]. cbn in E. cbn. by injection E as <-. }
    cbn [rbind]. set (f := fun (acc : list (nat * lpr) * tree) a => _). 
    assert ((fun pre acc => map fst acc.1 = pre /\ forall a p, (a, p) ∈ acc.1 ->
      exists t0, p = local_prominent_region m w a t0 /\ (tr_busted acc.2 = [] -> lp_busted p = [])) summits (foldl f ([], t) summits)) as H.
    { apply foldl_prefix.
      - split; [done|]. intros a p Hin. by apply elem_of_nil in Hin.
      - intros pre x [out t1] _ [H1 H2]. cbn in *. split; [by rewrite map_app, H1|]. intros a p.
        rewrite elem_of_app, elem_of_list_singleton. intros [Hin|[= -> ->]].
        + destruct (H2 a p Hin) as (t0 & -> & Hb). exists t0. split; [done|]. intros Eb. apply Hb.
          destruct (chaser_complete m w Hown x max_depth x [] (Lpr [] [] false (tr_busted t1) (tr_at_saddle t1) (tr_at_summit t1))) as [[_ G] _].
          by apply G.
        + by exists t1. }
    destruct (foldl f ([], t) summits) as [out t']. cbn in H. destruct H as [H1 H2]. by split; [|split].
  Qed.
End run.
