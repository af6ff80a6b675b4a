(** Basin saddle detection depends on the order of the elevations only. *)
From Verif Require Import Base_model Graph_model Basin_model Basin_spec Heights_spec Relief_proof.
From Coq Require Import ZifyBool.
Local Open Scope Z_scope.

Section heights.
  Context (m m' : datamap) (Hgt : dm_gt m = dm_gt m').
  Local Notation sh := same_heights.

  Lemma ele_node w n : node_ele w n = ele_at w n.
  Proof. destruct n as [i|a]; unfold node_ele; cbn; [by destruct (w_saddles w !! i)|by destruct (w_summits w !! a)]. Qed.
  Lemma sad w1 w2 i : sh w1 w2 ->
    (w_saddles w1 !! i = None /\ w_saddles w2 !! i = None) \/
    exists s s', w_saddles w1 !! i = Some s /\ w_saddles w2 !! i = Some s' /\ like_saddle s s'.
  Proof.
    intros H.
    destruct (w_saddles w1 !! i) as [s|] eqn:E.
    - destruct (Forall2_lookup_l _ _ _ _ _ (sh_saddles _ _ H) E) as (s' & E' & Hl). right. by exists s, s'.
    - left. split; [done|]. apply lookup_ge_None in E. apply lookup_ge_None.
      by rewrite <-(Forall2_length _ _ _ (sh_saddles _ _ H)).
  Qed.
  Lemma sum w1 w2 i : sh w1 w2 ->
    (w_summits w1 !! i = None /\ w_summits w2 !! i = None) \/
    exists s s', w_summits w1 !! i = Some s /\ w_summits w2 !! i = Some s' /\ like_summit s s'.
  Proof.
    intros H.
    destruct (w_summits w1 !! i) as [s|] eqn:E.
    - destruct (Forall2_lookup_l _ _ _ _ _ (sh_summits _ _ H) E) as (s' & E' & Hl). right. by exists s, s'.
    - left. split; [done|]. apply lookup_ge_None in E. apply lookup_ge_None.
      by rewrite <-(Forall2_length _ _ _ (sh_summits _ _ H)).
  Qed.
  Lemma there_sad w i s : w_saddles w !! i = Some s -> there w (Sad i).
  Proof. apply lookup_lt_Some. Qed.
  Lemma there_sum w i s : w_summits w !! i = Some s -> there w (Sum i).
  Proof. apply lookup_lt_Some. Qed.

  Lemma lt_ w1 w2 a b : sh w1 w2 -> there w1 a -> there w1 b -> (node_ele w1 a <? node_ele w1 b) = (node_ele w2 a <? node_ele w2 b).
  Proof. intros H Ha Hb. rewrite !ele_node. pose proof (sh_less _ _ H a b Ha Hb). lia. Qed.
  Lemma le_ w1 w2 a b : sh w1 w2 -> there w1 a -> there w1 b -> (node_ele w1 a <=? node_ele w1 b) = (node_ele w2 a <=? node_ele w2 b).
  Proof. intros H Ha Hb. rewrite !ele_node. pose proof (sh_less _ _ H b a Hb Ha). lia. Qed.
  Lemma eq_ w1 w2 a b : sh w1 w2 -> there w1 a -> there w1 b -> (node_ele w1 a =? node_ele w1 b) = (node_ele w2 a =? node_ele w2 b).
  Proof.
    intros H Ha Hb. rewrite !ele_node. pose proof (sh_less _ _ H b a Hb Ha). pose proof (sh_less _ _ H a b Ha Hb). lia.
  Qed.

  Lemma same_spots f g f' g' : ft_pos f = ft_pos f' -> ft_pos g = ft_pos g' ->
    (ft_ele f =? ft_ele g) = (ft_ele f' =? ft_ele g') ->
    spot_eq (ft_spot m f) (ft_spot m g) = spot_eq (ft_spot m' f') (ft_spot m' g').
  Proof. intros Hf Hg He. unfold spot_eq, ft_spot, ft_latlon, xy_to_latlon. cbn [sp_lat sp_lon sp_ele]. by rewrite Hf, Hg, He, Hgt. Qed.

  Lemma node_feats w1 w2 n : sh w1 w2 ->
    (node_feat w1 n = None /\ node_feat w2 n = None) \/
    exists f f', node_feat w1 n = Some f /\ node_feat w2 n = Some f' /\ ft_pos f = ft_pos f' /\ there w1 n.
  Proof.
    intros H. destruct n as [i|a]; cbn [node_feat].
    - destruct (sad _ _ i H) as [[-> ->]|(s & s' & E & -> & L)]; [by left|]. right. rewrite E. eexists _, _.
      split; [done|]. split; [done|]. split; [by destruct L|by eapply there_sad].
    - destruct (sum _ _ a H) as [[-> ->]|(s & s' & E & -> & L)]; [by left|]. right. rewrite E. eexists _, _.
      split; [done|]. split; [done|]. split; [by destruct L|by eapply there_sum].
  Qed.
  Lemma feats_eq w1 w2 a b : sh w1 w2 -> node_same m w1 a b = node_same m' w2 a b.
  Proof.
    intros H. unfold node_same.
    destruct (node_feats _ _ a H) as [[-> ->]|(f & f' & Ef & Ef' & Pf & Ta)]; [done|].
    destruct (node_feats _ _ b H) as [[-> ->]|(g & g' & Eg & Eg' & Pg & Tb)]; [by rewrite Ef, Ef'|].
    pose proof (eq_ _ _ a b H Ta Tb) as E. unfold node_ele in E. rewrite Ef, Ef', Eg, Eg' in *. by apply same_spots.
  Qed.
  Lemma saddles_eq w1 w2 i j : sh w1 w2 -> saddle_same m w1 i j = saddle_same m' w2 i j.
  Proof.
    intros H. pose proof (feats_eq _ _ (Sad i) (Sad j) H) as E. unfold saddle_same, saddle_spot, node_same in *.
    cbn [node_feat] in E. by destruct (w_saddles w1 !! i), (w_saddles w1 !! j), (w_saddles w2 !! i), (w_saddles w2 !! j);
      cbn in *; rewrite ?E, <-?E.
  Qed.
  Lemma summits_eq w1 w2 i j : sh w1 w2 -> summit_same m w1 i j = summit_same m' w2 i j.
  Proof.
    intros H. pose proof (feats_eq _ _ (Sum i) (Sum j) H) as E. unfold summit_same, summit_spot, node_same in *.
    cbn [node_feat] in E. by destruct (w_summits w1 !! i), (w_summits w1 !! j), (w_summits w2 !! i), (w_summits w2 !! j);
      cbn in *; rewrite ?E, <-?E.
  Qed.
  Lemma like_disq s s' : like_saddle s s' -> disqualified s = disqualified s'.
  Proof. intros (_ & _ & _ & _ & _ & E1 & E2 & _ & E3). unfold disqualified. by rewrite E1, E2, E3. Qed.
  Lemma deads w1 w2 n : sh w1 w2 -> dead w1 n = dead w2 n.
  Proof.
    intros H. destruct n as [i|a]; cbn [dead].
    - destruct (sad _ _ i H) as [[-> ->]|(s & s' & -> & -> & L)]; [done|]. rewrite (like_disq _ _ L). f_equal. apply L.
    - destruct (sum _ _ a H) as [[-> ->]|(s & s' & -> & -> & L)]; [done|]. apply L.
  Qed.
  Lemma dead_there w n : dead w n = false -> there w n.
  Proof.
    destruct n as [i|a]; cbn [dead].
    - destruct (w_saddles w !! i) eqn:E; [|done]. intros _. by eapply there_sad.
    - destruct (w_summits w !! a) eqn:E; [|done]. intros _. by eapply there_sum.
  Qed.
  Lemma nbrs w1 w2 n : sh w1 w2 -> feature_neighbors w1 n = feature_neighbors w2 n.
  Proof.
    intros H. destruct n as [i|a]; cbn [feature_neighbors]; rewrite (sh_links _ _ H).
    - destruct (sad _ _ i H) as [[-> ->]|(s & s' & -> & -> & L)]; [done|]. destruct L as (_ & _ & -> & _). done.
    - destruct (sum _ _ a H) as [[-> ->]|(s & s' & -> & -> & L)]; [done|]. destruct L as (_ & _ & ->). done.
  Qed.

  (** *** Updates *)
  Definition keeps (w w' : world) : Prop := forall n, there w n -> there w' n.
  Lemma ele_alter w i f n : (forall s, sa_feat (f s) = sa_feat s) -> ele_at (upd_saddle i f w) n = ele_at w n.
  Proof.
    intros Hf. destruct n as [j|a]; cbn; [|done]. destruct (decide (i = j)) as [<-|Ne].
    - rewrite list_lookup_alter. destruct (w_saddles w !! i); cbn; [by rewrite Hf|done].
    - by rewrite list_lookup_alter_ne.
  Qed.
  Lemma upd_there w i f n : there (upd_saddle i f w) n <-> there w n.
  Proof. destruct n; cbn; [by rewrite alter_length|done]. Qed.
  Lemma upd w1 w2 i f f' : sh w1 w2 -> (forall s, sa_feat (f s) = sa_feat s) -> (forall s, sa_feat (f' s) = sa_feat s) ->
    (forall s s', like_saddle s s' -> like_saddle (f s) (f' s')) -> sh (upd_saddle i f w1) (upd_saddle i f' w2).
  Proof.
    intros H Hf Hf' Hl. split.
    - cbn. apply Forall2_alter; [apply H|]. intros. by apply Hl.
    - apply H.
    - apply H.
    - intros a b Ta Tb. rewrite upd_there in Ta, Tb. rewrite !ele_alter by done. by apply H.
  Qed.
  Lemma upd_l w1 w2 k f : sh w1 w2 -> sh (upd_link k f w1) (upd_link k f w2).
  Proof. intros H. split; cbn; [apply H..| |apply H]. by rewrite (sh_links _ _ H). Qed.
  Lemma upd_ls w1 w2 f l : sh w1 w2 -> sh (foldl (fun w k => upd_link k f w) w1 l) (foldl (fun w k => upd_link k f w) w2 l).
  Proof. revert w1 w2. induction l as [|k l IH]; intros w1 w2 H; [done|]. cbn. by apply IH, upd_l. Qed.
  Lemma ls_there w f l n : there (foldl (fun w k => upd_link k f w) w l) n <-> there w n.
  Proof. revert w. induction l as [|k l IH]; intros w; [done|]. cbn [foldl]. rewrite IH. by destruct n. Qed.

  Lemma disq w1 w2 b s i : sh w1 w2 -> sh (disqualify_self_and_linkers b s i w1) (disqualify_self_and_linkers b s i w2).
  Proof.
    intros H. unfold disqualify_self_and_linkers. cbv zeta.
    match goal with |- sh (match w_saddles ?x !! i with _ => _ end) (match w_saddles ?y !! i with _ => _ end) =>
      assert (sh x y) as H' end.
    { assert (sh (if b then upd_saddle i (set_basin true) w1 else w1) (if b then upd_saddle i (set_basin true) w2 else w2)) as H1.
      { destruct b; [|done]. apply upd; [done..|]. intros ? ? L. unfold like_saddle in *. cbn. tauto. }
      assert (forall x y, sh x y -> sh (if s then upd_saddle i (set_single true) x else x) (if s then upd_saddle i (set_single true) y else y)) as H2.
      { intros x y Hxy. destruct s; [|done]. apply upd; [done..|]. intros ? ? L. unfold like_saddle in *. cbn. tauto. }
      destruct (b || s); [by apply H2|]. apply upd; [by apply H2|done..|]. intros ? ? L. unfold like_saddle in *. cbn. tauto. }
    destruct (sad _ _ i H') as [[-> ->]|(x & y & -> & -> & L)]; [done|].
    destruct L as (_ & _ & -> & _). by apply upd_ls.
  Qed.
  Lemma disq_there w b s i n : there (disqualify_self_and_linkers b s i w) n <-> there w n.
  Proof.
    unfold disqualify_self_and_linkers. cbv zeta.
    match goal with |- there (match w_saddles ?x !! i with _ => _ end) n <-> _ =>
      assert (there x n <-> there w n) as E end.
    { destruct b, s; cbn [orb]; by rewrite ?upd_there. }
    destruct (_ !! i); [|done]. by rewrite ls_there.
  Qed.

  (** *** The stub phase *)
  Lemma uniq w1 w2 l : sh w1 w2 -> unique_summits m w1 l = unique_summits m' w2 l.
  Proof.
    intros H. induction l as [|a l IH]; [done|]. cbn [unique_summits]. rewrite IH. f_equal.
    apply list_filter_iff. intros b. by rewrite (summits_eq _ _ a b H).
  Qed.
  Lemma single w1 w2 i : sh w1 w2 -> sh (single_source m w1 i) (single_source m' w2 i).
  Proof.
    intros H. unfold single_source, linked_summits. rewrite (sh_links _ _ H).
    destruct (sad _ _ i H) as [[-> ->]|(s & s' & -> & -> & L)]; [done|]. destruct L as (_ & _ & -> & _).
    rewrite (uniq _ _ _ H). destruct (_ <=? _)%nat; [by apply disq|done].
  Qed.
  Lemma single_there w i n : there (single_source m w i) n <-> there w n.
  Proof. unfold single_source. destruct (_ !! i); [|done]. destruct (_ <=? _)%nat; [apply disq_there|done]. Qed.
  Lemma stubs w1 w2 l : sh w1 w2 -> sh (stub_phase m w1 l) (stub_phase m' w2 l).
  Proof.
    unfold stub_phase. revert w1 w2. induction l as [|i l IH]; intros w1 w2 H; [done|]. cbn [foldl]. apply IH.
    destruct (sad _ _ i H) as [[-> ->]|(s & s' & -> & -> & L)]; [done|]. rewrite (like_disq _ _ L).
    destruct (disqualified s'); [done|]. by apply single.
  Qed.

  Lemma ins w1 w2 i l : sh w1 w2 -> there w1 (Sad i) -> Forall (fun j => there w1 (Sad j)) l -> ins_ele w1 i l = ins_ele w2 i l.
  Proof.
    intros H Hi Hl. induction Hl as [|j l Hj Hl IH]; [done|]. cbn [ins_ele]. rewrite (le_ _ _ _ _ H Hi Hj), IH. done.
  Qed.
  Lemma ins_all (P : nat -> Prop) w i l : P i -> Forall P l -> Forall P (ins_ele w i l).
  Proof.
    intros Hi Hl. induction Hl as [|j l Hj Hl IH]; [by repeat constructor|]. cbn [ins_ele].
    destruct (_ <=? _); repeat constructor; done.
  Qed.
  Lemma sort_all (P : nat -> Prop) w l : Forall P l -> Forall P (sort_ele w l).
  Proof. unfold sort_ele. induction 1; [constructor|]. cbn. by apply ins_all. Qed.
  Lemma sorts w1 w2 l : sh w1 w2 -> Forall (fun j => there w1 (Sad j)) l -> sort_ele w1 l = sort_ele w2 l.
  Proof.
    intros H Hl. unfold sort_ele. induction Hl as [|j l Hj Hl IH]; [done|]. cbn [foldr]. rewrite <-IH.
    apply ins; [done..|]. by apply (sort_all _ w1).
  Qed.
  Lemma keys_all (P : nat -> Prop) seen l : Forall P l -> Forall P (dict_keys seen l).
  Proof. intros H. revert seen. induction H as [|i l Hi Hl IH]; intros seen; [constructor|]. cbn. case_decide; [done|]. by constructor. Qed.

  (** *** Cycles *)
  Lemma lowest_in w c n : n ∈ find_lowest w c -> n ∈ c.
  Proof.
    unfold find_lowest. assert (forall l acc, (forall x, x ∈ acc -> x ∈ c) -> (forall x, x ∈ l -> x ∈ c) ->
      n ∈ foldl (fun lowest n => match lowest with [] => lowest | h :: _ =>
          if (node_ele w n =? node_ele w h) && negb (bool_decide (n = h)) then lowest ++ [n]
          else if node_ele w n <? node_ele w h then [n] else lowest end) acc l -> n ∈ c) as K.
    { induction l as [|x l IH]; intros acc Ha Hl; [apply Ha|]. cbn [foldl]. apply IH.
      - intros y. destruct acc as [|h acc]; [by apply Ha|]. destruct (_ && _).
        + rewrite elem_of_app, elem_of_list_singleton. intros [?| ->]; [by apply Ha|]. apply Hl. left.
        + destruct (_ <? _); [|by apply Ha]. rewrite elem_of_list_singleton. intros ->. apply Hl. left.
      - intros y Hy. apply Hl. by right. }
    apply K; [|done]. destruct c as [|h c]; [by intros x|]. cbn. intros x ->%elem_of_list_singleton. left.
  Qed.
  Lemma lowests w1 w2 c : sh w1 w2 -> Forall (there w1) c -> find_lowest w1 c = find_lowest w2 c.
  Proof.
    intros H. unfold find_lowest.
    assert (forall l acc, Forall (there w1) acc -> Forall (there w1) l ->
      foldl (fun lowest n => match lowest with [] => lowest | h :: _ =>
          if (node_ele w1 n =? node_ele w1 h) && negb (bool_decide (n = h)) then lowest ++ [n]
          else if node_ele w1 n <? node_ele w1 h then [n] else lowest end) acc l =
      foldl (fun lowest n => match lowest with [] => lowest | h :: _ =>
          if (node_ele w2 n =? node_ele w2 h) && negb (bool_decide (n = h)) then lowest ++ [n]
          else if node_ele w2 n <? node_ele w2 h then [n] else lowest end) acc l) as K.
    { induction l as [|x l IH]; intros acc Ha Hl; [done|]. cbn [foldl]. inversion Hl as [|? ? Hx Hl']; subst.
      assert (match acc with [] => acc | h :: _ =>
          if (node_ele w1 x =? node_ele w1 h) && negb (bool_decide (x = h)) then acc ++ [x]
          else if node_ele w1 x <? node_ele w1 h then [x] else acc end =
        match acc with [] => acc | h :: _ =>
          if (node_ele w2 x =? node_ele w2 h) && negb (bool_decide (x = h)) then acc ++ [x]
          else if node_ele w2 x <? node_ele w2 h then [x] else acc end) as <-.
      { destruct acc as [|h acc]; [done|]. inversion Ha; subst. by rewrite (eq_ _ _ x h H), (lt_ _ _ x h H). }
      apply IH; [|done]. destruct acc as [|h acc]; [done|]. destruct (_ && _).
      - apply Forall_app. split; [done|]. by repeat constructor.
      - destruct (_ <? _); [by repeat constructor|done]. }
    intros Hc. apply K; [|done]. by apply Forall_take.
  Qed.
  Lemma removes w1 w2 i l : sh w1 w2 -> remove_first m w1 i l = remove_first m' w2 i l.
  Proof. intros H. induction l as [|j l IH]; [done|]. cbn. by rewrite (saddles_eq _ _ j i H), IH. Qed.
  Lemma labels w1 w2 ids l : sh w1 w2 ->
    sh (foldl (fun w j => upd_saddle j (set_alts (remove_first m w j ids)) w) w1 l)
       (foldl (fun w j => upd_saddle j (set_alts (remove_first m' w j ids)) w) w2 l).
  Proof.
    revert w1 w2. induction l as [|j l IH]; intros w1 w2 H; [done|]. cbn [foldl]. apply IH.
    rewrite (removes _ _ _ _ H). apply upd; [done..|]. intros ? ? L. unfold like_saddle in *. cbn. tauto.
  Qed.
  Lemma labels_there w ids l n : there (foldl (fun w j => upd_saddle j (set_alts (remove_first m w j ids)) w) w l) n <-> there w n.
  Proof. revert w. induction l as [|j l IH]; intros w; [done|]. cbn [foldl]. by rewrite IH, upd_there. Qed.
  Definition kept (w w1 w2 : world) : Prop := sh w1 w2 /\ forall n, there w n -> there w1 n.
  Lemma label w1 w2 l : sh w1 w2 -> alike (kept w1) (disqualify_and_label m w1 l) (disqualify_and_label m' w2 l).
  Proof.
    intros H. unfold disqualify_and_label. destruct l as [|h l]; [done|].
    destruct (mapM _ _) as [[|i ids]|]; [done| |done]. destruct (_ <? _)%nat; cbn [alike]; split.
    - by apply labels, disq.
    - intros n Hn. by rewrite labels_there, disq_there.
    - by apply disq.
    - intros n Hn. by rewrite disq_there.
  Qed.

  (** *** The search *)
  Record both_st (s1 s2 : bstate) : Prop := {
    bt_world : sh (bs_world s1) (bs_world s2);
    bt_feats : bs_feats s1 = bs_feats s2;
    bt_stack : bs_stack s1 = bs_stack s2;
    bt_look : bs_look s1 = bs_look s2;
    bt_expl : bs_expl s1 = bs_expl s2;
    bt_cyc : bs_cyc s1 = bs_cyc s2;
    bt_there : forall n p, bs_look s1 !! n = Some p -> there (bs_world s1) p }.
  Lemma chain_there w fuel root look pn p r :
    (forall n q, look !! n = Some q -> there w q) -> there w p ->
    chain_up fuel root look pn p = Ok r -> Forall (there w) (r.1 ++ [r.2]).
  Proof.
    intros Hl. revert p r. induction fuel as [|fuel IH]; intros p r Hp; [done|]. cbn [chain_up].
    destruct (decide _); [intros [= <-]; by repeat constructor|].
    destruct (look !! p) as [p'|] eqn:E; [|done]. pose proof (Hl _ _ E) as Hp'.
    destruct (decide (p' = root)); [intros [= <-]; by repeat constructor|].
    destruct (chain_up fuel root look pn p') as [r'|] eqn:Er; [|done]. intros [= <-]. cbn. constructor; [done|].
    by apply (IH p' r').
  Qed.
  Lemma visits root z nbr s1 s2 : both_st s1 s2 -> there (bs_world s1) z ->
    alike (fun t1 t2 => both_st t1 t2 /\ there (bs_world t1) z) (visit m root z nbr s1) (visit m' root z nbr s2).
  Proof.
    intros [Hw Ef Es El Ee Ec Ht] Hz. destruct s1 as [w1 f st lk ex cy], s2 as [w2 f' st' lk' ex' cy'].
    cbn [bs_world bs_feats bs_stack bs_look bs_expl bs_cyc] in *. subst f' st' lk' ex' cy'.
    unfold visit. cbn [bs_world bs_feats bs_stack bs_look bs_expl bs_cyc].
    rewrite <-(deads _ _ nbr Hw). destruct (dead w1 nbr) eqn:Ed; [done|]. apply dead_there in Ed.
    destruct (ex !! nbr) as [pn|] eqn:Ex.
    2:{ cbn [alike]. split; [|done]. split; try done. cbn. intros n p. rewrite lookup_insert_Some. intros [[<- <-]|[_ ?]]; [done|by eapply Ht]. }
    rewrite (feats_eq _ _ nbr z Hw). destruct (node_same m' w2 nbr z); [done|].
    destruct (decide _); [done|]. destruct (lk !! z) as [p|] eqn:Ep; [|done].
    destruct (chain_up _ root lk pn p) as [r|e] eqn:Er; [|done]. cbn [rbind].
    pose proof (chain_there w1 _ _ _ _ _ _ Ht (Ht _ _ Ep) Er) as Hc.
    rewrite <-(lowests w1 w2) by (done || by repeat constructor).
    apply (alike_bind (kept w1)); [by apply label|]. intros v1 v2 [Hv Hk]. cbn [alike]. split; [|by apply Hk].
    split; try done. cbn. intros n0 q Hq. by eapply Hk, Ht.
  Qed.
  Lemma searches_ root fuel s1 s2 : both_st s1 s2 -> alike both_st (search m fuel root s1) (search m' fuel root s2).
  Proof.
    revert s1 s2. induction fuel as [|fuel IH]; intros s1 s2 H; [done|]. cbn [search]. pose proof H as [Hw Ef Es El Ee Ec Ht].
    rewrite <-Es. destruct (bs_stack s1) as [|z st]; [done|]. rewrite <-(deads _ _ z Hw).
    destruct (dead (bs_world s1) z) eqn:Ed.
    { apply IH. split; cbn; try done. by rewrite Ef. }
    apply dead_there in Ed. rewrite <-(nbrs _ _ z Hw).
    apply (alike_bind (fun t1 t2 => both_st t1 t2 /\ there (bs_world t1) z)); [|intros t1 t2 [? _]; by apply IH].
    apply (alike_fold eq (fun t1 t2 => both_st t1 t2 /\ there (bs_world t1) z)).
    - apply Forall2_same.
    - intros a b s t <- [Hst Hz]. by apply visits.
    - by split.
  Qed.
  Lemma loops fuel w1 w2 l : sh w1 w2 -> alike sh (basin_loop m fuel w1 l) (basin_loop m' fuel w2 l).
  Proof.
    revert w1 w2 l. induction fuel as [|fuel IH]; intros w1 w2 l H; [done|]. cbn [basin_loop]. destruct l as [|r l]; [done|].
    rewrite <-(deads _ _ (Sad r) H). destruct (dead w1 (Sad r)) eqn:Ed; [by apply IH|]. apply dead_there in Ed.
    apply (alike_bind both_st).
    - unfold search_fuel. rewrite (Forall2_length _ _ _ (sh_saddles _ _ H)), (Forall2_length _ _ _ (sh_summits _ _ H)).
      apply searches_. split; cbn; try done. intros n p [_ <-]%lookup_singleton_Some. done.
    - intros s1 s2 [Hw Ef Es El Ee Ec Ht]. rewrite Ef, El, Ec. by apply IH.
  Qed.

  Lemma heights fuel w1 w2 saddles : sh w1 w2 -> (forall i, i ∈ saddles -> there w1 (Sad i)) ->
    match disqualify_basin_saddles m fuel w1 saddles, disqualify_basin_saddles m' fuel w2 saddles with
    | Ok w1', Ok w2' => sh w1' w2'
    | Err e, Err e' => e = e'
    | _, _ => False
    end.
  Proof.
    intros H Hs. change (alike sh (disqualify_basin_saddles m fuel w1 saddles) (disqualify_basin_saddles m' fuel w2 saddles)).
    unfold disqualify_basin_saddles. cbv zeta. rewrite (sorts w1 w2).
    - by apply loops, stubs.
    - done.
    - apply keys_all. rewrite Forall_forall. done.
  Qed.
End heights.

Lemma regrade_like g w : (forall a b, a < b -> g a < g b) -> same_heights w (regrade_world g w).
Proof.
  intros Hg. split.
  - cbn. induction (w_saddles w); constructor; [|done]. by unfold like_saddle.
  - cbn. induction (w_summits w); constructor; [|done]. by unfold like_summit.
  - done.
  - intros a b Ha Hb.
    assert (forall n, there w n -> ele_at (regrade_world g w) n = g (ele_at w n)) as E.
    { intros [i|i] Hn; cbn in *; rewrite list_lookup_fmap.
      - destruct (w_saddles w !! i) eqn:E; [done|]. apply lookup_ge_None in E. lia.
      - destruct (w_summits w !! i) eqn:E; [done|]. apply lookup_ge_None in E. lia. }
    rewrite !E by done. split; [apply Hg|]. intros H. destruct (Z.lt_trichotomy (ele_at w a) (ele_at w b)) as [?|[Eq|L]]; [done| |].
    + rewrite Eq in H. lia.
    + apply Hg in L. lia.
Qed.
