(** Internal saddle networks depend on the order of the elevations and the
    searches only. *)
From Verif Require Import Network_model Walk_model Feature_spec Climb_spec Raster_proof Relief_spec Relief_proof
  Heights_spec Datum_spec Datum_climb Raster_spec.
From Coq Require Import ZifyBool.
Local Open Scope Z_scope.

Lemma Forall2_at {A B} (P : A -> B -> Prop) l l' i : Forall2 P l l' -> orel P (l !! i) (l' !! i).
Proof.
  intros H. destruct (l !! i) as [a|] eqn:E.
  - destruct (Forall2_lookup_l _ _ _ _ _ H E) as (b & -> & Hb). done.
  - apply lookup_ge_None in E. rewrite (Forall2_length _ _ _ H) in E. by apply lookup_ge_None in E as ->.
Qed.
Lemma mapM_alike {A A' B B'} (S : A -> A' -> Prop) (P : B -> B' -> Prop) f f' l l' :
  Forall2 S l l' -> (forall a a', S a a' -> alike P (f a) (f' a')) -> alike (Forall2 P) (mapM_res f l) (mapM_res f' l').
Proof.
  intros H Hf. induction H as [|a a' l l' Ha _ IH]; [constructor|]. cbn [mapM_res].
  apply (alike_bind P); [by apply Hf|]. intros b b' Hb. apply (alike_bind (Forall2 P)); [done|]. intros. by constructor.
Qed.
Lemma foldl_alike {A B C D} (P : A -> B -> Prop) (S : C -> D -> Prop) f f' l l' :
  Forall2 P l l' -> (forall a b s t, P a b -> S s t -> S (f s a) (f' t b)) ->
  forall s t, S s t -> S (foldl f s l) (foldl f' t l').
Proof. intros H Hf. induction H as [|a b l l' Hab _ IH]; intros s t Hs; [done|]. cbn. by apply IH, Hf. Qed.

Section net.
  Context (near : searches) (m1 m2 : datamap) (Hs : same_relief m1 m2) (Hn : blind_searches near m1 m2).
  Local Notation pt := (Relief_proof.pt m1 m2).
  Local Notation pts := (Relief_proof.pts m1 m2).
  Local Notation mpt := (Relief_proof.mpt m1 m2).

  Definition cl (c c' : closest) : Prop := orel pt (cp_mine c) (cp_mine c') /\ orel pt (cp_theirs c) (cp_theirs c') /\ cp_d2 c = cp_d2 c'.
  Definition vl (l l' : vlink) : Prop :=
    orel pt (vl_local l) (vl_local l') /\ orel pt (vl_remote l) (vl_remote l') /\ vl_d2 l = vl_d2 l' /\ vl_to l = vl_to l'.

  Lemma pair_alike a a' b b' : pts a a' -> pts b b' -> alike cl (s_pair near m1 a b) (s_pair near m2 a' b').
  Proof.
    intros Ha Hb. apply pts_true in Ha as [Ha ->], Hb as [Hb ->]. pose proof (bl_pair _ _ _ Hn a b Ha Hb) as H.
    destruct (s_pair near m1 a b) as [c|], (s_pair near m2 _ _) as [c'|]; try done. destruct H as (-> & H1 & H2).
    rewrite Forall_forall in Ha, Hb. split; cbn.
    - destruct (cp_mine c) as [p|]; [|done]. cbn. apply pt_true. split; [|done]. apply Ha. by apply H1.
    - split; [|done]. destruct (cp_theirs c) as [p|]; [|done]. cbn. apply pt_true. split; [|done]. apply Hb. by apply H2.
  Qed.
  Lemma link_alike h h' i j : Forall2 pts h h' -> alike vl (make_link near m1 h i j) (make_link near m2 h' i j).
  Proof.
    intros H. unfold make_link. pose proof (Forall2_at _ _ _ i H) as Hi. pose proof (Forall2_at _ _ _ j H) as Hj.
    destruct (h !! i), (h' !! i); try done. destruct (h !! j), (h' !! j); try done. cbn in Hi, Hj.
    destruct (Nat.ltb i j); (apply (alike_bind cl); [by apply pair_alike|]); intros c c' (H1 & H2 & H3); cbn; unfold vl; cbn; by rewrite H3.
  Qed.
  Lemma links_alike h h' : Forall2 pts h h' -> alike (Forall2 (Forall2 vl)) (find_shortest_paths near m1 h) (find_shortest_paths near m2 h').
  Proof.
    intros H. unfold find_shortest_paths. rewrite <-(Forall2_length _ _ _ H). apply (mapM_alike eq); [apply Forall2_same|].
    intros i ? <-. apply (mapM_alike eq); [apply Forall2_same|]. intros j ? <-. by apply link_alike.
  Qed.
  Lemma short_alike ig l l' : Forall2 vl l l' -> orel vl (shortest_link ig l) (shortest_link ig l').
  Proof.
    intros H. unfold shortest_link.
    assert (forall s t : option vlink * Q, orel vl s.1 t.1 /\ s.2 = t.2 ->
      let f := fun (s : option vlink * Q) l => if decide (vl_to l ∈ ig) then s else if Qlt_bool (vl_d2 l) s.2 then (Some l, vl_d2 l) else s in
      orel vl (foldl f s l).1 (foldl f t l').1 /\ (foldl f s l).2 = (foldl f t l').2) as K; [|by apply K].
    intros s t Hst f. apply (foldl_alike vl (fun s t : option vlink * Q => orel vl s.1 t.1 /\ s.2 = t.2)); [done| |done].
    intros a b s0 t0 Hab [H1 H2]. pose proof Hab as (_ & _ & E1 & E2). unfold f. rewrite E1, E2, H2.
    destruct (decide _); [done|]. destruct (Qlt_bool _ _); [|done]. split; [exact Hab|done].
  Qed.
  Definition ts (s s' : tree_state) : Prop :=
    ts_queue s = ts_queue s' /\ ts_planned s = ts_planned s' /\ ts_explored s = ts_explored s' /\
    Forall2 vl (ts_links s) (ts_links s') /\ ts_first s = ts_first s'.
  Lemma node_links ns ns' i : Forall2 (Forall2 vl) ns ns' -> Forall2 vl (default [] (ns !! i)) (default [] (ns' !! i)).
  Proof. intros H. pose proof (Forall2_at _ _ _ i H) as Hi. destruct (ns !! i), (ns' !! i); try done. constructor. Qed.
  Lemma step_alike ns ns' node l l' sg sg' : Forall2 (Forall2 vl) ns ns' -> vl l l' -> ts sg.1 sg'.1 /\ sg.2 = sg'.2 ->
    ts (explore_link ns node l sg).1 (explore_link ns' node l' sg').1 /\ (explore_link ns node l sg).2 = (explore_link ns' node l' sg').2.
  Proof.
    intros Hns Hl [Ht Hb]. pose proof Ht as (T1 & T2 & T3 & T4 & T5). pose proof Hl as (_ & _ & _ & E). unfold explore_link. rewrite E, T3, T2.
    destruct (decide _); [done|].
    pose proof (short_alike (ts_explored sg'.1) _ _ (node_links _ _ (vl_to l') Hns)) as Hsh.
    destruct (shortest_link _ (default [] (ns !! _))) as [r|], (shortest_link _ (default [] (ns' !! _))) as [r'|]; try done.
    destruct Hsh as (_ & _ & _ & Er). rewrite Er. destruct (Nat.eqb _ _); [|done]. split; [|done].
    unfold ts. cbn. rewrite T1, T5. do 3 (split; [done|]). split; [|done]. apply Forall2_app; [done|]. constructor; [exact Hl|constructor].
  Qed.
  Lemma node_alike ns ns' node rest s s' : Forall2 (Forall2 vl) ns ns' -> ts s s' ->
    alike ts (explore_node ns node rest s) (explore_node ns' node rest s').
  Proof.
    intros Hns (T1 & T2 & T3 & T4 & T5). unfold explore_node. cbv zeta.
    pose proof (foldl_alike vl (fun sg sg' : tree_state * bool => ts sg.1 sg'.1 /\ sg.2 = sg'.2)
      (fun sg l => explore_link ns node l sg) (fun sg l => explore_link ns' node l sg) _ _ (node_links _ _ node Hns)) as Hf.
    specialize (Hf ltac:(intros; by apply step_alike)
      (TS rest (ts_planned s ∖ {[node]}) (ts_explored s) (ts_links s) (ts_first s), false)
      (TS rest (ts_planned s' ∖ {[node]}) (ts_explored s') (ts_links s') (ts_first s'), false)).
    assert (ts (TS rest (ts_planned s ∖ {[node]}) (ts_explored s) (ts_links s) (ts_first s))
      (TS rest (ts_planned s' ∖ {[node]}) (ts_explored s') (ts_links s') (ts_first s'))) as H0 by (unfold ts; cbn; by rewrite T2).
    specialize (Hf (conj H0 eq_refl)).
    destruct (foldl (fun sg l => explore_link ns node l sg) _ _) as [s1 b1], (foldl (fun sg l => explore_link ns' node l sg) _ _) as [s1' b1'].
    cbn [fst snd] in *. destruct Hf as [Hf ->]. pose proof Hf as (F1 & F2 & F3 & F4 & F5).
    apply (alike_bind ts).
    - rewrite F5. destruct (negb b1' && ts_first s1'); [|exact Hf].
      pose proof (short_alike (ts_explored s1') _ _ (node_links _ _ node Hns)) as Hsh. rewrite F3.
      destruct (shortest_link _ (default [] (ns !! _))) as [r|], (shortest_link _ (default [] (ns' !! _))) as [r'|]; try done.
      pose proof Hsh as (_ & _ & _ & Er). cbn [alike]. unfold ts. cbn. rewrite F1, F2, Er. do 3 (split; [done|]).
      split; [|done]. apply Forall2_app; [done|]. constructor; [exact Hsh|constructor].
    - intros t t' (G1 & G2 & G3 & G4 & G5). cbn [alike]. unfold ts. cbn. by rewrite G1, G2, G3.
  Qed.
  Lemma explore_alike ns ns' fuel : Forall2 (Forall2 vl) ns ns' -> forall s s', ts s s' ->
    alike ts (treeExploration fuel ns s) (treeExploration fuel ns' s').
  Proof.
    intros Hns. induction fuel as [|fuel IH]; intros s s' T; [done|]. cbn [treeExploration]. pose proof T as (<- & _).
    destruct (ts_queue s); [exact T|]. apply (alike_bind ts); [by apply node_alike|done].
  Qed.
  Definition br (o o' : option (vlink * nat)) : Prop := orel (fun a b => vl a.1 b.1 /\ a.2 = b.2) o o'.
  Lemma bridge_alike ns ns' un : Forall2 (Forall2 vl) ns ns' -> alike br (bridge ns un) (bridge ns' un).
  Proof.
    intros Hns. unfold bridge. apply (alike_bind (fun a b => br a.1 b.1 /\ a.2 = b.2)); [|by intros a b [? _]].
    apply (alike_fold eq (fun a b : option (vlink * nat) * Q => br a.1 b.1 /\ a.2 = b.2)); [apply Forall2_same| |done].
    intros i ? s t <- [H1 H2]. pose proof (short_alike (list_to_set un) _ _ (node_links _ _ i Hns)) as Hsh.
    destruct (shortest_link _ (default [] (ns !! _))) as [r|], (shortest_link _ (default [] (ns' !! _))) as [r'|]; try done.
    cbn [alike]. pose proof Hsh as (_ & _ & Er & _). rewrite Er, H2. destruct (Qlt_bool _ _); [|done]. split; [|done]. by split.
  Qed.
  Lemma loop_net ns ns' fuel : Forall2 (Forall2 vl) ns ns' -> forall s s', ts s s' ->
    alike (Forall2 vl) (tree_loop fuel ns s) (tree_loop fuel ns' s').
  Proof.
    intros Hns. induction fuel as [|fuel IH]; intros s s' T; [done|]. cbn [tree_loop]. rewrite <-(Forall2_length _ _ _ Hns).
    apply (alike_bind ts); [by apply explore_alike|]. clear s s' T. intros s s' T. pose proof T as (T1 & T2 & T3 & T4 & T5). rewrite T3.
    destruct (Nat.ltb _ _); [|exact T4]. cbv zeta. apply (alike_bind br); [by apply bridge_alike|].
    intros [[l i]|] [[l' i']|] B; try done. destruct B as [B Ei]. cbn in B, Ei. subst i'. apply IH. unfold ts. cbn.
    rewrite T1, T5. do 3 (split; [done|]). split; [|done]. apply Forall2_app; [done|]. constructor; [exact B|constructor].
  Qed.
  Lemma build_alike h h' : Forall2 pts h h' -> alike (Forall2 vl) (build_internal_tree near m1 h) (build_internal_tree near m2 h').
  Proof.
    intros H. unfold build_internal_tree. apply (alike_bind (Forall2 (Forall2 vl))); [by apply links_alike|].
    intros ns ns' Hns. pose proof Hns as Hc. destruct Hc as [|n n' ns ns' Hn0 Hc]; [done|].
    rewrite (Forall2_length _ _ _ Hns). apply loop_net; [done|]. unfold ts; cbn; repeat (split; [done|]). done.
  Qed.

  (** *** Features *)
  Definition eles (e e' : Z) : Prop := exists c, in_map m1 c /\ e = elev m1 c /\ e' = elev m2 c.
  Record fw (f f' : feature) : Prop := {
    w_kind : ft_kind f = ft_kind f';
    w_pos : ft_pos f = ft_pos f';
    w_ele : eles (ft_ele f) (ft_ele f');
    w_multi : Forall2 mpt (ft_multi f) (ft_multi f');
    w_edge : ft_edge f = ft_edge f';
    w_hpn : Forall2 pts (ft_hpn f) (ft_hpn f') }.
  Lemma ft_fw f f' : ft m1 m2 f f' -> fw f f'.
  Proof. intros [F1 F2 (c & Hc & E) F4 F5 _ F7]. split; try done. exists c. split; [apply Hc|done]. Qed.
  Definition rsd (r r' : rsaddle) : Prop :=
    match r, r' with
    | Kept f d, Kept f' d' => fw f f' /\ d = d'
    | New pos e h c, New pos' e' h' c' => pos = pos' /\ eles e e' /\ Forall2 pts h h' /\ orel (fun _ _ => True) c c'
    | _, _ => False
    end.
  Lemma member_alike tx ty l l' : Forall2 mpt l l' -> s_member near tx ty l = s_member near tx ty l'.
  Proof. intros H. apply mpts_true in H as [H ->]. by rewrite (bl_member _ _ _ Hn). Qed.
  Lemma no_multi f f' : fw f f' -> (ft_multi f = [] <-> ft_multi f' = []).
  Proof. intros F. pose proof (w_multi _ _ F) as H. split; intros E; rewrite E in H; by inversion H. Qed.
  Lemma one_pt a a' : pt a a' -> pts [a] [a'].
  Proof. intros. constructor; [done|constructor]. Qed.
  Lemma two_groups a a' b b' : pts a a' -> pts b b' -> Forall2 pts [a; b] [a'; b'].
  Proof. intros. constructor; [done|]. constructor; [done|constructor]. Qed.
  Lemma child_alike f f' l l' : fw f f' -> vl l l' -> alike rsd (child_saddle near f l) (child_saddle near f' l').
  Proof.
    intros F (V1 & V2 & _ & _). unfold child_saddle. destruct (vl_local l) as [a|], (vl_local l') as [a'|]; try done.
    destruct (vl_remote l) as [b|], (vl_remote l') as [b'|]; try done. cbn in V1, V2. cbv zeta.
    pose proof (pt_xy_eq _ _ _ _ V1) as E1. pose proof (pt_xy_eq _ _ _ _ V2) as E2. unfold pt_x, pt_y. fold (pt_xy a) (pt_xy a') (pt_xy b) (pt_xy b').
    rewrite E1, E2, (member_alike _ _ _ _ (w_multi _ _ F)), (w_pos _ _ F), (w_edge _ _ F). pose proof (no_multi _ _ F) as Hm.
    apply (alike_bind eq).
    - destruct (decide (ft_multi f = [])), (decide (ft_multi f' = [])); try tauto; apply alike_same.
    - intros pos ? <-. cbn [alike rsd]. split; [done|]. split; [apply F|]. split; [by apply two_groups; apply one_pt|]. by destruct (ft_edge f').
  Qed.
  Lemma children_alike f f' : fw f f' -> alike (Forall2 rsd) (generate_child_saddles near m1 f) (generate_child_saddles near m2 f').
  Proof.
    intros F. unfold generate_child_saddles. apply (alike_bind (Forall2 vl)); [apply build_alike, F|].
    intros ls ls' H. apply (mapM_alike vl); [done|]. intros. by apply child_alike.
  Qed.
  Lemma rebuild_alike f f' : fw f f' -> alike (Forall2 rsd) (rebuild_one near m1 f) (rebuild_one near m2 f').
  Proof.
    intros F. unfold rebuild_one. rewrite <-(w_edge _ _ F), <-(w_pos _ _ F). pose proof (w_hpn _ _ F) as H.
    assert (Forall2 rsd (if ft_edge f then [Kept f true] else []) (if ft_edge f then [Kept f' true] else [])) as Hk.
    { destruct (ft_edge f); constructor; [by split|constructor]. }
    destruct H as [|g g' h h' Hg H]; [cbn; constructor; [by split|constructor]|].
    destruct H as [|k k' h h' Hk' H]; [cbn; constructor; [by split|constructor]|].
    destruct H as [|i i' h h' Hi H].
    - apply (alike_bind pts); [by apply highest_alike|]. intros a a' Ha. apply (alike_bind pts); [by apply highest_alike|].
      intros b b' Hb. apply (alike_bind eq).
      + pose proof (no_multi _ _ F) as Hm. destruct (decide (ft_multi f = [])), (decide (ft_multi f' = [])); try tauto; [done|].
        apply (alike_bind cl); [by apply pair_alike|]. intros c c' (C1 & C2 & _).
        destruct (cp_mine c) as [p|], (cp_mine c') as [p'|]; try done. destruct (cp_theirs c) as [q|], (cp_theirs c') as [q'|]; try done.
        cbn in C1, C2. unfold pt_x, pt_y. fold (pt_xy p) (pt_xy p') (pt_xy q) (pt_xy q').
        rewrite (pt_xy_eq _ _ _ _ C1), (pt_xy_eq _ _ _ _ C2), (member_alike _ _ _ _ (w_multi _ _ F)). apply alike_same.
      + intros pos ? <-. cbn [alike]. constructor; [|done]. split; [done|]. split; [apply F|]. split; [by apply two_groups|]. by destruct (ft_edge f).
    - apply (alike_bind (Forall2 rsd)); [by apply children_alike|]. intros. by apply Forall2_app.
  Qed.
  Lemma rebuilds_alike l l' : Forall2 fw l l' -> alike (Forall2 rsd) (rebuildSaddles near m1 l) (rebuildSaddles near m2 l').
  Proof.
    intros H. unfold rebuildSaddles. apply (alike_bind (Forall2 (Forall2 rsd))).
    - apply (mapM_alike fw); [done|apply rebuild_alike].
    - intros. by apply Forall2_concat.
  Qed.
End net.
