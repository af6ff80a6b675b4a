(** The lists returned by the walk name objects that exist. *)
From Verif Require Import Walk_model.
Local Open Scope nat_scope.

Definition count (s : walk_state) : nat := length (w_saddles (ws_world s)).
Definition listed (s : walk_state) : Prop := forall k, k ∈ ws_feats s -> k < count s.
Definition grown (s s' : walk_state) : Prop := count s <= count s' /\ (listed s -> listed s').

Lemma grown_refl s : grown s s.
Proof. by split. Qed.
Lemma grown_trans s1 s2 s3 : grown s1 s2 -> grown s2 s3 -> grown s1 s3.
Proof. intros [? ?] [? ?]. split; [lia|auto]. Qed.
Lemma grown_fold {A} (f : A -> walk_state -> res walk_state) l :
  (forall a s s', f a s = Ok s' -> grown s s') -> forall s s', foldM f l s = Ok s' -> grown s s'.
Proof.
  intros Hf. induction l as [|a l IH]; intros s s'; cbn [foldM]; [intros [= <-]; apply grown_refl|].
  destruct (f a s) as [s1|] eqn:E; [|done]. cbn [rbind]. intros H. eapply grown_trans; [by eapply Hf|by apply IH].
Qed.
Lemma grown_feats s s' : ws_feats s' = ws_feats s -> count s <= count s' -> grown s s'.
Proof. intros E L. split; [done|]. intros H k Hk. rewrite E in Hk. specialize (H k Hk). lia. Qed.
Lemma grown_add k s : k < count s -> grown s (add_feat k s).
Proof.
  intros Hk. split; [done|]. intros H j. cbn. rewrite elem_of_app, elem_of_list_singleton. intros [?| ->]; [|done]. by apply H.
Qed.
Lemma upd_len i f w : length (w_saddles (upd_saddle i f w)) = length (w_saddles w).
Proof. apply alter_length. Qed.

Section list.
  Context (fpath : datamap -> list mpoint -> mpoint -> mpoint -> option pathinfo) (near : searches) (m : datamap).
  Lemma remote_len b k w : length (w_saddles (add_to_remote m b k w)) = length (w_saddles w).
  Proof.
    unfold add_to_remote. destruct (_ !! k); [|done]. cbv zeta.
    repeat match goal with |- context [if ?c then _ else _] => destruct c end; by rewrite ?upd_len.
  Qed.
  Lemma link_grown b d k s : grown s (link_saddle m b d k s).
  Proof. apply grown_feats; [done|]. unfold count, link_saddle. cbn [ws_world]. rewrite remote_len. done. Qed.
  Lemma edge_grown b k g s s' : link_edge m b k g s = Ok s' -> grown s s'.
  Proof.
    unfold link_edge. destruct g as [|z g]; [done|]. destruct (_ !! _); intros [= <-]; [apply link_grown|apply grown_refl].
  Qed.
  Lemma climb_grown k s s' : climb_edges near m k s = Ok s' -> grown s s' /\ k < count s.
  Proof.
    unfold climb_edges, hpn_of. destruct (w_saddles (ws_world s) !! k) as [o|] eqn:E; [|done]. cbn [rbind].
    destruct (foldM _ _ _); [|done]. intros [= <-]. split; [by apply grown_feats|]. by eapply lookup_lt_Some.
  Qed.
  Lemma edge_saddle_grown j k s s' : edge_saddle m j k s = Ok s' -> grown s s'.
  Proof.
    unfold edge_saddle, hpn_of. destruct (w_saddles (ws_world s) !! k) as [o|] eqn:E; [|done]. cbn [rbind].
    destruct (foldM _ _ _) as [s1|] eqn:E1; [|done]. cbv zeta. intros [= <-]. apply lookup_lt_Some in E.
    pose proof (grown_fold _ _ (edge_grown true k) _ _ E1) as G. eapply grown_trans; [exact G|].
    eapply grown_trans; [|apply grown_add].
    - apply grown_feats; [done|]. unfold count. cbn [ws_world set_world]. by rewrite !upd_len.
    - unfold count in *. cbn [ws_world set_world]. rewrite !upd_len. destruct G as [G _]. unfold count in G. lia.
  Qed.
  Lemma kids_len i f rs w : length (w_saddles w) <= length (w_saddles (alloc_children i f rs w).1).
  Proof.
    revert w. induction rs as [|r rs IH]; intros w; [done|]. destruct r as [g d|pos e h c]; [apply IH|]. cbn [alloc_children].
    unfold alloc_saddle. cbv zeta. cbn iota.
    match goal with |- context [alloc_children i f rs ?x] => pose proof (IH x) as H;
      assert (length (w_saddles w) <= length (w_saddles x)) as H2 end.
    { destruct c; rewrite ?upd_len; cbn; rewrite app_length; lia. }
    destruct (alloc_children i f rs _). cbn in *. lia.
  Qed.
  Lemma synth_len i w w' ks : generate_synthetic_saddles fpath near m i w = Ok (w', ks) -> length (w_saddles w) <= length (w_saddles w').
  Proof.
    unfold generate_synthetic_saddles. destruct (w_saddles w !! i) as [s|]; [|done]. cbv zeta.
    assert (forall x, length (w_saddles w) <= length (w_saddles w ++ [x])) as L by (intros; rewrite app_length; lia).
    assert ((let* rs := generate_child_saddles near m (sa_feat s) in Ok (alloc_children i (sa_feat s) rs w)) = Ok (w', ks) ->
      length (w_saddles w) <= length (w_saddles w')) as K.
    { destruct (generate_child_saddles _ _ _) as [rs|]; [|done]. cbn [rbind]. intros [= E]. pose proof (kids_len i (sa_feat s) rs w) as H. by rewrite E in H. }
    destruct (ft_hpn (sa_feat s)) as [|g0 [|g1 [|g2 h]]]; [by intros [= <- _]..| |exact K].
    destruct (ft_multi (sa_feat s)).
    - destruct (highest g0); [|done]. destruct (highest g1); [|done]. cbn. intros [= <- _]. apply L.
    - destruct (hpn_shortest_path _ _ _) as [[[a b] c]|]; [|done]. cbn [rbind]. destruct (as_pte a); [|done]. destruct (as_pte b); [|done].
      cbn. intros [= <- _]. apply L.
  Qed.
  Lemma finish_grown i ks s s' : i < count s ->
    (let* s := foldM (edge_saddle m i) ks s in
     Ok (add_feat i (set_world (upd_saddle i (set_over (Some true)) (ws_world s)) s))) = Ok s' -> grown s s'.
  Proof.
    intros Hi. destruct (foldM _ _ _) as [s1|] eqn:E; [|done]. intros [= <-].
    pose proof (grown_fold _ _ (edge_saddle_grown i) _ _ E) as G. eapply grown_trans; [exact G|].
    eapply grown_trans; [|apply grown_add].
    - apply grown_feats; [done|]. unfold count. cbn [ws_world set_world]. by rewrite !upd_len.
    - unfold count in *. cbn [ws_world set_world]. rewrite !upd_len. destruct G as [G _]. unfold count in G. lia.
  Qed.
  Lemma synth_grown i s s' : i < count s ->
    (let* (w, ks) := generate_synthetic_saddles fpath near m i (ws_world s) in
     let* s := foldM (edge_saddle m i) ks (set_world w s) in
     Ok (add_feat i (set_world (upd_saddle i (set_over (Some true)) (ws_world s)) s))) = Ok s' -> grown s s'.
  Proof.
    intros Hi. destruct (generate_synthetic_saddles _ _ _ _ _) as [[w ks]|] eqn:E; [|done]. cbn [rbind]. apply synth_len in E.
    intros H. eapply grown_trans; [|eapply finish_grown; [|exact H]].
    - by apply grown_feats.
    - unfold count in *. cbn [ws_world set_world]. lia.
  Qed.
  Lemma one_grown i s s' : walk_one fpath near m i s = Ok s' -> grown s s'.
  Proof.
    unfold walk_one. destruct (w_saddles (ws_world s) !! i) as [o|] eqn:E; [|done]. destruct (ft_edge (sa_feat o)).
    - unfold walk_border. destruct (climb_edges near m i s) as [s1|] eqn:E1; [|done]. cbn [rbind].
      apply climb_grown in E1 as [G1 _]. apply lookup_lt_Some in E. destruct (w_saddles (ws_world s1) !! i) as [o1|] eqn:E2; [|done].
      apply lookup_lt_Some in E2. cbv zeta. intros H. eapply grown_trans; [exact G1|]. clear G1 E s.
      destruct (decide (ft_kind _ = _)); [|by eapply synth_grown].
      destruct (decide (ft_hpn _ = _)); [|by eapply finish_grown].
      destruct (latlong_to_xy _ _ _) as [c|]; [|done]. cbn [rbind] in H. destruct (_ !! c) as [d|].
      + eapply grown_trans; [apply (link_grown true d i)|]. eapply synth_grown; [|exact H].
        destruct (link_grown true d i s1) as [L _]. unfold count in *. lia.
      + injection H as <-. by apply grown_add.
    - destruct (generate_synthetic_saddles _ _ _ _ _) as [[w ks]|] eqn:E2; [|done]. cbn [rbind]. apply synth_len in E2. intros H.
      eapply grown_trans; [|eapply grown_fold; [|exact H]]; [by apply grown_feats|]. clear. intros k s s'. unfold walk_synthetic.
      destruct (climb_edges near m k s) as [s1|] eqn:E1; [|done]. apply climb_grown in E1 as [G1 Hk]. cbn [rbind].
      destruct (hpn_of k s1) as [hs|]; [|done]. cbn [rbind]. destruct (foldM _ hs s1) as [s2|] eqn:E3; [|done]. intros [= <-].
      pose proof (grown_fold _ _ (edge_grown false k) _ _ E3) as G2.
      eapply grown_trans; [exact G1|]. eapply grown_trans; [exact G2|]. apply grown_add. destruct G1, G2. lia.
  Qed.
  Lemma init_listed w l s : walk_init m w l = Ok s -> listed s.
  Proof.
    unfold walk_init. intros H. assert (grown (WS w (CS ∅ []) [] [] []) s) as [_ G].
    { eapply grown_fold; [|exact H]. intros i t t'. cbv beta. destruct (w_summits _ !! i) as [u|]; [|done].
      destruct (su_domain u); [intros [= <-]; apply grown_refl|]. destruct (summit_cells _ _); [|done]. intros [= <-]. by apply grown_feats. }
    apply G. intros k Hk. by apply elem_of_nil in Hk.
  Qed.
  Lemma walk_listed d d' s i : dm_walk fpath near m d = Ok (d', s) -> i ∈ mp_saddles d' -> (i < length (w_saddles (mp_world d')))%nat.
  Proof.
    unfold dm_walk, climb_from_saddles. destruct (walk_init _ _ _) as [s0|] eqn:E0; [|done]. cbn [rbind].
    destruct (foldM _ _ s0) as [s1|] eqn:E1; [|done]. cbv zeta. intros [= <- <-]. cbn [mp_saddles mp_world].
    intros [_ Hi]%elem_of_list_filter. destruct (grown_fold _ _ one_grown _ _ E1) as [_ G]. apply G; [|done]. by eapply init_listed.
  Qed.
End list.
