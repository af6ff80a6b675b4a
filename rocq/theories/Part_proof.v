(** Proofs about walking from chosen saddles. *)
From Verif Require Import Links_proof Walk_model Part_model Part_spec Graph_proof.
Local Open Scope nat_scope.

(** Up to saddle number [n] only saddle [i] may change. *)
Definition but (n i : nat) (w w' : world) : Prop :=
  (forall j, j < n -> j <> i -> w_saddles w' !! j = w_saddles w !! j) /\
  length (w_saddles w) <= length (w_saddles w') /\
  (forall a, su_feat <$> (w_summits w' !! a) = su_feat <$> (w_summits w !! a)).

Lemma but_refl n i w : but n i w w.
Proof. done. Qed.
Lemma but_trans n i w1 w2 w3 : but n i w1 w2 -> but n i w2 w3 -> but n i w1 w3.
Proof. intros (A & B & C) (D & E & F). split_and!; [|lia|]; intros; by rewrite ?D, ?A, ?F, ?C. Qed.
Lemma but_upd n i k f w : k = i \/ n <= k -> but n i w (upd_saddle k f w).
Proof.
  intros Hk. split_and!; [|by cbn; rewrite alter_length|done]. intros j Hj Hi. rewrite upd_saddle_lookup. case_decide; [|done]. lia.
Qed.
Lemma but_sum n i a f w : (forall u, su_feat (f u) = su_feat u) -> but n i w (upd_summit a f w).
Proof.
  intros Hf. split_and!; [done|done|]. intros x. rewrite upd_summit_lookup. case_decide; [|done]. destruct (w_summits w !! x); [|done]. cbn. by rewrite Hf.
Qed.
Lemma but_new n i o w : n <= length (w_saddles w) -> but n i w (World (w_saddles w ++ [o]) (w_summits w) (w_links w)).
Proof.
  intros Hn. split_and!; [|cbn; rewrite app_length; cbn; lia|done]. intros j Hj _. cbn. by rewrite lookup_app_l by lia.
Qed.
Lemma but_links n i l w : but n i w (World (w_saddles w) (w_summits w) l).
Proof. done. Qed.

Section part.
  Variables (fpath : datamap -> list mpoint -> mpoint -> mpoint -> option (list mpoint * Q)).
  Variables (near : searches) (m : datamap).

  Lemma children_but n i f rs : forall w, n <= length (w_saddles w) ->
    but n i w (alloc_children i f rs w).1 /\ forall k, k ∈ (alloc_children i f rs w).2 -> n <= k.
  Proof.
    induction rs as [|[a b|pos e hpn child] rs IH]; intros w Hn; cbn [alloc_children].
    - split; [done|]. intros k Hk. by apply elem_of_nil in Hk.
    - by apply IH.
    - cbn [alloc_saddle]. set (w1 := match child with Some _ => _ | None => _ end).
      assert (but n i w w1) as H1.
      { eapply but_trans; [by apply (but_new n i (new_saddle (piece f pos hpn)))|]. unfold w1. destruct child; [|done].
        eapply but_trans; apply but_upd; [by right|by left]. }
      destruct (IH w1) as [H2 H3]; [destruct H1 as (_ & ? & _); lia|]. destruct (alloc_children i f rs w1) as [w2 js]. cbn [fst snd] in *.
      split; [by eapply but_trans|]. intros k [->|Hk]%elem_of_cons; [done|by apply H3].
  Qed.

  Lemma synth_but n i w w' ks : n <= length (w_saddles w) -> generate_synthetic_saddles fpath near m i w = Ok (w', ks) ->
    but n i w w' /\ forall k, k ∈ ks -> k = i \/ n <= k.
  Proof.
    intros Hn. unfold generate_synthetic_saddles. destruct (w_saddles w !! i) as [s|]; [|done].
    assert (forall k, k ∈ [i] -> k = i \/ n <= k) as Hi. { intros k Hk. apply elem_of_list_singleton in Hk. by left. }
    assert (forall k, k ∈ [length (w_saddles w)] -> k = i \/ n <= k) as Hl. { intros k Hk. apply elem_of_list_singleton in Hk as ->. by right. }
    destruct (ft_hpn (sa_feat s)) as [|g0 [|g1 [|g2 gs]]].
    - intros [= <- <-]. done.
    - intros [= <- <-]. done.
    - destruct (ft_multi (sa_feat s)).
      + destruct (highest g0); [|done]. destruct (highest g1); [|done]. cbn. intros [= <- <-]. split; [by apply but_new|done].
      + destruct (hpn_shortest_path _ _ _) as [[[a b] mid]|]; [|done]. cbn [rbind]. destruct (as_pte a); [|done]. cbn [rbind].
        destruct (as_pte b); [|done]. cbn. intros [= <- <-]. split; [by apply but_new|done].
    - destruct (generate_child_saddles _ _ _) as [rs|]; [|done]. cbn [rbind]. intros [= E].
      destruct (children_but n i (sa_feat s) rs w Hn) as [H1 H2]. rewrite E in H1, H2. split; [done|]. intros k Hk. right. by apply H2.
  Qed.

  (** What is kept through the walk from one saddle. *)
  Definition kept (n i : nat) (s s' : walk_state) : Prop :=
    but n i (ws_world s) (ws_world s') /\ ((ws_linkers s = [] -> ws_doms s = []) -> ws_linkers s' = [] -> ws_doms s' = []).
  Lemma kept_trans n i s1 s2 s3 : kept n i s1 s2 -> kept n i s2 s3 -> kept n i s1 s3.
  Proof. intros [A B] [C D]. split; [by eapply but_trans|auto]. Qed.
  Lemma kept_world n i w s : but n i (ws_world s) w -> kept n i s (set_world w s).
  Proof. intros H. by split. Qed.
  Lemma kept_feat n i k s : kept n i s (add_feat k s).
  Proof. by split. Qed.
  Lemma kept_fold {A} n i (f : A -> walk_state -> res walk_state) l :
    (forall a s s', a ∈ l -> f a s = Ok s' -> kept n i s s') -> forall s s', foldM f l s = Ok s' -> kept n i s s'.
  Proof.
    induction l as [|a l IH]; intros Hf s s'; cbn [foldM]; [by intros [= <-]|].
    destruct (f a s) as [s1|] eqn:E; [|done]. cbn [rbind]. intros H. eapply kept_trans; [eapply Hf; [by left|done]|].
    eapply IH; [|done]. intros. eapply Hf; [by right|done].
  Qed.

  Lemma remote_but n i ign x w l : w_links w !! x = Some l -> ln_saddle l = i \/ n <= ln_saddle l ->
    but n i w (add_to_remote m ign x w).
  Proof.
    intros Hl Hk. unfold add_to_remote. rewrite Hl. match goal with |- but _ _ _ (if ?c then ?a else _) => set (w1 := a) end.
    assert (but n i w w1) as H1. { unfold w1. destruct (_ && _); [done|by apply but_sum]. }
    clearbody w1. destruct (_ && _); [exact H1|]. eapply but_trans; [exact H1|by apply but_upd].
  Qed.
  Lemma kept_link n i ign d k s : k = i \/ n <= k -> kept n i s (link_saddle m ign d k s).
  Proof.
    intros Hk. split; [|intros _ H; cbn in H; by destruct (ws_linkers s)]. unfold link_saddle. cbn [ws_world].
    eapply but_trans; [|]. { apply (but_sum n i d (fun su => Summit (su_feat su) (su_links su) ((fun l => l ++ [k]) <$> su_domain su))). done. }
    eapply but_trans; [apply but_links|]. eapply (remote_but n i ign _ _ (Link d k false)); [|done].
    cbn [w_links upd_summit]. rewrite lookup_app_r by done. by rewrite Nat.sub_diag.
  Qed.
  Lemma kept_edge n i ign k g s s' : k = i \/ n <= k -> link_edge m ign k g s = Ok s' -> kept n i s s'.
  Proof.
    intros Hk. unfold link_edge. destruct g as [|h g]; [done|]. destruct (_ !! _) as [d|]; intros [= <-]; [by apply kept_link|done].
  Qed.
  Lemma kept_climb n i k s s' : climb_edges near m k s = Ok s' -> kept n i s s'.
  Proof.
    unfold climb_edges. destruct (hpn_of k s) as [hs|]; [|done]. cbn [rbind]. destruct (foldM _ hs _) as [c|]; [|done]. cbn. by intros [= <-].
  Qed.

  Lemma kept_edge_saddle n i k s s' : k = i \/ n <= k -> edge_saddle m i k s = Ok s' -> kept n i s s'.
  Proof.
    intros Hk. unfold edge_saddle. destruct (hpn_of k s) as [hs|]; [|done]. cbn [rbind].
    destruct (foldM _ hs s) as [s1|] eqn:E; [|done]. cbn [rbind]. intros [= <-].
    eapply kept_trans. { eapply kept_fold; [|exact E]. intros g s2 s3 _ H. by eapply kept_edge. }
    eapply kept_trans; [|apply kept_feat]. apply kept_world.
    eapply but_trans; [by apply but_upd|]. eapply but_trans; [apply but_upd; by left|apply but_upd; by left].
  Qed.
  Lemma kept_finish n i ks s s' : (forall k, k ∈ ks -> k = i \/ n <= k) ->
    (let* s := foldM (edge_saddle m i) ks s in
     Ok (add_feat i (set_world (upd_saddle i (set_over (Some true)) (ws_world s)) s))) = Ok s' -> kept n i s s'.
  Proof.
    intros Hk. destruct (foldM _ ks s) as [s1|] eqn:E; [|done]. cbn [rbind]. intros [= <-].
    eapply kept_trans. { eapply kept_fold; [|exact E]. intros k s2 s3 Hin H. eapply kept_edge_saddle; [by apply Hk|done]. }
    eapply kept_trans; [|apply kept_feat]. apply kept_world. apply but_upd. by left.
  Qed.
  Lemma kept_synth n i s s' : n <= length (w_saddles (ws_world s)) ->
    (let* (w, ks) := generate_synthetic_saddles fpath near m i (ws_world s) in
     let* s := foldM (edge_saddle m i) ks (set_world w s) in
     Ok (add_feat i (set_world (upd_saddle i (set_over (Some true)) (ws_world s)) s))) = Ok s' -> kept n i s s'.
  Proof.
    intros Hn. destruct (generate_synthetic_saddles _ _ _ _ _) as [[w ks]|] eqn:E; [|done]. cbn [rbind]. intros H.
    destruct (synth_but n i _ _ _ Hn E) as [H1 H2]. eapply kept_trans; [by apply kept_world|]. by eapply kept_finish.
  Qed.

  Lemma kept_one n i s s' : n <= length (w_saddles (ws_world s)) -> walk_one fpath near m i s = Ok s' -> kept n i s s'.
  Proof.
    intros Hn. unfold walk_one. destruct (w_saddles (ws_world s) !! i) as [o|] eqn:Ho; [|done].
    destruct (ft_edge (sa_feat o)).
    - unfold walk_border. destruct (climb_edges near m i s) as [s1|] eqn:E; [|done]. cbn [rbind].
      pose proof (kept_climb n i _ _ _ E) as K. intros H. eapply kept_trans; [exact K|].
      assert (n <= length (w_saddles (ws_world s1))) as Hn1 by (destruct K as [(_ & ? & _) _]; lia).
      destruct (w_saddles (ws_world s1) !! i) as [o1|]; [|done].
      destruct (decide (ft_kind (sa_feat o1) = KRunoff)).
      + destruct (decide (ft_hpn (sa_feat o1) = [])).
        * destruct (latlong_to_xy _ _ _) as [c|]; [|done]. cbn [rbind] in H. destruct (cs_table (ws_climb s1) !! c) as [d|].
          -- assert (kept n i s1 (link_saddle m true d i s1)) as K2 by (apply kept_link; by left).
             eapply kept_trans; [exact K2|]. eapply kept_synth; [|exact H]. destruct K2 as [(_ & ? & _) _]. lia.
          -- injection H as <-. apply kept_feat.
        * eapply kept_finish; [|exact H]. intros k Hk. apply elem_of_list_singleton in Hk. by left.
      + eapply kept_synth; [exact Hn1|exact H].
    - destruct (generate_synthetic_saddles _ _ _ _ _) as [[w ks]|] eqn:E; [|done]. cbn [rbind]. intros H.
      destruct (synth_but n i _ _ _ Hn E) as [H1 H2]. eapply kept_trans; [by apply kept_world|].
      eapply kept_fold; [|exact H]. intros k s2 s3 Hk. unfold walk_synthetic.
      destruct (climb_edges near m k s2) as [s4|] eqn:E4; [|done]. cbn [rbind]. destruct (hpn_of k s4) as [hs|]; [|done]. cbn [rbind].
      destruct (foldM _ hs s4) as [s5|] eqn:E5; [|done]. cbn [rbind]. intros [= <-].
      eapply kept_trans; [by eapply kept_climb|]. eapply kept_trans; [|apply kept_feat].
      eapply kept_fold; [|exact E5]. intros g s6 s7 _ H6. eapply kept_edge; [by apply H2|done].
  Qed.

  Lemma walk_kept w summits given s : climb_from_saddles fpath near m w summits given = Ok s ->
    others_kept given w (ws_world s) /\ (ws_linkers s = [] -> ws_doms s = []).
  Proof.
    unfold climb_from_saddles. destruct (walk_init m w summits) as [s0|] eqn:E0; [|done]. cbn [rbind]. intros E.
    assert (w_saddles (ws_world s0) = w_saddles w /\ (forall a, su_feat <$> (w_summits (ws_world s0) !! a) = su_feat <$> (w_summits w !! a)) /\
      ws_doms s0 = []) as (H1 & H2 & H3).
    { revert E0. unfold walk_init. assert (forall l s1 s2, foldM (fun i s =>
        match w_summits (ws_world s) !! i with
        | None => Err IndexError
        | Some su =>
            match su_domain su with
            | Some _ => Ok s
            | None =>
                let* cells := summit_cells m (su_feat su) in
                Ok (WS (upd_summit i (fun su => Summit (su_feat su) (su_links su) (Some [])) (ws_world s))
                       (sd_extend i cells (ws_climb s)) (ws_feats s) (ws_linkers s) (ws_doms s))
            end
        end) l s1 = Ok s2 -> w_saddles (ws_world s2) = w_saddles (ws_world s1) /\
          (forall a, su_feat <$> (w_summits (ws_world s2) !! a) = su_feat <$> (w_summits (ws_world s1) !! a)) /\
          ws_doms s2 = ws_doms s1) as H.
      { induction l as [|i l IH]; intros s1 s2; cbn [foldM]; [by intros [= <-]|].
        destruct (w_summits (ws_world s1) !! i) as [su|]; [|done]. destruct (su_domain su); [apply IH|].
        destruct (summit_cells m (su_feat su)) as [cells|]; [|done]. cbn [rbind]. intros (A & B & C)%IH. cbn [ws_world ws_doms] in *.
        split_and!; [done| |done]. intros a. rewrite B.
        by destruct (but_sum 0 0 i (fun su => Summit (su_feat su) (su_links su) (Some [])) (ws_world s1) (fun _ => eq_refl)) as (_ & _ & ->). }
      intros (A & B & C)%H. done. }
    enough (forall l s0 s, length (w_saddles w) <= length (w_saddles (ws_world s0)) ->
      (ws_linkers s0 = [] -> ws_doms s0 = []) -> foldM (walk_one fpath near m) l s0 = Ok s ->
      (forall j, j < length (w_saddles w) -> j ∉ l -> w_saddles (ws_world s) !! j = w_saddles (ws_world s0) !! j) /\
      length (w_saddles (ws_world s0)) <= length (w_saddles (ws_world s)) /\
      (forall a, su_feat <$> (w_summits (ws_world s) !! a) = su_feat <$> (w_summits (ws_world s0) !! a)) /\
      (ws_linkers s = [] -> ws_doms s = [])) as H.
    { destruct (H given s0 s) as (A & B & C & D); [by rewrite H1|done|done|]. split; [|done].
      rewrite H1 in A, B. split_and!; [done|done|]. intros a. by rewrite C. }
    clear. induction l as [|i l IH]; intros s0 s Hn Hd; cbn [foldM]; [by intros [= <-]|].
    destruct (walk_one fpath near m i s0) as [s1|] eqn:E; [|done]. cbn [rbind]. intros H.
    destruct (kept_one _ _ _ _ Hn E) as [(A & B & C) D]. destruct (IH s1 s) as (A' & B' & C' & D'); [lia|by apply D|done|].
    split_and!; [|lia| |done].
    - intros j Hj Hin. rewrite A', A; try done; set_solver.
    - intros a. by rewrite C', C.
  Qed.
End part.
