(** The links made while runoffs are walked are links of runoffs; all others
    were made before. *)
From Verif Require Import Tree_spec Walk_model Basin_model Raster_spec Raster_proof Raster_facts
  Closest_spec Closest_proof Feature_spec Network_spec Climb_spec
  Climb_facts Graph_spec Graph_proof Walk_spec Walk_proof Synth_proof Links_proof Steps_proof One_proof
  Walk_facts Found_proof Again_proof Walked_proof Mesh_proof Run_model Start_proof Terrain_spec Terrain_proof Run_proof.
From Coq Require Import ZifyBool.
Local Open Scope nat_scope.

(** New links are links of saddles in [P]. *)
Definition late (P : nat -> Prop) (w w' : world) : Prop :=
  forall k l, w_links w' !! k = Some l -> w_links w !! k = Some l \/ P (ln_saddle l).
Lemma late_eq P w w' : w_links w' = w_links w -> late P w w'.
Proof. intros E k l Hl. left. by rewrite <-E. Qed.
Lemma late_trans P w1 w2 w3 : late P w1 w2 -> late P w2 w3 -> late P w1 w3.
Proof. intros H1 H2 k l Hl. destruct (H2 k l Hl); auto. Qed.
Lemma late_mono (P Q : nat -> Prop) w w' : (forall i, P i -> Q i) -> late P w w' -> late Q w w'.
Proof. intros H H1 k l Hl. destruct (H1 k l Hl); auto. Qed.
Lemma remote_links m b k w : w_links (add_to_remote m b k w) = w_links w.
Proof. unfold add_to_remote. destruct (w_links w !! k) as [l|]; [|done]. by destruct (_ && _), (_ && _). Qed.
Lemma late_link m b d k s : late (eq k) (ws_world s) (ws_world (link_saddle m b d k s)).
Proof.
  intros j l. unfold link_saddle. cbn [ws_world]. rewrite remote_links. cbn [w_links upd_summit].
  intros [Hl|[_ Hl]]%lookup_app_Some; [by left|]. right. by apply list_lookup_singleton_Some in Hl as [_ <-].
Qed.
Lemma late_edges m b k hs : forall s s', foldM (link_edge m b k) hs s = Ok s' -> late (eq k) (ws_world s) (ws_world s').
Proof.
  induction hs as [|h hs IH]; intros s s' H; cbn [foldM] in H; [injection H as <-; by apply late_eq|].
  unfold link_edge at 1 in H. destruct h as [|h0 h]; [done|].
  destruct (cs_table _ !! _) as [d|]; cbn [rbind] in H; [|by apply IH].
  eapply late_trans; [apply (late_link m b d k)|by apply IH].
Qed.
Lemma late_edge_saddle m i k s s' : edge_saddle m i k s = Ok s' -> late (eq k) (ws_world s) (ws_world s').
Proof.
  unfold edge_saddle. destruct (hpn_of k s) as [hs|]; [|done]. cbn [rbind].
  destruct (foldM _ _ _) as [s1|] eqn:E; [|done]. cbn [rbind]. intros [= <-]. cbn [ws_world add_feat set_world].
  eapply late_trans; [by eapply late_edges|]. by apply late_eq.
Qed.
Section late.
  Variables (fpath : datamap -> list mpoint -> mpoint -> mpoint -> option (list mpoint * Q)).
  Variables (near : searches) (m : datamap).
  Lemma late_one i o s s' : w_saddles (ws_world s) !! i = Some o -> ft_edge (sa_feat o) = true ->
    ft_kind (sa_feat o) = KRunoff -> walk_one fpath near m i s = Ok s' -> late (eq i) (ws_world s) (ws_world s').
  Proof.
    intros Ho He Hk. unfold walk_one. rewrite Ho, He. unfold walk_border.
    destruct (climb_edges near m i s) as [s1|] eqn:E1; [|done]. cbn [rbind]. apply calm_climb in E1.
    rewrite E1, Ho. rewrite decide_True by done. rewrite <-E1 in Ho |- *. clear E1.
    destruct (decide (ft_hpn (sa_feat o) = [])) as [Hn|Hn].
    - destruct (latlong_to_xy m _ _) as [c|]; [|done]. cbn [rbind]. destruct (cs_table _ !! _) as [d|].
      + set (s2 := link_saddle m true d i s1). assert (C : calm (ws_world s1) (ws_world s2)) by apply calm_link.
        assert (L : late (eq i) (ws_world s1) (ws_world s2)) by apply late_link.
        unfold generate_synthetic_saddles. destruct (w_saddles (ws_world s2) !! i) as [o2|] eqn:Ho2; [|done].
        assert (sa_feat o2 = sa_feat o) as ->.
        { destruct C as (_ & C & _). specialize (C i). rewrite Ho2, Ho in C. by injection C. }
        rewrite Hn. cbn [rbind foldM]. destruct (edge_saddle m i i _) as [s3|] eqn:E3; [|done]. cbn [rbind]. intros [= <-].
        apply late_edge_saddle in E3. cbn [ws_world set_world add_feat] in *. eapply late_trans; [exact L|].
        eapply late_trans; [exact E3|by apply late_eq].
      + intros [= <-]. by apply late_eq.
    - cbn [foldM]. destruct (edge_saddle m i i s1) as [s3|] eqn:E3; [|done]. cbn [rbind]. intros [= <-].
      apply late_edge_saddle in E3. cbn [ws_world set_world add_feat] in *.
      eapply late_trans; [exact E3|by apply late_eq].
  Qed.
  Lemma late_all l : forall s s', (forall i, i ∈ l -> exists o, w_saddles (ws_world s) !! i = Some o /\
      ft_edge (sa_feat o) = true /\ ft_kind (sa_feat o) = KRunoff) ->
    foldM (walk_one fpath near m) l s = Ok s' -> late (fun i => i ∈ l) (ws_world s) (ws_world s').
  Proof.
    induction l as [|i l IH]; intros s s' Hl H; cbn [foldM] in H; [injection H as <-; by apply late_eq|].
    destruct (walk_one fpath near m i s) as [s1|] eqn:E; [|done]. cbn [rbind] in H.
    destruct (Hl i) as (o & Ho & He & Hk); [by left|]. pose proof (late_one i o s s1 Ho He Hk E) as L.
    pose proof (calm_one fpath near m i o s s1 Ho He Hk E) as C.
    eapply late_trans; [eapply late_mono; [|exact L]; intros ? <-; by left|].
    eapply late_mono; [|apply (IH s1 s'); [|done]]; [intros j Hj; by right|]. intros j Hj. destruct (Hl j) as (oj & Hoj & Hej & Hkj); [by right|].
    destruct C as (_ & C & _). specialize (C j). rewrite Hoj in C. destruct (w_saddles (ws_world s1) !! j) as [o'|]; [|done].
    injection C as C. exists o'. by rewrite C.
  Qed.

  Variables (fp : datamap -> list xy -> xy -> xy -> option Q) (orc : xy -> nat -> nat -> nat).
  Hypotheses (Hf : mpaths_found fpath m) (Hnear : sound_searches near m) (Hok : map_ok m) (Hup : north_up m)
    (Hlow : climbable m) (Hpix : pixels_in_reach m) (Hreach : map_in_reach m) (Hfp : paths_found fp m)
    (Hfine : fine_grid m).
  Variables (su sa ru : list feature) (objs : list saddle) (d : dmap) (s : walk_state).
  Hypotheses (Hrun : run_no_rebuild fp orc m = Ok (su, sa, ru)) (Hstd : started m sa objs)
    (Hdm : dm_walk fpath near m (dm_objects su objs ru) = Ok (d, s)).
  Local Notation w := (mp_world d).
  Local Notation w0 := (mp_world (dm_objects su objs ru)).

  (** The links of saddles that are not runoffs come before those of runoffs. *)
  Lemma runoffs_late k l k' l' : w_links w !! k = Some l -> w_links w !! k' = Some l' ->
    ln_saddle l ∈ mp_saddles d -> ln_saddle l' ∈ mp_runoffs d -> k < k'.
  Proof.
    destruct (objects_input fp orc m Hok Hfp su sa ru objs Hrun Hstd) as (I & _ & _).
    pose proof (walked_kind fpath fp orc near m Hf Hnear Hok Hup Hlow Hpix Hreach Hfp Hfine su sa ru objs d s Hrun Hstd Hdm) as Hwk.
    pose proof Hdm as Hdm'. unfold dm_walk in Hdm'.
    destruct (climb_from_saddles _ _ _ _ _ _) as [s'|e] eqn:E; [|done]. cbn [rbind] in Hdm'.
    destruct (walk_mesh2 fpath near m Hf Hnear Hok Hup Hlow Hpix Hreach _ _ (seq 0 (length objs)) (seq (length objs) (length ru)) s' I E)
      as (s1 & E1 & T1 & K1 & K2 & T & R & F & F1 & W).
    { by eapply objects_bare. }
    { by eapply (spots_apart fp orc m). }
    assert (forall i, i ∈ seq (length objs) (length ru) -> exists f, w_saddles w0 !! i = Some (new_saddle f) /\
      ft_edge f = true /\ ft_kind f = KRunoff) as Hru.
    { intros i Hi%elem_of_seq. assert (Hi' : i - length objs < length ru) by lia. apply lookup_lt_is_Some in Hi' as [f Hfi].
      exists f. split; [cbn; rewrite lookup_app_r, list_lookup_fmap, Hfi by lia; done|].
      eapply (runoff_kind fp orc m Hok Hfp su sa ru Hrun). by eapply elem_of_list_lookup_2. }
    assert (forall i, i ∈ seq (length objs) (length ru) -> exists o, w_saddles (ws_world s1) !! i = Some o /\ sa_links o = [] /\
      ft_edge (sa_feat o) = true /\ ft_kind (sa_feat o) = KRunoff) as Hr1.
    { intros i Hi. destruct (Hru i Hi) as (f & Hfi & He & Hk). destruct (K1 i (new_saddle f) Hfi) as (o & Ho & Hof & Hl).
      exists o. split; [done|]. rewrite Hl, Hof; [done|]. apply elem_of_seq in Hi. rewrite elem_of_seq. lia. }
    assert (late (fun i => i ∈ seq (length objs) (length ru)) (ws_world s1) (ws_world s')) as HL.
    { eapply late_all; [|exact E1]. intros i Hi. destruct (Hr1 i Hi) as (o & Ho & _ & He & Hk). by exists o. }
    assert (calm (ws_world s1) (ws_world s')) as HC.
    { eapply (calm_all fpath near m); [|exact E1]. intros i Hi. destruct (Hr1 i Hi) as (o & Ho & _ & He & Hk). by exists o. }
    injection Hdm' as <- <-. cbn [mp_world mp_saddles mp_runoffs]. intros Hl Hl' [Hs _]%elem_of_list_filter [Hs' Hin]%elem_of_list_filter.
    assert (k < length (w_links (ws_world s1))) as Hk.
    { destruct (HL k l Hl) as [H|H]; [by eapply lookup_lt_Some|]. exfalso. destruct (Hr1 _ H) as (o & Ho & _ & _ & Hkd).
      destruct HC as (_ & HC & _). specialize (HC (ln_saddle l)). rewrite Ho in HC. unfold is_runoff in Hs.
      destruct (w_saddles (ws_world s') !! ln_saddle l) as [o'|]; [|done]. cbn in HC. injection HC as HC. apply bool_decide_eq_false in Hs.
      congruence. }
    destruct (decide (k < k')) as [|Hnlt]; [done|]. exfalso. assert (k' < length (w_links (ws_world s1))) as Hk' by lia.
    apply lookup_lt_is_Some in Hk' as [l1 Hl1]. pose proof HC as (C1 & C2 & _ & C4).
    assert (l1 = l') as -> by (pose proof (prefix_lookup _ _ _ _ Hl1 C4); congruence).
    destruct (t_first _ _ T1 k' l' Hl1) as (o & Ho & Hne).
    assert (exists k2, k2 ∈ sa_links o) as [k2 Hk2] by (destruct Hne as [?|(k2 & _ & _ & ? & _)]; eauto).
    specialize (C2 (ln_saddle l')). rewrite Ho in C2. unfold is_runoff in Hs'.
    destruct (w_saddles (ws_world s') !! ln_saddle l') as [o'|] eqn:Ho'; [|done]. cbn in C2. injection C2 as C2. apply bool_decide_eq_true in Hs'.
    destruct (decide (ln_saddle l' ∈ seq (length objs) (length ru))) as [HB|HB].
    - destruct (Hr1 _ HB) as (o2 & Ho2 & En & _). assert (o2 = o) as -> by congruence. rewrite En in Hk2. by apply elem_of_nil in Hk2.
    - destruct (Hwk _ o' Hin HB Ho') as [Hkd _]. congruence.
  Qed.
End late.
