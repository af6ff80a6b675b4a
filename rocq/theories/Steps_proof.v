(** The steps of the walk. *)
From Verif Require Import Tree_spec Walk_model Raster_spec Raster_proof Raster_facts Contig_proof Closest_spec
  Closest_proof Feature_spec Network_spec Rebuild_proof Climb_spec Climb_proof Climb_facts Graph_spec Graph_proof
  Walk_spec Walk_proof Synth_proof Links_proof.
From Coq Require Import ZifyBool.
Local Open Scope Z_scope.

Definition frame_on (T : list nat) (w w' : world) : Prop :=
  forall j o, w_saddles w !! j = Some o -> j ∉ T -> w_saddles w' !! j = Some o.

Lemma frame_on_refl T w : frame_on T w w.
Proof. by intros j o H _. Qed.
Lemma frame_on_trans T w1 w2 w3 : frame_on T w1 w2 -> frame_on T w2 w3 -> frame_on T w1 w3.
Proof. intros H1 H2 j o H Hj. apply H2; [|done]. by apply H1. Qed.
Lemma frame_on_sub T T' w w' : (forall x, x ∈ T -> x ∈ T') -> frame_on T w w' -> frame_on T' w w'.
Proof. intros HT H j o Ho Hj. apply H; [done|]. auto. Qed.
Lemma frame_on_one k w w' : frame k w w' -> frame_on [k] w w'.
Proof. intros H j o Ho Hj. apply H; [done|]. intros ->. apply Hj. by left. Qed.

Section steps.
  Variables (fpath : datamap -> list mpoint -> mpoint -> mpoint -> option (list mpoint * Q)).
  Variables (near : searches) (m : datamap).
  Hypotheses (Hf : mpaths_found fpath m) (Hnear : sound_searches near m) (Hok : map_ok m) (Hup : north_up m)
    (Hlow : climbable m) (Hpix : pixels_in_reach m) (Hreach : map_in_reach m).
  Variable dom : nat -> xy -> Prop.
  Variables (w0 : world) (C : Prop).
  Notation n0 := (length (w_links w0)).
  Notation winv := (winv m dom w0 C).
  Notation rs := (rs C).

  (** *** Climbing *)
  Definition climbed (s s' : climb_state) : Prop :=
    inv m dom s' /\ (C -> complete m s') /\
    forall c, is_Some (cs_table s !! c) -> is_Some (cs_table s' !! c).

  Lemma climb_points_ok g s : inv m dom s -> (C -> complete m s) ->
    (forall z, z ∈ g -> data_cell m (pt_xy z) /\ pt_e z = elev m (pt_xy z)) ->
    rs (fun r => climbed s r.2 /\ (C -> forall z, z ∈ g -> is_Some (cs_table r.2 !! pt_xy z)))
      (climb_points near m g s).
  Proof.
    intros Hi Hc Hg. unfold climb_points.
    apply (rs_fold C _ (fun pre (r : list nat * climb_state) =>
      climbed s r.2 /\ (C -> forall z, z ∈ pre -> is_Some (cs_table r.2 !! pt_xy z)))).
    - intros pre p r [post ->] [(H1 & H2 & H3) H4].
      destruct (Hg p) as [Hd He]; [apply elem_of_app; right; by left|].
      assert (Ep : p = (pt_xy p, elev m (pt_xy p))) by (rewrite <-He; by destruct p).
      pose proof (climb_spec near m Hnear Hok Hup Hlow Hpix dom (pt_xy p) r.2 H1 Hd) as Hs.
      rewrite <-Ep in Hs. destruct (climb near m p r.2) as [[x s']|e]; cbn [rbind].
      + cbn [fst snd Links_proof.rs]. destruct Hs as (I2 & E2 & R2). split.
        * split_and!; [done|intros HC; eapply ext_complete; [done|by apply H2]|].
          intros c Hc'. apply (e_mono _ _ _ _ E2). by apply H3.
        * intros HC z [Hz|Hz%elem_of_list_singleton]%elem_of_app.
          -- apply (e_mono _ _ _ _ E2). by apply H4.
          -- subst z. destruct x as [d|]; [by exists d|]. destruct R2. by apply H2.
      + destruct Hs as [Hs1 Hs2]. split; [done|]. intros HC. apply Hs2. by apply H2.
    - split; [|intros _ z Hz; by apply elem_of_nil in Hz]. split_and!; [done|done|done].
  Qed.

  Lemma climb_edges_ok X k s o : winv X s -> w_saddles (ws_world s) !! k = Some o -> walkable m (sa_feat o) ->
    rs (fun s' => winv X s' /\ ws_world s' = ws_world s /\ ws_feats s' = ws_feats s /\
          (C -> forall g z, g ∈ ft_hpn (sa_feat o) -> z ∈ g -> is_Some (cs_table (ws_climb s') !! pt_xy z)))
       (climb_edges near m k s).
  Proof.
    intros V Ho Hw. unfold climb_edges, hpn_of. rewrite Ho. cbn [rbind].
    apply (rs_bind C (fun c => climbed (ws_climb s) c /\
      (C -> forall g z, g ∈ ft_hpn (sa_feat o) -> z ∈ g -> is_Some (cs_table c !! pt_xy z)))).
    - apply (rs_fold C _ (fun pre c => climbed (ws_climb s) c /\
        (C -> forall g z, g ∈ pre -> z ∈ g -> is_Some (cs_table c !! pt_xy z)))).
      + intros pre g c [post Hpost] [(H1 & H2 & H3) H4].
        eapply rs_bind.
        * apply (climb_points_ok g c H1 H2). intros z Hz.
          destruct (wk_higher _ _ Hw g z) as (? & ? & _); [|done|done].
          rewrite Hpost. apply elem_of_app. right. by left.
        * intros [l c'] [(I1 & I2 & I3) I4]. cbn in *. split.
          -- split_and!; auto.
          -- intros HC g' z [Hg'|Hg'%elem_of_list_singleton]%elem_of_app Hz.
             ++ apply I3. by eapply H4.
             ++ subst g'. by apply I4.
      + split; [|intros _ g z Hg; by apply elem_of_nil in Hg]. split_and!; [apply V|apply (v_complete _ _ _ _ _ _ V)|done].
    - intros c [(I1 & I2 & I3) I4]. cbn. split_and!; try done.
      destruct V as [V1 V2 V3 V4 V5 V6 V7 V8]. split; try done.
      intros j l Hj Hle. by destruct (V2 j l Hj Hle).
  Qed.

  (** *** Linking *)
  (** [k] was linked: only its list of links grew. *)
  Definition linked_step (X : list nat) (k : nat) (o : saddle) (s s' : walk_state) : Prop :=
    winv X s' /\ grow (ws_world s) (ws_world s') /\ frame k (ws_world s) (ws_world s') /\
    (exists L, w_saddles (ws_world s') !! k = Some (set_links L o)) /\
    length (w_saddles (ws_world s')) = length (w_saddles (ws_world s)) /\
    ws_feats s' = ws_feats s /\ ws_climb s' = ws_climb s.

  Lemma linked_step_refl X k o s : winv X s -> w_saddles (ws_world s) !! k = Some o -> linked_step X k o s s.
  Proof.
    intros V Ho. split; [done|]. split; [apply grow_refl|]. split; [apply frame_refl|]. split; [|done].
    exists (sa_links o). rewrite Ho. by destruct o.
  Qed.
  Lemma linked_step_trans X k o L s1 s2 s3 :
    linked_step X k o s1 s2 -> w_saddles (ws_world s2) !! k = Some (set_links L o) ->
    linked_step X k (set_links L o) s2 s3 -> linked_step X k o s1 s3.
  Proof.
    intros (A1 & A2 & A3 & A4 & A5 & A6 & A7) Hk (B1 & B2 & B3 & [L' B4] & B5 & B6 & B7).
    split; [done|]. split; [by eapply grow_trans|]. split; [intros j x H Hj; by apply B3; [apply A3|]|].
    split; [by exists L'|]. split_and!; congruence.
  Qed.

  (** All new links of [k] are in both lists. *)
  Definition listed (k : nat) (s : walk_state) : Prop :=
    forall j l o su, w_links (ws_world s) !! j = Some l -> (n0 <= j)%nat -> ln_saddle l = k ->
      w_saddles (ws_world s) !! k = Some o -> w_summits (ws_world s) !! ln_summit l = Some su ->
      j ∈ sa_links o /\ j ∈ su_links su.

  (** The group [g] of [k] has a link. *)
  Definition side (w : world) (k : nat) (g : list pte) : Prop :=
    exists j l z t, (n0 <= j)%nat /\ w_links w !! j = Some l /\ ln_saddle l = k /\ z ∈ g /\
      dom (ln_summit l) t /\ uphill m (pt_xy z) t.
  Lemma side_grow w w' k g : grow w w' -> side w k g -> side w' k g.
  Proof.
    intros Hg (j & l & z & t & H1 & H2 & H3). exists j, l, z, t. split_and!; try apply H3; [done|by eapply grow_link].
  Qed.

  Lemma link_saddle_step X s ign d k o : winv X s -> w_saddles (ws_world s) !! k = Some o ->
    leads m dom (sa_feat o) d -> k ∈ X ->
    let s' := link_saddle m ign d k s in
    linked_step X k o s s' /\ (ign = false -> listed k s -> listed k s') /\
    w_links (ws_world s') !! length (w_links (ws_world s)) = Some (Link d k false).
  Proof.
    intros V Ho Hl HkX s'.
    destruct (link_saddle_ok m dom w0 C X s ign d k o V Ho Hl HkX)
      as (V' & Hg & Hfr & HL & Hlen & Hft & Hcl & Hin & Hn & Hnew).
    fold s' in V', Hg, Hfr, HL, Hlen, Hft, Hcl, Hin, Hn, Hnew.
    split; [split_and!; done|]. split; [|done].
    intros Hign Hli j l o' su' Hj Hle Hlk Ho' Hsu'.
    destruct (decide (j = length (w_links (ws_world s)))) as [->|Hne].
    - rewrite Hn in Hj. injection Hj as <-. cbn in *. destruct (Hnew Hign su' Hsu') as [H1 H2]. split; [by apply H2|done].
    - assert (Hj0 : w_links (ws_world s) !! j = Some l).
      { destruct (w_links (ws_world s) !! j) as [l0|] eqn:E.
        - rewrite (grow_link _ _ _ _ Hg E) in Hj. done.
        - exfalso. apply lookup_ge_None in E. apply lookup_lt_Some in Hj as Hlt.
          pose proof (v_linkers _ _ _ _ _ _ V) as [_ _].
          unfold s', link_saddle in Hlt. cbn [ws_world] in Hlt.
          rewrite add_remote_links in Hlt. cbn in Hlt. rewrite app_length in Hlt. cbn in Hlt. lia. }
      destruct (lo_ends _ _ _ _ _ _ (v_link _ _ _ _ _ _ V j l Hj0 Hle)) as (o0 & su0 & ds & A1 & A2 & _).
      rewrite Hlk in A1. destruct (Hli j l o0 su0 Hj0 Hle Hlk A1 A2) as [H1 H2].
      destruct (gr_sa _ _ Hg _ _ A1) as (o1 & K1 & _ & K3 & _). destruct (gr_su _ _ Hg _ _ A2) as (su1 & L1 & _ & L3 & _).
      assert (o1 = o') as -> by congruence. assert (su1 = su') as -> by congruence. auto.
  Qed.

  Lemma link_edge_ok X s ign k o g : winv X s -> w_saddles (ws_world s) !! k = Some o ->
    g ∈ ft_hpn (sa_feat o) -> g <> [] -> k ∈ X ->
    exists s', link_edge m ign k g s = Ok s' /\ linked_step X k o s s' /\
      (ign = false -> listed k s -> listed k s') /\
      ((forall z, z ∈ g -> is_Some (cs_table (ws_climb s) !! pt_xy z)) -> side (ws_world s') k g).
  Proof.
    intros V Ho Hg Hne HkX. destruct g as [|h0 g]; [done|]. cbn [link_edge].
    destruct (cs_table (ws_climb s) !! pt_xy h0) as [d|] eqn:Et.
    - destruct (i_sound _ _ _ (v_climb _ _ _ _ _ _ V) _ _ Et) as (t & Hd & Hu).
      assert (Hl : leads m dom (sa_feat o) d).
      { left. exists (h0 :: g), h0, t. split_and!; try done. by left. }
      destruct (link_saddle_step X s ign d k o V Ho Hl HkX) as (H1 & H2 & H3).
      eexists. split; [done|]. split; [done|]. split; [done|]. intros _.
      eexists _, _, h0, t. split; [|split; [exact H3|]].
      + apply V.
      + cbn. split_and!; try done. by left.
    - exists s. split; [done|]. split; [by apply linked_step_refl|]. split; [done|].
      intros Hall. destruct (Hall h0) as [d Hd]; [by left|]. congruence.
  Qed.

  Lemma link_edges_ok X s ign k o : winv X s -> w_saddles (ws_world s) !! k = Some o ->
    (forall g, g ∈ ft_hpn (sa_feat o) -> g <> []) -> k ∈ X ->
    exists s', foldM (link_edge m ign k) (ft_hpn (sa_feat o)) s = Ok s' /\ linked_step X k o s s' /\
      (ign = false -> listed k s -> listed k s') /\
      ((forall g z, g ∈ ft_hpn (sa_feat o) -> z ∈ g -> is_Some (cs_table (ws_climb s) !! pt_xy z)) ->
       forall g, g ∈ ft_hpn (sa_feat o) -> side (ws_world s') k g).
  Proof.
    intros V Ho Hne HkX.
    assert (H : Links_proof.rs True (fun s' => linked_step X k o s s' /\
      (ign = false -> listed k s -> listed k s') /\
      ((forall g z, g ∈ ft_hpn (sa_feat o) -> z ∈ g -> is_Some (cs_table (ws_climb s) !! pt_xy z)) ->
       forall g, g ∈ ft_hpn (sa_feat o) -> side (ws_world s') k g))
      (foldM (link_edge m ign k) (ft_hpn (sa_feat o)) s)).
    2:{ destruct (foldM _ _ _) as [s'|e]; [by exists s'|]. destruct H as [_ H]. by destruct H. }
    apply (rs_fold True _ (fun pre s' => linked_step X k o s s' /\
      (ign = false -> listed k s -> listed k s') /\
      ((forall g z, g ∈ ft_hpn (sa_feat o) -> z ∈ g -> is_Some (cs_table (ws_climb s) !! pt_xy z)) ->
       forall g, g ∈ pre -> side (ws_world s') k g))).
    - intros pre g s1 [post Hpost] (H1 & H2 & H3). pose proof H1 as (A1 & A2 & A3 & [L A4] & A5 & A6 & A7).
      assert (Hg : g ∈ ft_hpn (sa_feat o)) by (rewrite Hpost; apply elem_of_app; right; by left).
      destruct (link_edge_ok X s1 ign k (set_links L o) g A1 A4 Hg (Hne g Hg) HkX) as (s2 & -> & B1 & B2 & B3).
      cbn [Links_proof.rs]. split; [by eapply linked_step_trans|]. split; [auto|].
      intros Hall g' [Hg'|Hg'%elem_of_list_singleton]%elem_of_app.
      + eapply side_grow; [apply B1|]. by apply H3.
      + subst g'. apply B3. intros z Hz. rewrite A7. by eapply Hall.
    - split; [by apply linked_step_refl|]. split; [done|]. intros _ g Hg. by apply elem_of_nil in Hg.
  Qed.

  (** *** Synthetic saddles inside the map *)
  Lemma walk_synthetic_ok X k s o : winv X s -> w_saddles (ws_world s) !! k = Some o -> walkable m (sa_feat o) ->
    k ∉ ws_feats s -> k ∉ X ->
    rs (fun s' => winv X s' /\ grow (ws_world s) (ws_world s') /\ frame k (ws_world s) (ws_world s') /\
          (exists L, w_saddles (ws_world s') !! k = Some (set_links L o)) /\
          length (w_saddles (ws_world s')) = length (w_saddles (ws_world s)) /\
          ws_feats s' = ws_feats s ++ [k] /\
          (C -> forall g, g ∈ ft_hpn (sa_feat o) -> side (ws_world s') k g))
       (walk_synthetic near m k s).
  Proof.
    intros V Ho Hw Hnf HnX. unfold walk_synthetic.
    eapply rs_bind; [by apply (climb_edges_ok X k s o)|].
    intros s1 (V1 & Ew & Ef & Hrec). unfold hpn_of. rewrite Ew, Ho. cbn [rbind].
    assert (Hli : listed k s1).
    { intros j l o' su' Hj Hle Hlk _ _. exfalso.
      destruct (lo_out _ _ _ _ _ _ (v_link _ _ _ _ _ _ V1 j l Hj Hle)) as [H|H]; rewrite Hlk in H; [done|congruence]. }
    assert (V1' : winv (k :: X) s1) by (eapply winv_weaken; [|exact V1]; intros x Hx; by right).
    rewrite <-Ew in Ho.
    destruct (link_edges_ok (k :: X) s1 false k o V1' Ho (wk_groups _ _ Hw) ltac:(by left))
      as (s2 & -> & (A1 & A2 & A3 & A4 & A5 & A6 & A7) & H2 & H3).
    cbn [rbind Links_proof.rs]. split_and!.
    - eapply winv_done; [by apply winv_feat| |].
      + cbn. apply elem_of_app. right. by left.
      + intros j l o' su' Hj Hle Hlk Ho' Hsu'. right. by apply (H2 eq_refl Hli j l o' su').
    - by rewrite <-Ew.
    - by rewrite <-Ew.
    - done.
    - by rewrite <-Ew.
    - cbn. by rewrite A6, Ef.
    - intros HC. apply H3. by apply Hrec.
  Qed.

  (** *** Edge saddles *)
  Lemma edge_saddle_ok X i k s o oi : winv X s -> w_saddles (ws_world s) !! k = Some o -> walkable m (sa_feat o) ->
    w_saddles (ws_world s) !! i = Some oi ->
    (forall x, x ∈ X -> x = i) ->
    exists s', edge_saddle m i k s = Ok s' /\
      winv X s' /\ grow (ws_world s) (ws_world s') /\ frame_on [k; i] (ws_world s) (ws_world s') /\
      length (w_saddles (ws_world s')) = length (w_saddles (ws_world s)) /\
      ws_feats s' = ws_feats s ++ [k] /\ ws_climb s' = ws_climb s /\
      (exists o', w_saddles (ws_world s') !! k = Some o' /\ sa_feat o' = sa_feat o /\ sa_parent o' = Some i) /\
      (exists o', w_saddles (ws_world s') !! i = Some o' /\ sa_feat o' = sa_feat oi /\ sa_over o' = Some true /\
         k ∈ sa_children o' /\ (forall x, x ∈ sa_children oi -> x ∈ sa_children o') /\
         (k <> i -> sa_parent o' = sa_parent oi)) /\
      ((forall g z, g ∈ ft_hpn (sa_feat o) -> z ∈ g -> is_Some (cs_table (ws_climb s) !! pt_xy z)) ->
       forall g, g ∈ ft_hpn (sa_feat o) -> side (ws_world s') k g).
  Proof.
    intros V Ho Hw Hoi HX. unfold edge_saddle, hpn_of. rewrite Ho. cbn [rbind].
    assert (V1 : winv (k :: X) s) by (eapply winv_weaken; [|exact V]; intros x Hx; by right).
    destruct (link_edges_ok (k :: X) s true k o V1 Ho (wk_groups _ _ Hw) ltac:(by left))
      as (s2 & -> & (A1 & A2 & A3 & [L A4] & A5 & A6 & A7) & _ & H3).
    cbn [rbind]. set (w := ws_world s2) in *.
    set (wa := upd_saddle k (set_parent (Some i)) w).
    set (wb := upd_saddle i (fun o => set_children (sa_children o ++ [k]) o) wa).
    set (wc := upd_saddle i (set_over (Some true)) wb).
    eexists. split; [reflexivity|].
    assert (Hlk : forall j, w_saddles wc !! j =
      (if decide (j = i) then fun r => set_over (Some true) <$> ((fun o => set_children (sa_children o ++ [k]) o) <$> r) else id)
      ((if decide (j = k) then fmap (set_parent (Some i)) else id) (w_saddles w !! j))).
    { intros j. unfold wc, wb, wa. rewrite !upd_saddle_lookup. by destruct (decide (j = i)), (decide (j = k)). }
    assert (Hfc : fam_change w wc).
    { eapply fam_change_trans; [apply fam_change_upd|eapply fam_change_trans; [apply fam_change_upd|apply fam_change_upd]];
        intros x; cbn; split_and!; eauto. }
    assert (Hwi : exists oi', w_saddles w !! i = Some oi' /\ sa_feat oi' = sa_feat oi /\ sa_children oi' = sa_children oi /\
      sa_parent oi' = sa_parent oi).
    { destruct (decide (i = k)) as [->|Hik].
      - exists (set_links L o). assert (oi = o) as -> by congruence. by split_and!.
      - exists oi. split_and!; try done. by apply A3. }
    destruct Hwi as (oi' & Hoi' & Fi & Fc & Fp).
    assert (V2 : winv X (add_feat k (set_world wc s2))).
    { eapply winv_done; [apply winv_feat, winv_fam; done| |].
      - cbn. apply elem_of_app. right. by left.
      - intros j l o' su' Hj Hle Hl Ho' Hsu'. left. cbn [add_feat set_world ws_world] in Ho'. rewrite Hlk, A4 in Ho'.
        rewrite (decide_True (P := k = k)) in Ho' by done.
        destruct (decide (k = i)); cbn in Ho'; injection Ho' as <-; by eexists. }
    split; [done|]. cbn [add_feat set_world ws_world ws_feats ws_climb]. split_and!.
    - eapply grow_trans; [exact A2|]. by apply fam_change_grow.
    - intros j x Hj Hnin. rewrite Hlk. apply not_elem_of_cons in Hnin as [Hjk Hnin].
      apply not_elem_of_cons in Hnin as [Hji _]. rewrite !decide_False by done. cbn. by apply A3.
    - unfold wc, wb, wa. cbn. by rewrite !alter_length.
    - by rewrite A6.
    - done.
    - rewrite Hlk, A4. rewrite (decide_True (P := k = k)) by done.
      destruct (decide (k = i)); cbn; eexists; split_and!; reflexivity.
    - rewrite Hlk, Hoi'. rewrite (decide_True (P := i = i)) by done.
      destruct (decide (i = k)) as [->|Hik]; cbn.
      + eexists. split_and!; [done|done|done| | |done].
        * cbn. apply elem_of_app. right. by left.
        * cbn. intros x Hx. apply elem_of_app. left. by rewrite Fc.
      + eexists. split_and!; [done|done|done| | |done].
        * cbn. apply elem_of_app. right. by left.
        * cbn. intros x Hx. apply elem_of_app. left. by rewrite Fc.
    - intros Hall g Hg. eapply side_grow; [apply fam_change_grow; exact Hfc|]. by apply H3.
  Qed.
End steps.
