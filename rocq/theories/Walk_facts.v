(** The whole walk. *)
From Verif Require Import Tree_spec Walk_model Raster_spec Raster_proof Raster_facts Contig_proof Closest_spec
  Closest_proof Feature_spec Scan_proof Feature_facts Nodata_proof Network_spec Rebuild_proof Climb_spec Climb_proof
  Climb_facts Graph_spec Graph_proof Walk_spec Walk_proof Synth_proof Links_proof Steps_proof One_proof.
From Coq Require Import ZifyBool.
Local Open Scope Z_scope.

(** ** Registering summits *)
Record start_ok (w : world) (summits : list nat) (s : walk_state) : Prop := {
  st_saddles : w_saddles (ws_world s) = w_saddles w;
  st_links : w_links (ws_world s) = w_links w;
  st_rest : ws_feats s = [] /\ ws_linkers s = [] /\ ws_doms s = [];
  st_summits : forall i, w_summits (ws_world s) !! i =
    (fun su => if decide (i ∈ summits /\ su_domain su = None) then Summit (su_feat su) (su_links su) (Some []) else su)
      <$> w_summits w !! i;
  st_table : forall c d, cs_table (ws_climb s) !! c = Some d <-> summit_cell w summits d c;
  st_once : NoDup (map snd (cs_log (ws_climb s)));
  st_log : forall d c, (d, c) ∈ cs_log (ws_climb s) -> summit_cell w summits d c }.

Lemma walk_init_ok m w summits : north_up m -> NoDup summits ->
  (forall i, i ∈ summits -> is_Some (w_summits w !! i)) ->
  (forall d e t, summit_cell w summits d t -> summit_cell w summits e t -> d = e) ->
  (forall i su, i ∈ summits -> w_summits w !! i = Some su -> su_domain su = None -> NoDup (own_cells (su_feat su))) ->
  exists s, walk_init m w summits = Ok s /\ start_ok w summits s.
Proof.
  intros Hup Hnd Hex Huniq Hself.
  assert (H : rs True (start_ok w summits) (walk_init m w summits)).
  2:{ destruct (walk_init m w summits) as [s|e]; [by exists s|]. destruct H as [_ H]. by destruct H. }
  apply (rs_fold True _ (start_ok w)).
  - intros pre i s [post Hpost] [S1 S2 S3 S4 S5 S6 S7].
    assert (Hi : i ∈ summits) by (rewrite Hpost; apply elem_of_app; right; by left).
    assert (Hni : i ∉ pre).
    { intros Hin. rewrite Hpost in Hnd. apply NoDup_app in Hnd as (_ & Hd & _). apply (Hd i Hin). by left. }
    destruct (Hex i Hi) as [su Hsu]. rewrite S4, Hsu. cbn.
    rewrite decide_False by (by intros [? _]).
    assert (Hsub : forall x, x ∈ pre ++ [i] -> x ∈ summits).
    { intros x Hx. rewrite Hpost. rewrite elem_of_app in *. destruct Hx as [|Hx%elem_of_list_singleton]; [by left|].
      right. subst. by left. }
    destruct (su_domain su) as [l|] eqn:Ed; cbn.
    + assert (Hsame : forall d c, summit_cell w (pre ++ [i]) d c <-> summit_cell w pre d c).
      { intros d c. unfold summit_cell. rewrite elem_of_app, elem_of_list_singleton. split; [|intros [? ?]; by split; [left|]].
        intros [[Hd| ->] (su' & H1 & H2 & H3)]; [eauto 6|congruence]. }
      split; try done.
      * intros j. rewrite S4. destruct (w_summits w !! j) as [sj|] eqn:Ej; [|done]. cbn. f_equal.
        destruct (decide (j ∈ pre /\ _)) as [[H1 H2]|H1]; destruct (decide (j ∈ pre ++ [i] /\ _)) as [[H3 H4]|H3]; try done.
        -- destruct H3. split; [apply elem_of_app; by left|done].
        -- apply elem_of_app in H3 as [H3|H3%elem_of_list_singleton]; [by destruct H1|]. congruence.
      * intros c d. by rewrite Hsame.
      * intros d c H. apply Hsame. by apply S7.
    + assert (Hc : summit_cells m (su_feat su) = Ok (own_cells (su_feat su))).
      { unfold summit_cells, own_cells. destruct (ft_multi _); [|done].
        unfold ft_latlon. rewrite latlon_round_trip by apply Hup. cbn. by destruct (ft_pos _). }
      rewrite Hc. cbn [rbind rs].
      assert (Hsame : forall d c, summit_cell w (pre ++ [i]) d c <->
        summit_cell w pre d c \/ (d = i /\ c ∈ own_cells (su_feat su))).
      { intros d c. unfold summit_cell. rewrite elem_of_app, elem_of_list_singleton. split.
        - intros [[Hd| ->] (su' & H1 & H2 & H3)]; [left; eauto 6|]. right. assert (su' = su) as -> by congruence. done.
        - intros [[? ?]|[-> H]]; [split; [by left|done]|]. split; [by right|eauto]. }
      assert (Hnew : forall c, c ∈ own_cells (su_feat su) -> summit_cell w summits i c).
      { intros c Hcc. split; [done|eauto]. }
      split; cbn [ws_world ws_climb ws_feats ws_linkers ws_doms]; try done.
      * intros j. rewrite upd_summit_lookup, S4. destruct (decide (j = i)) as [->|Hj].
        -- rewrite Hsu. cbn. rewrite decide_False by (by intros [? _]). rewrite decide_True; [done|].
           split; [|done]. apply elem_of_app. right. by left.
        -- destruct (w_summits w !! j) as [sj|] eqn:Ej; [|done]. cbn. f_equal.
           destruct (decide (j ∈ pre /\ _)) as [[H1 H2]|H1]; destruct (decide (j ∈ pre ++ [i] /\ _)) as [[H3 H4]|H3]; try done.
           ++ destruct H3. split; [apply elem_of_app; by left|done].
           ++ apply elem_of_app in H3 as [H3|H3%elem_of_list_singleton]; [by destruct H1|]. congruence.
      * intros c d. rewrite extend_table, Hsame. destruct (decide (c ∈ own_cells (su_feat su))) as [Hin|Hin].
        -- split; [intros [= <-]; by right|]. intros [Hd|[-> _]]; [|done]. f_equal. apply (Huniq i d c); [by apply Hnew|].
           destruct Hd as [Hd1 Hd2]. split; [|done]. apply Hsub, elem_of_app. by left.
        -- rewrite S5. split; [by left|]. intros [|[_ ?]]; done.
      * rewrite extend_log, map_app, map_map. cbn. rewrite map_id. apply NoDup_app. split_and!; [done| |by eapply Hself].
        intros c Hc1 Hc2. apply elem_of_list_fmap in Hc1 as ([d c'] & -> & Hc1). cbn in Hc2.
        pose proof (S7 _ _ Hc1) as Hd. assert (d = i) as ->.
        { apply (Huniq d i c'); [|by apply Hnew]. destruct Hd as [Hd1 Hd2]. split; [|done]. apply Hsub, elem_of_app. by left. }
        destruct Hd as [Hd _]. done.
      * intros d c Hin. rewrite extend_log in Hin. apply Hsame. apply elem_of_app in Hin as [Hin|Hin].
        -- left. by apply S7.
        -- apply elem_of_list_fmap in Hin as (c' & [= -> ->] & Hc'). by right.
  - split; try done.
    + intros i. destruct (w_summits w !! i) as [su|] eqn:E; cbn; rewrite E; [|done]. cbn.
      rewrite decide_False; [done|]. intros [H _]. by apply elem_of_nil in H.
    + intros c d. cbn. split; [done|]. intros [H _]. by apply elem_of_nil in H.
    + cbn. constructor.
    + intros d c H. by apply elem_of_nil in H.
Qed.

(** ** All saddles *)
Lemma in_feats' m w summits feats : walk_input m w summits feats -> forall i, i ∈ feats ->
  exists o, w_saddles w !! i = Some o /\ walkable m (sa_feat o).
Proof.
  intros I i Hi. destruct (in_feats _ _ _ _ I i Hi) as [o Ho]. exists o. split; [done|].
  apply (in_walk _ _ _ _ I). apply elem_of_list_fmap. exists o. split; [done|]. by eapply elem_of_list_lookup_2.
Qed.
Section all.
  Variables (fpath : datamap -> list mpoint -> mpoint -> mpoint -> option (list mpoint * Q)).
  Variables (near : searches) (m : datamap).
  Hypotheses (Hf : mpaths_found fpath m) (Hnear : sound_searches near m) (Hok : map_ok m) (Hup : north_up m)
    (Hlow : climbable m) (Hpix : pixels_in_reach m) (Hreach : map_in_reach m).

  Definition walk_post (w : world) (summits feats : list nat) (C : Prop) (s : walk_state) : Prop :=
    exists w1, w_links w1 = w_links w /\ w_saddles w1 = w_saddles w /\
      (forall d, domain_saddles w1 d = domain_saddles w d) /\
      (forall d su, w_summits w !! d = Some su -> exists su1, w_summits w1 !! d = Some su1 /\ su_feat su1 = su_feat su) /\
      length (w_summits w1) = length (w_summits w) /\
      winv m (summit_cell w summits) w1 C [] s /\ grow w1 (ws_world s) /\
      frame_on feats w1 (ws_world s) /\
      exists segs, ws_feats s = concat segs /\ length segs = length feats /\
        forall x i o, feats !! x = Some i -> w_saddles w !! i = Some o -> exists ps seg, segs !! x = Some seg /\
          contributes (ws_world s) (length (w_saddles w)) (length (w_links w)) i (sa_feat o) ps seg /\ (forall p, p ∈ ps -> p ∈ seg) /\
          (C -> forall p, p ∈ ps -> all_sides_linked m (summit_cell w summits) (ws_world s) (length (w_links w)) p).

  Lemma contributes_frame w w' n n0 i j f ps seg : contributes w n n0 i f ps seg -> frame_on [j] w w' -> i <> j -> (j < n)%nat ->
    (exists o, w_saddles w !! i = Some o) ->
    contributes w' n n0 i f ps seg.
  Proof.
    intros (H1 & H2 & H3) Hfr Hij Hj [oi Hoi].
    assert (Hkeep : forall p o, (p = i \/ (n <= p)%nat) -> w_saddles w !! p = Some o -> w_saddles w' !! p = Some o).
    { intros p o Hp Ho. apply Hfr; [done|]. intros ->%elem_of_list_singleton. destruct Hp; [done|lia]. }
    assert (Hps : forall p, p ∈ ps -> p = i \/ (n <= p)%nat).
    { intros p Hp. destruct H1 as [[-> _]|(_ & _ & _ & Hn & _)]; [left; by apply elem_of_list_singleton|right; by apply Hn]. }
    assert (Hps2 : forall p, p ∈ ps -> exists o, w_saddles w !! p = Some o).
    { intros p Hp. destruct H1 as [[-> _]|(_ & _ & _ & _ & es & _ & Hn)].
      - apply elem_of_list_singleton in Hp as ->. eauto.
      - apply elem_of_list_lookup in Hp as [x Hx].
        destruct (Forall2_lookup_l _ _ _ _ _ Hn Hx) as (e & _ & o & _ & _ & _ & _ & _ & Ho & _). eauto. }
    assert (Hpar : forall p, p ∈ ps -> parent_of w' p = parent_of w p).
    { intros p Hp. destruct (Hps2 p Hp) as [o Ho]. unfold parent_of. by rewrite Ho, (Hkeep p o (Hps p Hp) Ho). }
    split; [|split].
    - destruct H1 as [H1|(A1 & A2 & A3 & A4 & es & A5 & A6)]; [by left|right]. split_and!; try done.
      exists es. split; [done|]. rewrite Forall2_lookup in *. intros x. specialize (A6 x).
      destruct (ps !! x) as [p|] eqn:Ep; inversion A6 as [? e HA|]; subst; constructor.
      destruct HA as (o & pos & ga & gb & g & h & Ho & Hr). exists o, pos, ga, gb, g, h. split; [|done].
      apply Hkeep; [|done]. apply Hps. by eapply elem_of_list_lookup_2.
    - intros E. destruct (H2 E) as [-> H4]. split; [done|]. intros p Hp Hpi. rewrite Hpar by done. by apply H4.
    - intros E. destruct (H3 E) as [(-> & (o & Ho & Hov) & H4)|(Q1 & Q2 & Q3 & o & Q4 & Q5)].
      2:{ right. split; [done|]. split; [done|]. split; [done|]. exists o. split; [|done]. apply Hkeep; [by left|done]. }
      left. split; [done|]. split.
      + exists o. split; [|done]. apply Hkeep; [by left|done].
      + intros p Hp. rewrite Hpar by done. unfold children_of. rewrite (Hkeep i oi) by auto.
        destruct (H4 p Hp) as [P1 P2]. unfold children_of in P2. rewrite Hoi in P2. by split.
  Qed.

  Lemma walk_all w summits feats : walk_input m w summits feats ->
    rs (all_peaks m w summits) (walk_post w summits feats (all_peaks m w summits))
      (climb_from_saddles fpath near m w summits feats).
  Proof.
    intros I. unfold climb_from_saddles.
    destruct (walk_init_ok m w summits Hup) as (s0 & -> & S); [apply I..|]. cbn [rbind].
    set (C := all_peaks m w summits). set (dom := summit_cell w summits) in *.
    destruct S as [S1 S2 (S3a & S3b & S3c) S4 S5 S6 S7].
    set (w1 := ws_world s0) in *.
    assert (Hsum1 : forall d su, w_summits w !! d = Some su -> exists su1, w_summits w1 !! d = Some su1 /\
      su_feat su1 = su_feat su /\ su_links su1 = su_links su).
    { intros d su Hd. rewrite S4, Hd. cbn. eexists. split; [done|]. by destruct (decide _). }
    assert (Hdom1 : forall d, domain_saddles w1 d = domain_saddles w d).
    { intros d. unfold domain_saddles. rewrite S4. destruct (w_summits w !! d) as [su|]; [|done]. cbn.
      destruct (decide _) as [[_ E]|]; [|done]. by rewrite E. }
    assert (V0 : winv m dom w1 C [] s0).
    { split.
      - split; [done|]. rewrite S3b, Nat.sub_diag. done.
      - intros k l Hk Hle. apply lookup_lt_Some in Hk. fold w1 in Hk. lia.
      - intros i o k Ho Hk Hle. fold w1 in Ho. rewrite S1 in Ho. pose proof (in_links _ _ _ _ I i o k Ho Hk).
        rewrite S2 in Hle. lia.
      - intros d su k Hd Hk Hle. fold w1 in Hd. rewrite S4 in Hd. destruct (w_summits w !! d) as [su0|] eqn:E; [|done].
        cbn in Hd. assert (Hk' : k ∈ su_links su0).
        { injection Hd as <-. by destruct (decide _). }
        pose proof (in_sulinks _ _ _ _ I d su0 k E Hk'). rewrite S2 in Hle. lia.
      - intros d x Hx. by left.
      - intros d t (Hd & su & Hsu & Hn & _). fold w1. rewrite S4, Hsu. cbn. eexists. split; [done|].
        rewrite decide_True by done. by eexists.
      - split.
        + intros c d H. apply S5 in H. exists c. split; [done|]. by eapply uphill_refl, (in_cells _ _ _ _ I).
        + done.
        + intros d c H. left. apply S5. by apply S7.
        + intros d t H _. by apply S5.
      - intros HC p Hp. destruct (HC p Hp) as [d Hd]. exists d. by apply S5. }
    assert (Hfin : rs C (fun s => winv m dom w1 C [] s /\ grow w1 (ws_world s) /\ frame_on feats w1 (ws_world s) /\
      (length (w_saddles w) <= length (w_saddles (ws_world s)))%nat /\
      (forall x, x ∈ ws_feats s -> x ∈ feats \/ (length (w_saddles w) <= x < length (w_saddles (ws_world s)))%nat) /\
      exists segs, ws_feats s = concat segs /\ length segs = length feats /\
        forall x i o, feats !! x = Some i -> w_saddles w !! i = Some o -> exists ps seg, segs !! x = Some seg /\
          contributes (ws_world s) (length (w_saddles w)) (length (w_links w)) i (sa_feat o) ps seg /\ (forall p, p ∈ ps -> p ∈ seg) /\
          (C -> forall p, p ∈ ps -> all_sides_linked m dom (ws_world s) (length (w_links w1)) p))
      (foldM (walk_one fpath near m) feats s0)).
    { apply (rs_fold C _ (fun pre s => winv m dom w1 C [] s /\ grow w1 (ws_world s) /\ frame_on pre w1 (ws_world s) /\
      (length (w_saddles w) <= length (w_saddles (ws_world s)))%nat /\
      (forall x, x ∈ ws_feats s -> x ∈ pre \/ (length (w_saddles w) <= x < length (w_saddles (ws_world s)))%nat) /\
      exists segs, ws_feats s = concat segs /\ length segs = length pre /\
        forall x i o, pre !! x = Some i -> w_saddles w !! i = Some o -> exists ps seg, segs !! x = Some seg /\
          contributes (ws_world s) (length (w_saddles w)) (length (w_links w)) i (sa_feat o) ps seg /\ (forall p, p ∈ ps -> p ∈ seg) /\
          (C -> forall p, p ∈ ps -> all_sides_linked m dom (ws_world s) (length (w_links w1)) p))).
      - intros pre i s [post Hpost] (A1 & A2 & A3 & A4 & A5 & segs & A6 & A7 & A8).
        assert (Hi : i ∈ feats) by (rewrite Hpost; apply elem_of_app; right; by left).
        assert (Hni : i ∉ pre).
        { pose proof (in_featnd _ _ _ _ I) as Hnd. intros Hin. rewrite Hpost in Hnd.
          apply NoDup_app in Hnd as (_ & Hd & _). apply (Hd i Hin). by left. }
        destruct (in_feats' _ _ _ _ I i Hi) as (o & Ho & Hw).
        assert (Ho1 : w_saddles w1 !! i = Some o) by (by rewrite S1).
        pose proof (A3 i o Ho1 Hni) as Hos. apply lookup_lt_Some in Ho as Hlt.
        eapply rs_weaken.
        { apply (walk_one_ok fpath near m Hf Hnear Hok Hup Hlow Hpix Hreach dom w1 C (length (w_saddles w)) i s o); try done.
          - intros Hin. destruct (A5 i Hin) as [|?]; [done|lia].
          - intros x Hx. destruct (A5 x Hx) as [Hxp|?]; [|lia].
            destruct (in_feats' _ _ _ _ I x) as (ox & Hox & _); [rewrite Hpost; apply elem_of_app; by left|].
            apply lookup_lt_Some in Hox. lia. }
        intros s' (B1 & B2 & B3 & B4 & ps & seg & B5 & B6 & B7 & B8 & B9). rewrite S2 in B6.
        split; [done|]. split; [by eapply grow_trans|]. split; [|split; [lia|split]].
        + intros j x Hx Hj. apply B3; [apply A3; [done|]|].
          * intros Hjp. apply Hj, elem_of_app. by left.
          * intros Hjp. apply Hj, elem_of_app. by right.
        + intros x Hx. rewrite B5 in Hx. rewrite elem_of_app, elem_of_list_singleton. apply elem_of_app in Hx as [Hx|Hx].
          * destruct (A5 x Hx) as [|?]; [by left; left|right; lia].
          * destruct (B7 x Hx) as [|[? ?]]; [by left; right|right; lia].
        + exists (segs ++ [seg]). split_and!.
          * by rewrite B5, A6, concat_app; cbn; rewrite app_nil_r.
          * rewrite !app_length, A7. done.
          * intros x j oj Hx Hoj. apply lookup_app_Some in Hx as [Hx|[Hge Hx]].
            -- destruct (A8 x j oj Hx Hoj) as (ps' & seg' & D1 & D2 & D2b & D3). exists ps', seg'.
               assert (Hjp : j ∈ pre) by (by eapply elem_of_list_lookup_2).
               assert (Hji : j <> i) by (by intros ->).
               destruct (gr_sa _ _ A2 j oj) as (oj' & Hoj' & _); [by rewrite S1|].
               split_and!; [by apply lookup_app_l_Some|by eapply contributes_frame; eauto|done|].
               intros HC p Hp.
               assert (Hpo : exists op, w_saddles (ws_world s) !! p = Some op).
               { destruct D2 as ([[-> _]|(_ & _ & _ & _ & es & _ & Hn)] & _).
                 - apply elem_of_list_singleton in Hp as ->. eauto.
                 - apply elem_of_list_lookup in Hp as [y Hy].
                   destruct (Forall2_lookup_l _ _ _ _ _ Hn Hy) as (e & _ & op & _ & _ & _ & _ & _ & Hop & _). eauto. }
               destruct Hpo as [op Hop]. eapply all_sides_grow; [exact B2|exact Hop|by apply D3].
            -- destruct (x - length pre)%nat as [|y] eqn:Ex; [|done]. cbn in Hx. injection Hx as <-.
               assert (oj = o) as -> by congruence. exists ps, seg. split_and!; try done.
               rewrite lookup_app_r by lia. by replace (x - length segs)%nat with 0%nat by lia.
      - split; [done|]. split; [apply grow_refl|]. split; [apply frame_on_refl|]. split; [fold w1; by rewrite S1|]. split.
        + intros x Hx. rewrite S3a in Hx. by apply elem_of_nil in Hx.
        + exists []. rewrite S3a. split_and!; try done. }
    eapply rs_weaken; [exact Hfin|]. intros s (A1 & A2 & A3 & A4 & A5 & segs & A6 & A7 & A8).
    exists w1. split; [done|]. split; [done|]. split; [done|]. split.
    { intros d su Hd. destruct (Hsum1 d su Hd) as (su1 & H1 & H2 & _). by exists su1. }
    split.
    { apply Nat.le_antisymm; apply Nat.nlt_ge; intros Hlt.
      - apply lookup_lt_is_Some in Hlt as [x Hx]. rewrite S4, (proj2 (lookup_ge_None _ _)) in Hx by done. done.
      - apply lookup_lt_is_Some in Hlt as [x Hx]. destruct (Hsum1 _ _ Hx) as (y & Hy & _).
        apply lookup_lt_Some in Hy. lia. }
    split; [done|]. split; [done|]. split; [done|]. exists segs. split_and!; try done.
    intros x i o Hx Ho. destruct (A8 x i o Hx Ho) as (ps & seg & H1 & H2 & H3 & H4). exists ps, seg.
    rewrite S2 in H4. done.
  Qed.
End all.
