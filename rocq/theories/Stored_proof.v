(** The result of an analysis has all it refers to. *)
From Verif Require Import Tree_spec Walk_model Basin_model Raster_spec Raster_proof Raster_facts
  Closest_spec Closest_proof Feature_spec Network_spec Climb_spec
  Climb_facts Graph_spec Graph_proof Walk_spec Walk_proof Synth_proof Links_proof Steps_proof One_proof
  Walk_facts Found_proof Again_proof Walked_proof Mesh_proof Run_model Start_proof Terrain_spec Terrain_proof Run_proof
  Rebuilt_proof Basin_spec Basin_proof Search_proof Family_proof Alts_proof Store_spec Store_proof.
From Coq Require Import ZifyBool.
Local Open Scope nat_scope.

(** Detection keeps this if the neighbours of summits that are not dead are
    listed. *)
Lemma whole_marked m fuel d d' : whole d -> dm_detect fuel m d = Ok d' ->
  takes (fun j => j ∈ mp_saddles d) (mp_world d) -> (forall i o, w_saddles (mp_world d) !! i = Some o -> sa_alts o = []) ->
  whole d'.
Proof.
  intros H E HT Ha. unfold dm_detect in E. destruct (disqualify_basin_saddles _ _ _ _) as [w'|] eqn:Ed; [|done].
  cbn in E. injection E as <-.
  pose proof (basin_within m (fun j => j ∈ mp_saddles d) _ _ _ _ Ed HT ltac:(done)) as HA.
  destruct (Basin_facts.basin_marks _ _ _ _ _ Ed) as (S & B & A & M & _).
  destruct H as [H1 H2 H3 H4 H5 H6]. split; cbn.
  - by rewrite (mk_summits _ _ _ _ _ M).
  - split; [apply H2|]. intros i Hi. destruct (proj2 H2 i Hi) as [o Ho]. destruct (mk_saddle _ _ _ _ _ M _ _ Ho) as (o' & Ho' & _). by exists o'.
  - done.
  - split; [apply H4|]. intros k Hk. destruct (proj2 H4 k Hk) as (l & Hl & L1 & L2).
    destruct (mk_link _ _ _ _ _ M _ _ Hl) as (l' & Hl' & E1 & E2 & _). exists l'. by rewrite E1, E2.
  - intros i o' j Hi Ho' Hj. destruct (marked_back _ _ _ _ _ _ _ M Ho') as [o Ho].
    destruct (mk_saddle _ _ _ _ _ M _ _ Ho) as (o2 & Ho2 & _ & _ & E1 & E2 & _). assert (o2 = o') as -> by congruence.
    destruct Hj as [Hj|[Hj|Hj]].
    + apply (H5 i o j Hi Ho). left. by rewrite <-E2.
    + apply (H5 i o j Hi Ho). right. left. by rewrite <-E1.
    + apply (HA) with (i := i) (s := o'); [|done|done]. intros i2 o2' j2 Hi2 Hj2. rewrite (Ha i2 o2' Hi2) in Hj2. by apply elem_of_nil in Hj2.
  - intros a j Haa. unfold domain_saddles. rewrite (mk_summits _ _ _ _ _ M). by apply H6.
Qed.

Section stored.
  Variables (fpath : datamap -> list mpoint -> mpoint -> mpoint -> option (list mpoint * Q)).
  Variables (fp : datamap -> list xy -> xy -> xy -> option Q) (orc : xy -> nat -> nat -> nat).
  Variables (near : searches) (m : datamap).
  Hypotheses (Hf : mpaths_found fpath m) (Hnear : sound_searches near m) (Hok : map_ok m) (Hup : north_up m)
    (Hlow : climbable m) (Hpix : pixels_in_reach m) (Hreach : map_in_reach m) (Hfp : paths_found fp m).

  (** A map without links. *)
  Lemma start_whole su sa ru : whole (dm_objects su (map new_saddle sa) ru).
  Proof.
    split; cbn.
    - split; [apply NoDup_seq|]. intros a Ha%elem_of_seq. apply lookup_lt_is_Some. rewrite map_length. lia.
    - split; [apply NoDup_seq|]. intros i Hi. apply lookup_lt_is_Some. rewrite app_length, !map_length.
      apply elem_of_app in Hi as [Hi|Hi]; apply elem_of_seq in Hi; rewrite ?map_length in Hi; lia.
    - intros i H1%elem_of_seq H2%elem_of_seq. lia.
    - split; [constructor|]. by intros k ?%elem_of_nil.
    - intros i o j _ Ho. rewrite <-map_app in Ho. apply list_lookup_fmap_Some in Ho as (f & _ & ->). cbn.
      intros [?%elem_of_nil|[?|?%elem_of_nil]]; done.
    - intros a j _. unfold domain_saddles. cbn. rewrite list_lookup_fmap. destruct (su !! a); cbn; by intros ?%elem_of_nil.
  Qed.

  Lemma filter_split (w : world) (l : list nat) j : j ∈ l ->
    j ∈ filter (fun i => is_runoff w i = false) l ++ filter (fun i => is_runoff w i = true) l.
  Proof. intros Hj. rewrite elem_of_app, !elem_of_list_filter. destruct (is_runoff w j); auto. Qed.

  Lemma walk_whole su sa ru d s : run_no_rebuild fp orc m = Ok (su, sa, ru) ->
    dm_walk fpath near m (dm_objects su (map new_saddle sa) ru) = Ok (d, s) ->
    whole d /\ takes (fun j => j ∈ mp_saddles d) (mp_world d) /\
    (forall i o, w_saddles (mp_world d) !! i = Some o -> sa_alts o = []).
  Proof.
    intros Hrun Hdm. pose proof (started_found fp orc m Hok Hfp su sa ru Hrun) as Hstd.
    set (objs := map new_saddle sa) in *.
    destruct (objects_input fp orc m Hok Hfp su sa ru objs Hrun Hstd) as (I & _ & _).
    destruct (objects_walk fpath fp orc near m Hf Hnear Hok Hup Hlow Hpix Hreach Hfp su sa ru objs Hrun Hstd)
      as (d2 & s2 & Hdm2 & _ & _ & HL & _ & _). rewrite Hdm in Hdm2. injection Hdm2 as <- <-.
    pose proof (walk_all fpath near m Hf Hnear Hok Hup Hlow Hpix Hreach _ _ _ I) as HA.
    unfold dm_walk in Hdm. destruct (climb_from_saddles _ _ _ _ _ _) as [s'|] eqn:E; [|done]. cbn [rbind] in Hdm. injection Hdm as <- <-.
    cbn [mp_world mp_saddles mp_summits mp_runoffs mp_linkers dm_objects] in HL.
    assert (K : kinv (mp_world (dm_objects su objs ru)) (seq 0 (length objs) ++ seq (length objs) (length ru)) s').
    { apply (walk_kin fpath near m _ _ _ _ E).
      - apply I.
      - intros i Hi. cbn in Hi. destruct (in_feats _ _ _ _ I i Hi) as [o Ho]. exists o. split; [done|].
        destruct (start_feature su ru objs i o Ho) as [[_ Hin]|(_ & f & -> & Hin)].
        + destruct (st_from _ _ _ Hstd o Hin) as (K1 & K2 & _). auto.
        + destruct (Terrain_proof.runoff_kind fp orc m Hok Hfp su sa ru Hrun f Hin) as [R1 R2]. cbn. split; [congruence|]. by right.
      - intros i o Ho. cbn in Ho. unfold objs in Ho. rewrite <-map_app in Ho. by apply list_lookup_fmap_Some in Ho as (f & _ & ->). }
    assert (Hedge : forall j o, w_saddles (ws_world s') !! j = Some o ->
      ft_kind (sa_feat o) = KSaddle \/ (ft_kind (sa_feat o) = KRunoff /\ ft_edge (sa_feat o) = true)).
    { intros j o Ho. destruct (decide (length (w_saddles (mp_world (dm_objects su objs ru))) <= j)) as [Hj|Hj].
      - pose proof (k_new _ _ _ K j Hj ltac:(by eapply lookup_lt_Some)) as Hn. unfold kind_of in Hn. rewrite Ho in Hn. cbn in Hn.
        left. congruence.
      - apply not_le in Hj. apply lookup_lt_is_Some in Hj as [o0 Ho0].
        pose proof (k_feats _ _ _ K j o0 Ho0) as Hfe. rewrite Ho in Hfe. cbn in Hfe. injection Hfe as Hfe. rewrite Hfe.
        destruct (start_feature su ru objs j o0 Ho0) as [[_ Hin]|(_ & f & -> & Hin)].
        + destruct (st_from _ _ _ Hstd o0 Hin) as (K1 & _). by left.
        + right. cbn. destruct (Terrain_proof.runoff_kind fp orc m Hok Hfp su sa ru Hrun f Hin). done. }
    cbn [mp_world mp_saddles mp_summits mp_runoffs mp_linkers dm_objects].
    split; [|split].
    - split; cbn [mp_world mp_saddles mp_summits mp_runoffs mp_linkers].
      + split; [apply NoDup_seq|]. intros a Ha%elem_of_seq. apply lookup_lt_is_Some.
        destruct HA as (w1 & _ & _ & _ & _ & Hlen & _ & G & _). cbn in Hlen. rewrite map_length in Hlen. 
        assert (a < length (w_summits w1)) as [u Hu]%lookup_lt_is_Some by lia.
        destruct (gr_su _ _ G a u Hu) as (u' & Hu' & _). by eapply lookup_lt_Some.
      + split; [apply (k_once _ _ _ K)|]. intros i Hi. apply lookup_lt_is_Some. apply (k_list _ _ _ K).
        rewrite elem_of_app, !elem_of_list_filter in Hi. tauto.
      + intros i [H1 _]%elem_of_list_filter [H2 _]%elem_of_list_filter. congruence.
      + rewrite (wl_linkers _ _ _ _ _ _ _ HL). split; [apply NoDup_seq|]. intros k Hk%elem_of_seq.
        assert (k < length (w_links (ws_world s'))) as Hk' by lia. apply lookup_lt_is_Some in Hk' as [l Hl]. exists l. split; [done|].
        destruct (wl_link _ _ _ _ _ _ _ HL k l Hl ltac:(lia)) as (o & u & ds & P1 & P2 & _ & P4 & P5 & _).
        split; [|by apply filter_split].
        assert (exists f, su !! ln_summit l = Some f) as [f Hfs].
        { destruct P5 as [(g & z & t & _ & _ & (f & Hfs & _) & _)|(_ & t & (f & Hfs & _) & _)]; by exists f. }
        apply elem_of_seq. apply lookup_lt_Some in Hfs. lia.
      + intros i o j [Hr Hi]%elem_of_list_filter Ho Hj. destruct (k_kin _ _ _ K i o Ho) as [Ka Kj].
        destruct (Kj) with (j := j) as [X1 X2].
        * unfold is_runoff in Hr. rewrite Ho in Hr. apply bool_decide_eq_false in Hr. by destruct (Hedge i o Ho) as [|[? _]].
        * rewrite Ka in Hj. destruct Hj as [?|[?|?%elem_of_nil]]; auto. done.
        * apply elem_of_list_filter. split; [|done]. destruct (is_runoff (ws_world s') j) eqn:Er; [|done].
          apply Family_proof.runoff_kind in Er. congruence.
      + intros a j _ Hj. destruct (wl_domain _ _ _ _ _ _ _ HL a j Hj) as [?%elem_of_nil|(k & l & _ & Hl & _ & <-)]; [done|].
        destruct (wl_link _ _ _ _ _ _ _ HL k l Hl ltac:(lia)) as (o & u & ds & _ & _ & _ & P4 & _). by apply filter_split.
    - intros z j Hj Hd. cbn [mp_world] in *. destruct z as [i|a]; cbn in Hj.
      { destruct (w_saddles (ws_world s') !! i); [|by apply elem_of_nil in Hj]. apply elem_of_list_omap in Hj as (k & _ & Hk).
        by destruct (w_links (ws_world s') !! k). }
      destruct (w_summits (ws_world s') !! a) as [u|] eqn:Eu; [|by apply elem_of_nil in Hj].
      apply elem_of_list_omap in Hj as (k & _ & Hk). destruct (w_links (ws_world s') !! k) as [l|] eqn:El; [|done]. cbn in Hk. injection Hk as <-.
      destruct (wl_link _ _ _ _ _ _ _ HL k l El ltac:(lia)) as (o & u' & ds & P1 & _ & _ & P4 & _).
      apply elem_of_list_filter. split; [|done]. cbn in Hd. rewrite P1 in Hd. apply orb_false_iff in Hd as [_ Hd].
      unfold is_runoff. rewrite P1. apply bool_decide_eq_false. intros Hk. destruct (Hedge _ _ P1) as [|[_ He]]; congruence.
    - intros i o Ho. by apply (k_kin _ _ _ K i o).
  Qed.

  Theorem run_whole fuel sparse superSparse d :
    dm_run_with fpath fp orc near fuel sparse superSparse false m = Ok d -> whole d.
  Proof.
    unfold dm_run_with. destruct (run_no_rebuild fp orc m) as [[[su sa] ru]|] eqn:Hrun; [|done]. cbn [rbind].
    rewrite start_objects. destruct superSparse; [intros [= <-]; apply start_whole|].
    destruct (dm_walk _ _ _ _) as [[d1 s]|] eqn:Hw; [|done]. cbn [rbind].
    destruct (walk_whole su sa ru d1 s Hrun Hw) as (H1 & H2 & H3).
    destruct sparse; [by intros [= <-]|]. intros E. by apply (whole_marked m fuel d1).
  Qed.

  Hypothesis (Hfine : fine_grid m).
  Lemma marked_meshed fuel d d' : meshed m d -> dm_detect fuel m d = Ok d' -> meshed m d'.
  Proof.
    intros H E. unfold dm_detect in E. destruct (disqualify_basin_saddles _ _ _ _) as [w'|] eqn:Ed; [|done].
    cbn in E. injection E as <-. destruct (Basin_facts.basin_marks _ _ _ _ _ Ed) as (S & B & A & M & _).
    destruct H as [H1 H2 H3 H4 H5]. split; cbn [mp_world mp_saddles mp_linkers].
    - intros a b Hab. apply H1. unfold summit_same, summit_spot in *. by rewrite (mk_summits _ _ _ _ _ M) in Hab.
    - intros i o' k Hi Ho' Hk. destruct (marked_back _ _ _ _ _ _ _ M Ho') as [o Ho].
      destruct (mk_saddle _ _ _ _ _ M _ _ Ho) as (o2 & Ho2 & _ & E & _). assert (o2 = o') as -> by congruence. rewrite E in Hk.
      destruct (H2 i o k Hi Ho Hk) as (l & Hl & E1 & E2). destruct (mk_link _ _ _ _ _ M _ _ Hl) as (l' & Hl' & _ & E3 & _).
      exists l'. split; [done|]. by rewrite E3.
    - intros k l' Hk Hl'. assert (exists l, w_links (mp_world d) !! k = Some l) as [l Hl].
      { apply lookup_lt_is_Some. rewrite <-(mk_lenl _ _ _ _ _ M). by eapply lookup_lt_Some. }
      destruct (mk_link _ _ _ _ _ M _ _ Hl) as (l2 & Hl2 & E1 & E2 & _). assert (l2 = l') as -> by congruence.
      destruct (H3 k l Hk Hl) as (o & k' & l3 & Ho & Hk' & Hl3 & E3).
      destruct (mk_saddle _ _ _ _ _ M _ _ Ho) as (o2 & Ho2 & _ & E4 & _).
      destruct (mk_link _ _ _ _ _ M _ _ Hl3) as (l4 & Hl4 & E5 & _).
      exists o2, k', l4. rewrite E2, E4, E5, E1. done.
    - intros i x (o' & Ho' & Hd) Hx. rewrite (marked_summits_of _ _ _ _ _ _ M) in Hx. apply (H4 i x); [|done].
      destruct (marked_back _ _ _ _ _ _ _ M Ho') as [o Ho]. exists o. split; [done|].
      destruct (mk_saddle _ _ _ _ _ M _ _ Ho) as (o2 & Ho2 & _ & _ & _ & _ & E4 & E5 & E6 & _). assert (o2 = o') as -> by congruence.
      unfold disqualified in *. rewrite E4 in Hd. destruct (sa_over o); [done|]. apply orb_false_iff in Hd as [D1 D2].
      apply orb_false_iff. split; apply not_true_is_false; intros Ht.
      + rewrite (proj2 E5) in D1; [done|by left].
      + rewrite (proj2 E6) in D2; [done|by left].
    - by eapply Basin_facts.no_override_marked.
  Qed.

  Lemma walk_meshed su sa ru objs d s : run_no_rebuild fp orc m = Ok (su, sa, ru) -> started m sa objs ->
    dm_walk fpath near m (dm_objects su objs ru) = Ok (d, s) -> meshed m d.
  Proof.
    intros Hrun Hstd Hdm.
    destruct (run_mesh fpath fp orc near m Hf Hnear Hok Hup Hlow Hpix Hreach Hfp Hfine su sa ru objs d s Hrun Hstd Hdm) as (T & _).
    destruct (run_claims fpath fp orc near m Hf Hnear Hok Hup Hlow Hpix Hreach Hfp su sa ru objs d s Hrun Hstd Hdm) as (HL & _).
    split.
    - apply T.
    - intros i o k _ Ho Hk. destruct (t_sa _ _ T i o k Ho Hk) as (l & Hl & E). exists l. split; [done|]. split; [done|].
      rewrite (wl_linkers _ _ _ _ _ _ _ HL). apply elem_of_seq. apply lookup_lt_Some in Hl. lia.
    - intros k l Hk Hl. destruct (wl_link _ _ _ _ _ _ _ HL k l Hl ltac:(lia)) as (o & u & ds & P1 & _ & _ & _ & _ & _ & _ & _ & _ & (k' & Hk' & P) & _).
      destruct P as [->|P]; [by exists o, k, l|]. apply link_same_inv in P as (x & x' & Hx & Hx' & Hs & _).
      assert (x = l) as -> by congruence. exists o, k', x'. split_and!; try done. symmetry. by apply (t_apart _ _ T).
    - intros i x. by eapply (listed_saddle fpath fp orc near m).
    - by eapply (walked_override fpath fp orc near m).
  Qed.

  Lemma start_meshed su sa ru : run_no_rebuild fp orc m = Ok (su, sa, ru) -> meshed m (dm_objects su (map new_saddle sa) ru).
  Proof.
    intros Hrun. assert (forall i o, w_saddles (mp_world (dm_objects su (map new_saddle sa) ru)) !! i = Some o -> exists f, o = new_saddle f) as Hn.
    { intros i o Ho. cbn in Ho. rewrite <-map_app in Ho. apply list_lookup_fmap_Some in Ho as (f & _ & ->). by exists f. }
    split.
    - by eapply (spots_apart fp orc m).
    - intros i o k _ Ho. destruct (Hn i o Ho) as [f ->]. by intros ?%elem_of_nil.
    - by intros k l ?%elem_of_nil.
    - intros i x _ Hx. unfold summits_of in Hx. destruct (w_saddles _ !! i) as [o|] eqn:Ho; [|by apply elem_of_nil in Hx].
      destruct (Hn i o Ho) as [f ->]. by apply elem_of_nil in Hx.
    - intros i o Ho. by destruct (Hn i o Ho) as [f ->].
  Qed.

  Theorem run_meshed fuel sparse superSparse d :
    dm_run_with fpath fp orc near fuel sparse superSparse false m = Ok d -> meshed m d.
  Proof.
    unfold dm_run_with. destruct (run_no_rebuild fp orc m) as [[[su sa] ru]|] eqn:Hrun; [|done]. cbn [rbind].
    rewrite start_objects. destruct superSparse; [intros [= <-]; by apply start_meshed|].
    destruct (dm_walk _ _ _ _) as [[d1 s]|] eqn:Hw; [|done]. cbn [rbind].
    pose proof (walk_meshed su sa ru _ d1 s Hrun (started_found fp orc m Hok Hfp su sa ru Hrun) Hw) as H1.
    destruct sparse; [by intros [= <-]|]. intros E. by apply (marked_meshed fuel d1).
  Qed.
End stored.
