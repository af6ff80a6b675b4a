(** The purged result of an analysis has all it refers to. *)
From Verif Require Import Tree_spec Walk_model Basin_model Raster_spec Raster_proof Raster_facts
  Closest_spec Closest_proof Feature_spec Network_spec Climb_spec
  Climb_facts Graph_spec Graph_proof Walk_spec Walk_proof Synth_proof Links_proof Steps_proof One_proof
  Walk_facts Found_proof Again_proof Walked_proof Mesh_proof Run_model Start_proof Terrain_spec Terrain_proof Run_proof
  Rebuilt_proof Basin_spec Basin_proof Search_proof Family_proof Alts_proof Store_spec Store_proof Stored_proof
  Cull_spec Cull_proof Keep_walk_proof Keep_alts_proof Keep_purge_proof.
From Coq Require Import ZifyBool.
Local Open Scope nat_scope.

Section kept_run.
  Variables (fpath : datamap -> list mpoint -> mpoint -> mpoint -> option (list mpoint * Q)).
  Variables (fp : datamap -> list xy -> xy -> xy -> option Q) (orc : xy -> nat -> nat -> nat).
  Variables (near : searches) (m : datamap).
  Hypotheses (Hf : mpaths_found fpath m) (Hnear : sound_searches near m) (Hok : map_ok m) (Hup : north_up m)
    (Hlow : climbable m) (Hpix : pixels_in_reach m) (Hreach : map_in_reach m) (Hfp : paths_found fp m)
    (Hfine : fine_grid m).

  Theorem run_prunable fuel a b d : dm_run_with fpath fp orc near fuel false false false m = Ok d -> prunable a b false d.
  Proof.
    unfold dm_run_with. destruct (run_no_rebuild fp orc m) as [[[su sa] ru]|] eqn:Hrun; [|done]. cbn [rbind].
    rewrite start_objects. destruct (dm_walk _ _ _ _) as [[d1 s]|] eqn:Hw; [|done]. cbn [rbind]. intros Hdet.
    pose proof (started_found fp orc m Hok Hfp su sa ru Hrun) as Hstd.
    destruct (walk_whole fpath fp orc near m Hf Hnear Hok Hup Hlow Hpix Hreach Hfp su sa ru d1 s Hrun Hw) as (_ & _ & Hnoalt).
    pose proof (walk_meshed fpath fp orc near m Hf Hnear Hok Hup Hlow Hpix Hreach Hfp Hfine su sa ru _ d1 s Hrun Hstd Hw) as Hmesh.
    destruct (run_mesh fpath fp orc near m Hf Hnear Hok Hup Hlow Hpix Hreach Hfp Hfine su sa ru _ d1 s Hrun Hstd Hw) as (T & _).
    destruct (run_claims fpath fp orc near m Hf Hnear Hok Hup Hlow Hpix Hreach Hfp su sa ru _ d1 s Hrun Hstd Hw) as (HL & _).
    destruct (objects_input fp orc m Hok Hfp su sa ru _ Hrun Hstd) as (I & _ & _).
    assert (raised (fun _ => False) (mp_world d1)) as [Hkids Hpar].
    { unfold dm_walk in Hw. destruct (climb_from_saddles _ _ _ _ _ _) as [s'|] eqn:E; [|done]. cbn [rbind] in Hw. injection Hw as <- <-.
      cbn [mp_world]. apply (walk_raised fpath near m _ _ _ _ E).
      - apply I.
      - intros i Hi. destruct (in_feats _ _ _ _ I i Hi) as [o Ho]. by eapply lookup_lt_Some.
      - intros i o Ho. cbn in Ho. rewrite <-map_app in Ho. by apply list_lookup_fmap_Some in Ho as (f & _ & ->). }
    unfold dm_detect in Hdet. destruct (disqualify_basin_saddles _ _ _ _) as [w1|] eqn:E; [|done]. cbn [rbind] in Hdet.
    injection Hdet as <-.
    destruct (Basin_facts.basin_marks m fuel _ _ _ E) as (S & B & A & M & HS & HB).
    assert (full w1) as Hfull.
    { apply (basin_full m _ _ _ _ E). intros i j Hj. unfold alts_of in Hj.
      destruct (w_saddles (mp_world d1) !! i) as [o|] eqn:Ho; [|by apply elem_of_nil in Hj]. cbn in Hj.
      rewrite (Hnoalt i o Ho) in Hj. by apply elem_of_nil in Hj. }
    assert (forall i o', w_saddles w1 !! i = Some o' -> exists o, w_saddles (mp_world d1) !! i = Some o /\ sa_links o' = sa_links o /\
      sa_parent o' = sa_parent o /\ sa_children o' = sa_children o /\ (sa_single o' = true -> i ∈ S) /\ (sa_basin o' = true -> i ∈ B)) as Hback.
    { intros i o' Ho'. destruct (marked_back _ _ _ _ _ _ _ M Ho') as [o Ho]. exists o. split; [done|].
      destruct (mk_saddle _ _ _ _ _ M _ _ Ho) as (o2 & Ho2 & _ & F1 & F2 & F3 & _ & F4 & F5 & _). assert (o2 = o') as -> by congruence.
      destruct (t_flags _ _ T i o Ho) as (G1 & G2 & _). split_and!; try done.
      - intros Hs. apply F4 in Hs as [?|?]; [congruence|done].
      - intros Hs. apply F5 in Hs as [?|?]; [congruence|done]. }
    assert (forall i, parent_of w1 i = parent_of (mp_world d1) i /\ children_of w1 i = children_of (mp_world d1) i) as Hrel.
    { intros i. unfold parent_of, children_of. destruct (w_saddles w1 !! i) as [o'|] eqn:Ho'.
      - destruct (Hback i o' Ho') as (o & -> & _ & F1 & F2 & _). cbn. auto.
      - destruct (w_saddles (mp_world d1) !! i) as [o|] eqn:Ho; [|done].
        destruct (mk_saddle _ _ _ _ _ M _ _ Ho) as (o2 & Ho2 & _). congruence. }
    split; cbn [mp_world mp_linkers mp_summits mp_saddles].
    - intros i o' k Ho' Hk. destruct (Hback i o' Ho') as (o & Ho & El & _). rewrite El in Hk.
      destruct (t_sa _ _ T i o k Ho Hk) as (l & Hl & Es). destruct (mk_link _ _ _ _ _ M _ _ Hl) as (l' & Hl' & _ & F & _).
      exists l'. split_and!; [done|congruence|]. rewrite (wl_linkers _ _ _ _ _ _ _ HL). apply elem_of_seq. apply lookup_lt_Some in Hl. lia.
    - intros i o' Ho'. destruct (Hback i o' Ho') as (o & Ho & El & _). rewrite El. by apply (t_sand _ _ T i).
    - intros y j _ Hj. unfold domain_saddles in Hj. rewrite (mk_summits _ _ _ _ _ M) in Hj.
      destruct (wl_domain _ _ _ _ _ _ _ HL y j Hj) as [?%elem_of_nil|(k & l & _ & Hl & El & Es)]; [done|].
      destruct (me_back m d1 Hmesh k l) as (o & k' & l' & Ho & Hk' & Hl' & E'); [|done|].
      { rewrite (wl_linkers _ _ _ _ _ _ _ HL). apply elem_of_seq. apply lookup_lt_Some in Hl. lia. }
      rewrite (marked_summits_of _ _ _ _ _ _ M). unfold summits_of. rewrite <-Es, Ho. apply elem_of_list_omap. exists k'. split; [done|].
      rewrite Hl'. cbn. by rewrite E', El.
    - intros p x. destruct (Hrel p) as [_ ->], (Hrel x) as [-> _]. apply Hkids.
    - intros i j. destruct (Hrel i) as [-> _]. intros Hij. destruct (Hpar i j Hij) as [[]|Hov].
      destruct (goes a b false w1 j) eqn:Eg; [|done]. exfalso. unfold over_at in Hov.
      destruct (w_saddles (mp_world d1) !! j) as [o|] eqn:Ho; [|done]. cbn in Hov.
      destruct (mk_saddle _ _ _ _ _ M _ _ Ho) as (o' & Ho' & _). destruct (Hback j o' Ho') as (o2 & Ho2 & _ & _ & _ & F1 & F2).
      assert (exists o, w_saddles (mp_world d1) !! j = Some o /\ disqualified o = false) as (o3 & Ho3 & Hd).
      { destruct (goes_flagged _ _ _ _ _ _ Ho' Eg) as [Hs|Hs].
        - apply F1, HS in Hs as (_ & (o3 & ? & ?) & _). by exists o3.
        - destruct (HB j (or_introl (F2 Hs))) as [(o3 & ? & ? & _) _]. by exists o3. }
      assert (o3 = o) as -> by congruence. unfold disqualified in Hd. by rewrite Hov in Hd.
    - intros i j _ Hj. pose proof (Hfull i j Hj) as Hne. destruct (goes a b false w1 j) eqn:Eg; [|done]. exfalso. unfold goes in Eg.
      destruct (w_saddles w1 !! j) as [o'|] eqn:Ho'; [|done]. apply bool_decide_eq_true in Eg.
      assert (sa_alts o' <> []) as Hne' by (unfold alts_of in Hne; by rewrite Ho' in Hne).
      destruct Eg as [[_ ?]|[(_ & _ & ?)|[Hs _]]]; [done|done|].
      destruct (Hback j o' Ho') as (o & Ho & _ & _ & _ & F1 & _).
      assert (j ∈ A) as HA.
      { destruct (decide (j ∈ A)) as [|HnA]; [done|]. destruct Hne. rewrite (marked_alts _ _ _ _ _ _ M HnA). unfold alts_of.
        rewrite Ho. cbn. by apply (Hnoalt j). }
      destruct (HB j (or_intror HA)) as [_ Hov]. destruct (Hov (F1 Hs)) as (o2 & Ho2 & Eo).
      by apply (me_over m d1 Hmesh j o2).
  Qed.

  Theorem kept_whole fuel a b d : dm_run_with fpath fp orc near fuel false false false m = Ok d ->
    whole (purge_saddles m a b false d) /\ meshed m (purge_saddles m a b false d).
  Proof.
    intros Hd. pose proof (run_prunable fuel a b d Hd) as P. split.
    - apply keep_whole; [|done]. by eapply run_whole.
    - apply keep_meshed; [|done]. by eapply run_meshed.
  Qed.
End kept_run.
