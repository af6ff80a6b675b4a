(** The divide tree of the loaded result of an analysis. *)
From Verif Require Import Run_model Walk_model Raster_spec Closest_spec Feature_spec Network_spec Climb_spec Graph_spec
  Walk_spec Basin_model Terrain_spec Run_spec Rebuilt_spec Mesh_proof Start_proof Terrain_proof Run_proof Rebuilt_proof
  Basin_proof Forest_proof Detect_proof Search_proof Climb_facts Closest_proof Divide_model Divide_proof Region_proof Region_run_proof
  Persist_model Persist_spec Store_model Store_spec Basin_spec Store_proof Stored_proof Divide_spec Region_spec Late_proof
  Revive_model Revive_spec Revive_proof.
Local Open Scope nat_scope.

Section run.
  Variables (fpath : datamap -> list mpoint -> mpoint -> mpoint -> option (list mpoint * Q)).
  Variables (fp : datamap -> list xy -> xy -> xy -> option Q) (orc : xy -> nat -> nat -> nat).
  Variables (near : searches) (m : datamap).
  Hypotheses (Hf : mpaths_found fpath m) (Hnear : sound_searches near m) (Hok : map_ok m) (Hup : north_up m)
    (Hlow : climbable m) (Hpix : pixels_in_reach m) (Hreach : map_in_reach m) (Hfp : paths_found fp m)
    (Hfine : fine_grid m).

  (** Detection keeps the number of links and objects and what leads where. *)
  Lemma detect_parts fuel d d' : dm_detect fuel m d = Ok d' ->
    mp_saddles d' = mp_saddles d /\ mp_runoffs d' = mp_runoffs d /\ mp_summits d' = mp_summits d /\ mp_linkers d' = mp_linkers d /\
    exists S B A, marked S B A (mp_world d) (mp_world d').
  Proof.
    intros E. unfold dm_detect in E. destruct (disqualify_basin_saddles _ _ _ _) as [w'|] eqn:Ed; [|done].
    cbn in E. injection E as <-. destruct (Basin_facts.basin_marks _ _ _ _ _ Ed) as (S & B & A & M & _). cbn. eauto 10.
  Qed.
  Lemma ends_border w w' l S B A : marked S B A w w' -> ends_apart m w' l -> border_apart m w l.
  Proof.
    intros M H i j x Hi Hj _ Hx Hy Hs. apply (H i j x Hi Hj); [by rewrite (marked_summits_of _ _ _ _ _ _ M)..|].
    by rewrite (saddle_same_marked _ _ _ _ _ _ _ _ M).
  Qed.
  Lemma marked_link S B A w w' k l' : marked S B A w w' -> w_links w' !! k = Some l' -> exists l, w_links w !! k = Some l /\
    ln_summit l' = ln_summit l /\ ln_saddle l' = ln_saddle l.
  Proof.
    intros M Hl'. assert (exists l, w_links w !! k = Some l) as [l Hl].
    { apply lookup_lt_is_Some. rewrite <-(mk_lenl _ _ _ _ _ M). by eapply lookup_lt_Some. }
    destruct (mk_link _ _ _ _ _ M _ _ Hl) as (l2 & Hl2 & E1 & E2 & _). exists l. by assert (l2 = l') as -> by congruence.
  Qed.

  Variables (fuel : nat) (d : dmap).
  Hypotheses (Hd : dm_run_with fpath fp orc near fuel false false false m = Ok d) (Hap : ends_apart m (mp_world d) (mp_saddles d)).
  Variables (su_name sa_name ln_name : nat -> string) (rim_of : feature -> perimeter * bool * list pte).
  Hypotheses (Hsu : naming su_name) (Hsa : naming sa_name) (Hln : naming ln_name).
  Variables (doms : list nat) (pts : nat -> list pte).
  Hypothesis (Hdoms : forall a, a ∈ doms -> a ∈ mp_summits d).
  Variables (newid md5 : string) (v : val) (p' : pmap).
  Hypotheses (Hv : map_to_dict md5 (store m su_name sa_name ln_name rim_of d doms pts) = Ok v) (Hp : map_from_dict newid md5 v = Ok p').

  Lemma loaded_tree cell_of m2 t t2 h out t' : run_tree m (mp_world d) (mp_summits d) t = Ok (h, out, t') -> tr_busted t' = [] ->
    let r := revive cell_of p' in
    exists out2 t2', run_tree m2 (mp_world r) (mp_summits r) t2 = Ok (h, out2, t2') /\ map fst out2 = map fst out /\
      (tr_busted t2' = [] -> forall a r r2, open_ (mp_world d) (Sum a) -> (a, r) ∈ out -> (a, r2) ∈ out2 ->
       (forall q s', (q, s') ∈ lp_paths r2 <-> exists s, mp_saddles d !! s' = Some s /\ (q, s) ∈ lp_paths r) /\ lp_edge r2 = lp_edge r).
  Proof.
    pose proof (run_whole fpath fp orc near m Hf Hnear Hok Hup Hlow Hpix Hreach Hfp fuel false false d Hd) as Hw.
    pose proof (run_meshed fpath fp orc near m Hf Hnear Hok Hup Hlow Hpix Hreach Hfp Hfine fuel false false d Hd) as Hm.
    destruct (stored_loads m su_name sa_name ln_name rim_of Hsu Hsa Hln d doms pts Hw Hdoms newid md5) as (v' & p2 & Hv' & Hp' & Hr).
    rewrite Hv in Hv'. injection Hv' as <-. rewrite Hp in Hp'. injection Hp' as <-.
    pose proof Hd as Hd'. unfold dm_run_with in Hd'. destruct (run_no_rebuild fp orc m) as [[[su sa] ru]|] eqn:Hrun; [|done]. cbn [rbind] in Hd'.
    rewrite start_objects in Hd'. destruct (dm_walk _ _ _ _) as [[d1 s]|] eqn:Hwk; [|done]. cbn [rbind] in Hd'.
    pose proof (started_found fp orc m Hok Hfp su sa ru Hrun) as Hstd.
    destruct (detect_parts fuel d1 d Hd') as (E1 & E2 & E3 & E4 & S & B & A & M).
    assert (border_apart m (mp_world d1) (mp_saddles d1)) as Hba by (rewrite <-E1; by eapply ends_border).
    destruct (run_mesh fpath fp orc near m Hf Hnear Hok Hup Hlow Hpix Hreach Hfp Hfine su sa ru _ d1 s Hrun Hstd Hwk) as (T & _ & _ & F & _).
    destruct (run_claims fpath fp orc near m Hf Hnear Hok Hup Hlow Hpix Hreach Hfp su sa ru _ d1 s Hrun Hstd Hwk) as (HL & _).
    apply (run2 m su_name sa_name ln_name rim_of Hsu Hsa Hln d doms pts Hw Hm p' Hr cell_of).
    - exact (finished_tree fpath fp orc near m Hf Hnear Hok Hup Hlow Hpix Hreach Hfp Hfine su sa ru _ d1 s fuel d Hrun Hstd Hwk Hba Hd').
    - intros i x Hi Hx.
      apply (finished_saddle fpath fp orc near m Hf Hnear Hok Hup Hlow Hpix Hreach Hfp Hfine su sa ru _ d1 s fuel d Hrun Hstd Hwk Hba Hd' i x Hi Hx).
    - intros k l Hl. destruct (marked_link _ _ _ _ _ _ _ M Hl) as (l1 & Hl1 & K1 & K2).
      destruct (t_first _ _ T k l1 Hl1) as (o & Ho & Hk). destruct (mk_saddle _ _ _ _ _ M _ _ Ho) as (o2 & Ho2 & _ & El & _).
      exists o2. rewrite K2. split; [done|]. rewrite El. destruct Hk as [Hk|(k' & l' & Hlt & Hk' & Hl' & E)]; [by left|right].
      destruct (mk_link _ _ _ _ _ M _ _ Hl') as (l2 & Hl2 & E5 & _). exists k', l2. rewrite E5, K1. done.
    - intros k l k' l' Hl Hl' Hs Hs'. destruct (marked_link _ _ _ _ _ _ _ M Hl) as (l1 & Hl1 & _ & K2).
      destruct (marked_link _ _ _ _ _ _ _ M Hl') as (l1' & Hl1' & _ & K2'). rewrite K2, E1 in Hs. rewrite K2', E2 in Hs'.
      exact (runoffs_late fpath near m fp orc Hf Hnear Hok Hup Hlow Hpix Hreach Hfp Hfine su sa ru _ d1 s Hrun Hstd Hwk k l1 k' l1' Hl1 Hl1' Hs Hs').
    - done.
    - rewrite E4, (wl_linkers _ _ _ _ _ _ _ HL), (mk_lenl _ _ _ _ _ M). cbn. by rewrite Nat.sub_0_r.
    - rewrite E3, (mk_summits _ _ _ _ _ M). assert (length (w_summits (mp_world d1)) = length su) as ->.
      { assert (map su_feat (w_summits (mp_world d1)) = su) as Emap; [|by rewrite <-Emap, map_length].
        apply list_eq. intros i. rewrite list_lookup_fmap. apply F. }
      unfold dm_walk in Hwk. destruct (climb_from_saddles _ _ _ _ _ _); [|done]. cbn in Hwk. by injection Hwk as <- _.
  Qed.

  Lemma loaded_graph cell_of : tree_graph (mp_world (revive cell_of p')).
  Proof.
    pose proof (run_whole fpath fp orc near m Hf Hnear Hok Hup Hlow Hpix Hreach Hfp fuel false false d Hd) as Hw.
    pose proof (run_meshed fpath fp orc near m Hf Hnear Hok Hup Hlow Hpix Hreach Hfp Hfine fuel false false d Hd) as Hm.
    destruct (stored_loads m su_name sa_name ln_name rim_of Hsu Hsa Hln d doms pts Hw Hdoms newid md5) as (v' & p2 & Hv' & Hp' & Hr).
    rewrite Hv in Hv'. injection Hv' as <-. rewrite Hp in Hp'. injection Hp' as <-.
    pose proof Hd as Hd'. unfold dm_run_with in Hd'. destruct (run_no_rebuild fp orc m) as [[[su sa] ru]|] eqn:Hrun; [|done]. cbn [rbind] in Hd'.
    rewrite start_objects in Hd'. destruct (dm_walk _ _ _ _) as [[d1 s]|] eqn:Hwk; [|done]. cbn [rbind] in Hd'.
    pose proof (started_found fp orc m Hok Hfp su sa ru Hrun) as Hstd.
    destruct (detect_parts fuel d1 d Hd') as (E1 & E2 & E3 & E4 & S & B & A & M).
    assert (border_apart m (mp_world d1) (mp_saddles d1)) as Hba by (rewrite <-E1; by eapply ends_border).
    destruct (run_mesh fpath fp orc near m Hf Hnear Hok Hup Hlow Hpix Hreach Hfp Hfine su sa ru _ d1 s Hrun Hstd Hwk) as (T & _ & _ & F & _).
    destruct (run_claims fpath fp orc near m Hf Hnear Hok Hup Hlow Hpix Hreach Hfp su sa ru _ d1 s Hrun Hstd Hwk) as (HL & _).
    apply (tree2 m su_name sa_name ln_name rim_of Hsu Hsa Hln d doms pts Hw Hm p' Hr cell_of).
    - exact (finished_tree fpath fp orc near m Hf Hnear Hok Hup Hlow Hpix Hreach Hfp Hfine su sa ru _ d1 s fuel d Hrun Hstd Hwk Hba Hd').
    - intros k l Hl. destruct (marked_link _ _ _ _ _ _ _ M Hl) as (l1 & Hl1 & K1 & K2).
      destruct (t_first _ _ T k l1 Hl1) as (o & Ho & Hk). destruct (mk_saddle _ _ _ _ _ M _ _ Ho) as (o2 & Ho2 & _ & El & _).
      exists o2. rewrite K2. split; [done|]. rewrite El. destruct Hk as [Hk|(k' & l' & Hlt & Hk' & Hl' & E)]; [by left|right].
      destruct (mk_link _ _ _ _ _ M _ _ Hl') as (l2 & Hl2 & E5 & _). exists k', l2. rewrite E5, K1. done.
    - intros k l k' l' Hl Hl' Hs Hs'. destruct (marked_link _ _ _ _ _ _ _ M Hl) as (l1 & Hl1 & _ & K2).
      destruct (marked_link _ _ _ _ _ _ _ M Hl') as (l1' & Hl1' & _ & K2'). rewrite K2, E1 in Hs. rewrite K2', E2 in Hs'.
      exact (runoffs_late fpath near m fp orc Hf Hnear Hok Hup Hlow Hpix Hreach Hfp Hfine su sa ru _ d1 s Hrun Hstd Hwk k l1 k' l1' Hl1 Hl1' Hs Hs').
    - done.
    - rewrite E4, (wl_linkers _ _ _ _ _ _ _ HL), (mk_lenl _ _ _ _ _ M). cbn. by rewrite Nat.sub_0_r.
    - rewrite E3, (mk_summits _ _ _ _ _ M). assert (length (w_summits (mp_world d1)) = length su) as ->.
      { assert (map su_feat (w_summits (mp_world d1)) = su) as Emap; [|by rewrite <-Emap, map_length].
        apply list_eq. intros i. rewrite list_lookup_fmap. apply F. }
      unfold dm_walk in Hwk. destruct (climb_from_saddles _ _ _ _ _ _); [|done]. cbn in Hwk. by injection Hwk as <- _.
  Qed.
End run.
