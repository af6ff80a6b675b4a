(** Detecting and purging the result of an analysis a second time. *)
From Verif Require Import Run_model Walk_model Raster_spec Closest_spec Feature_spec Network_spec Climb_spec Graph_spec
  Walk_spec Basin_model Basin_spec Terrain_spec Run_spec Rebuilt_spec Mesh_proof Start_proof Terrain_proof Run_proof Rebuilt_proof
  Basin_proof Basin_facts Region_run_proof Store_spec Stored_proof Purge_proof Cull_spec Cull_proof Cull_run_proof Keep_alts_proof
  Settle_proof Settle_purge_proof.
Local Open Scope nat_scope.

Section settle_run.
  Variables (fpath : datamap -> list mpoint -> mpoint -> mpoint -> option (list mpoint * Q)).
  Variables (fp : datamap -> list xy -> xy -> xy -> option Q) (orc : xy -> nat -> nat -> nat).
  Variables (near : searches) (m : datamap).
  Hypotheses (Hf : mpaths_found fpath m) (Hnear : sound_searches near m) (Hok : map_ok m) (Hup : north_up m)
    (Hlow : climbable m) (Hpix : pixels_in_reach m) (Hreach : map_in_reach m) (Hfp : paths_found fp m)
    (Hfine : fine_grid m).

  Lemma run_calm fuel r d d' : dm_run_with fpath fp orc near fuel true false r m = Ok d ->
    dm_run_with fpath fp orc near fuel false false r m = Ok d' -> border_apart m (mp_world d) (mp_saddles d) ->
    calm m (mp_world d') (mp_saddles d').
  Proof.
    intros Hd Hd' Hap. destruct (found_run fp orc m Hok Hfp) as (su & sa & ru & Hrun).
    destruct (with_finish fpath fp orc near m fuel r su sa ru d d' Hnear Hok Hreach Hfp Hrun Hd Hd') as (objs & s & Hs & Hw & Hdet).
    destruct (run_parts fpath fp orc near m Hf Hnear Hok Hup Hlow Hpix Hreach Hfp Hfine su sa ru objs d s Hrun Hs Hw Hap fuel d' Hdet)
      as (E & G & _ & _ & E2 & _).
    rewrite E2. eapply detect_calm; [exact G| |exact E].
    destruct (run_mesh fpath fp orc near m Hf Hnear Hok Hup Hlow Hpix Hreach Hfp Hfine su sa ru objs d s Hrun Hs Hw) as (T & _).
    intros i o Ho. by destruct (t_flags _ _ T i o Ho) as (_ & _ & [->|[-> _]]).
  Qed.

  (** A second detection, also after purging, changes nothing. *)
  Lemma detect_again fuel fuel' r d d' : dm_run_with fpath fp orc near fuel true false r m = Ok d ->
    dm_run_with fpath fp orc near fuel false false r m = Ok d' -> border_apart m (mp_world d) (mp_saddles d) ->
    length (mp_saddles d') + length (w_saddles (mp_world d')) < fuel' ->
    dm_detect fuel' m d' = Ok d' /\
    forall a b c, dm_detect fuel' m (purge_saddles m a b c d') = Ok (purge_saddles m a b c d').
  Proof.
    intros Hd Hd' Hap Hfuel. pose proof (run_calm fuel r d d' Hd Hd' Hap) as C.
    assert (forall e, calm m (mp_world e) (mp_saddles e) -> length (mp_saddles e) + length (w_saddles (mp_world e)) < fuel' ->
      dm_detect fuel' m e = Ok e) as H.
    { intros e [G1 G2 G3 G4] Hl. unfold dm_detect. rewrite (settled m _ _ fuel' G1 G2 G3 G4 Hl). cbn [rbind]. by destruct e. }
    split; [by apply H|]. intros a b c. apply H; [by apply purge_calm|].
    destruct (purge_spec m a b c d') as (_ & _ & E3 & _ & D & _). rewrite E3. destruct D as (-> & _).
    pose proof (filter_length (fun i => stays a b c (mp_world d') i = true) (mp_saddles d')). lia.
  Qed.

  (** Only saddles without alternatives are purged, unless all basin saddles are. *)
  Lemma run_removed fuel a b d i : dm_run_with fpath fp orc near fuel false false false m = Ok d ->
    goes a b false (mp_world d) i = true -> alts_of (mp_world d) i = [].
  Proof.
    unfold dm_run_with. destruct (run_no_rebuild fp orc m) as [[[su sa] ru]|] eqn:Hrun; [|done]. cbn [rbind].
    rewrite start_objects. destruct (dm_walk _ _ _ _) as [[d1 s]|] eqn:Hw; [|done]. cbn [rbind]. intros Hdet.
    pose proof (started_found fp orc m Hok Hfp su sa ru Hrun) as Hstd.
    destruct (walk_whole fpath fp orc near m Hf Hnear Hok Hup Hlow Hpix Hreach Hfp su sa ru d1 s Hrun Hw) as (_ & _ & Hnoalt).
    destruct (run_mesh fpath fp orc near m Hf Hnear Hok Hup Hlow Hpix Hreach Hfp Hfine su sa ru _ d1 s Hrun Hstd Hw) as (T & _).
    unfold dm_detect in Hdet. destruct (disqualify_basin_saddles _ _ _ _) as [w1|] eqn:E; [|done]. cbn [rbind] in Hdet.
    injection Hdet as <-. cbn [mp_world]. destruct (basin_marks m fuel _ _ _ E) as (S & B & A & M & HS & HB).
    unfold goes. destruct (w_saddles w1 !! i) as [o'|] eqn:Ho'; [|done]. intros Hg%bool_decide_eq_true.
    destruct Hg as [[_ ?]|[(_ & _ & H)|[Hs _]]]; [done|unfold alts_of; by rewrite Ho'|].
    destruct (marked_back _ _ _ _ _ _ _ M Ho') as [o Ho].
    destruct (mk_saddle _ _ _ _ _ M _ _ Ho) as (o2 & Ho2 & _ & _ & _ & _ & _ & F & _). assert (o2 = o') as -> by congruence.
    destruct (t_flags _ _ T i o Ho) as (G1 & _ & G3). destruct (proj1 F Hs) as [?|Hi]; [congruence|].
    rewrite (marked_alts _ _ _ _ _ _ M).
    - unfold alts_of. rewrite Ho. cbn. by apply (Hnoalt i).
    - intros HA. destruct (HB i (or_intror HA)) as [_ Hov]. destruct (Hov Hi) as (o3 & Ho3 & Eo). assert (o3 = o) as -> by congruence.
      destruct G3 as [K|[K _]]; congruence.
  Qed.

  Lemma purge_again fuel a b c d : dm_run_with fpath fp orc near fuel false false false m = Ok d ->
    purge_saddles m a b c (purge_saddles m a b c d) = purge_saddles m a b c d.
  Proof.
    intros Hd. apply purge_twice. destruct c; [by left|]. right. right. intros i _. by apply (run_removed fuel a b).
  Qed.
End settle_run.
