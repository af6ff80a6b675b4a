(** Proofs about purging the result of an analysis. *)
From Verif Require Import Run_model Walk_model Raster_spec Closest_spec Feature_spec Network_spec Climb_spec Graph_spec
  Walk_spec Basin_model Basin_spec Terrain_spec Run_spec Rebuilt_spec Mesh_proof Start_proof Terrain_proof Run_proof Rebuilt_proof
  Basin_proof Basin_facts Region_run_proof Cull_spec Cull_proof.
Local Open Scope Z_scope.

Section culled_run.
  Variables (fpath : datamap -> list mpoint -> mpoint -> mpoint -> option (list mpoint * Q)).
  Variables (fp : datamap -> list xy -> xy -> xy -> option Q) (orc : xy -> nat -> nat -> nat).
  Variables (near : searches) (m : datamap).
  Hypotheses (Hf : mpaths_found fpath m) (Hnear : sound_searches near m) (Hok : map_ok m) (Hup : north_up m)
    (Hlow : climbable m) (Hpix : pixels_in_reach m) (Hreach : map_in_reach m) (Hfp : paths_found fp m)
    (Hfine : fine_grid m).
  Variables (fuel : nat) (r : bool) (d d' : dmap).
  Hypotheses (Hd : dm_run_with fpath fp orc near fuel true false r m = Ok d)
    (Hd' : dm_run_with fpath fp orc near fuel false false r m = Ok d').

  Lemma culled_flags : no_override (mp_world d') /\ flags_on_links (mp_world d').
  Proof.
    destruct (found_run fp orc m Hok Hfp) as (su & sa & ru & Hrun).
    destruct (with_finish fpath fp orc near m fuel r su sa ru d d' Hnear Hok Hreach Hfp Hrun Hd Hd') as (objs & s & Hs & Hw & Hdet).
    destruct (run_mesh fpath fp orc near m Hf Hnear Hok Hup Hlow Hpix Hreach Hfp Hfine su sa ru objs d s Hrun Hs Hw) as (T & _).
    unfold dm_detect in Hdet. destruct (disqualify_basin_saddles _ _ _ _) as [w1|] eqn:E; [|done]. cbn [rbind] in Hdet.
    injection Hdet as <-. cbn [mp_world]. destruct (basin_marks m fuel _ _ _ E) as (S & B & A & M & _). split.
    - intros i o Ho. destruct (marked_back _ _ _ _ _ _ _ M Ho) as [a Ha].
      destruct (mk_saddle _ _ _ _ _ M _ _ Ha) as (b & Hb & _ & _ & _ & _ & Eo & _). assert (b = o) as -> by congruence.
      rewrite Eo. by destruct (t_flags _ _ T i a Ha) as (_ & _ & [->|[-> _]]).
    - intros i o k l Ho Hfl Hk Hl. destruct (marked_back _ _ _ _ _ _ _ M Ho) as [a Ha].
      destruct (mk_saddle _ _ _ _ _ M _ _ Ha) as (b & Hb & _ & El & _ & _ & _ & E1 & E2 & _). assert (b = o) as -> by congruence.
      destruct (t_flags _ _ T i a Ha) as (F1 & F2 & _). rewrite El in Hk.
      destruct (t_sa _ _ T i a k Ha Hk) as (l0 & Hl0 & _). destruct (mk_link _ _ _ _ _ M _ _ Hl0) as (l1 & Hl1 & _ & _ & Hq).
      assert (l1 = l) as -> by congruence. apply Hq. right. exists i, a. split; [|done].
      rewrite E1, E2, F1, F2 in Hfl. naive_solver.
  Qed.

  Theorem culled_terrain a b c su sa ru x f u y g v e : border_apart m (mp_world d) (mp_saddles d) ->
    run_no_rebuild fp orc m = Ok (su, sa, ru) -> su !! x = Some f -> covers f u -> su !! y = Some g -> covers g v ->
    e <= elev m u -> e <= elev m v ->
    let w := mp_world (purge_saddles m a b c d') in
    joined w (fun i => e <= ele_at w (Sad i)) x y <-> ground_joined m e u v.
  Proof.
    intros Hap Hrun Hx Hu Hy Hv He1 He2 w. subst w.
    destruct (with_finish fpath fp orc near m fuel r su sa ru d d' Hnear Hok Hreach Hfp Hrun Hd Hd') as (objs & s & Hs & Hw & Hdet).
    rewrite <-(parts_terrain fpath fp orc near m Hf Hnear Hok Hup Hlow Hpix Hreach Hfp Hfine su sa ru objs d s Hrun Hs Hw Hap fuel d'
      x y u v e Hdet); [|by exists f|by exists g|done|done].
    destruct culled_flags as (Hno & _).
    apply (culled_joined _ _ _ (purge_deleted m a b c d') (purge_disq a b c d' Hno)).
    intros i. by rewrite (culled_ele _ _ _ (purge_deleted m a b c d') (purge_disq a b c d' Hno)).
  Qed.
End culled_run.
