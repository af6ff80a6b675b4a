(** Proofs about the elevations in feet of a finished analysis. *)
From Verif Require Import Feature_facts Nodata_proof Run_model Walk_model Raster_spec Closest_spec Feature_spec Network_spec Climb_spec Graph_spec
  Walk_spec Basin_model Basin_spec Terrain_spec Run_spec Rebuilt_spec Mesh_proof Start_proof Terrain_proof Run_proof Rebuilt_proof
  Basin_proof Forest_proof Detect_proof Climb_facts Closest_proof Divide_model Divide_spec Region_spec Divide_proof Region_proof
  Region_run_proof Found_proof Float_model Slope_model Slope_spec Feet_model Feet_spec Feet_proof.
From Flocq Require Import Core BinarySingleNaN.
From Coq Require Import Reals.
Local Open Scope Z_scope.

Lemma leads_head w x q i why : ends_at w why x q i -> exists k r s, q = k :: r /\ joins w k x s.
Proof.
  intros (p & b & k & -> & Hp & _ & Hj & _).
  assert (p = [] /\ b = x \/ exists k r s, p = k :: r /\ joins w k x s) as [[-> ->]|(k' & r & s & -> & Hk)].
  - clear Hj. induction Hp as [|p b k' s j c Hp IH Hh]; [by left|]. right. destruct IH as [[-> ->]|(k0 & r & s0 & -> & Hk)].
    + destruct Hh as (_ & Hj & _). by eexists _, _, _.
    + by eexists _, _, _.
  - by eexists _, _, _.
  - by eexists _, _, _.
Qed.
Lemma leads_below w x p b : leads w x p b -> b = x \/ not_higher w b x.
Proof.
  induction 1 as [|p b k s j c Hp IH Hh]; [by left|]. right. destruct Hh as (_ & _ & _ & _ & _ & _ & _ & Hn).
  destruct IH as [->|(h & h' & (u & Hu & <-) & H2 & Hle)]; [done|].
  destruct Hn as (h1 & h2 & H3 & (u' & Hu' & <-) & Hle'). assert (u' = u) as -> by congruence.
  exists h1, h'. split; [done|]. split; [done|lia].
Qed.

Section finished.
  Variables (fpath : datamap -> list mpoint -> mpoint -> mpoint -> option (list mpoint * Q)).
  Variables (fp : datamap -> list xy -> xy -> xy -> option Q) (orc : xy -> nat -> nat -> nat).
  Variables (near : searches) (m : datamap).
  Hypotheses (Hf : mpaths_found fpath m) (Hnear : sound_searches near m) (Hok : map_ok m) (Hup : north_up m)
    (Hlow : climbable m) (Hpix : pixels_in_reach m) (Hreach : map_in_reach m) (Hfp : paths_found fp m)
    (Hfine : fine_grid m).
  Variables (su sa ru : list feature) (objs : list saddle) (d : dmap) (s : walk_state) (fuel : nat) (d' : dmap).
  Hypotheses (Hrun : run_no_rebuild fp orc m = Ok (su, sa, ru)) (Hstd : started m sa objs)
    (Hdm : dm_walk fpath near m (dm_objects su objs ru) = Ok (d, s))
    (Hap : Run_spec.border_apart m (mp_world d) (mp_saddles d)) (Hdet : dm_detect fuel m d = Ok d').
  Hypothesis H32 : forall p, data_cell m p -> float32_value (elev m p).
  Local Notation w := (mp_world d).
  Local Notation w' := (mp_world d').

  Let Fsaddle := finished_saddle fpath fp orc near m Hf Hnear Hok Hup Hlow Hpix Hreach Hfp Hfine su sa ru objs d s fuel d' Hrun Hstd Hdm Hap Hdet.
  Let Ftree := finished_tree fpath fp orc near m Hf Hnear Hok Hup Hlow Hpix Hreach Hfp Hfine su sa ru objs d s fuel d' Hrun Hstd Hdm Hap Hdet.
  Let Fsummit := finished_summit fpath fp orc near m Hf Hnear Hok Hup Hlow Hpix Hreach Hfp Hfine su sa ru objs d s fuel d' Hrun Hstd Hdm Hap Hdet.
  Let Fmarked := finished_marked fpath fp orc near m Hf Hnear Hok Hup Hlow Hpix Hreach Hfp Hfine su sa ru objs d s fuel d' Hrun Hstd Hdm Hap Hdet.
  Let Fboth := finished_both fpath fp orc near m Hf Hnear Hok Hup Hlow Hpix Hreach Hfp Hfine su sa ru objs d s fuel d' Hrun Hstd Hdm Hap Hdet.

  Lemma summit_32 x f : su !! x = Some f -> float32_value (ft_ele f).
  Proof.
    clear Hdm Hstd Hap Hdet Fsaddle Ftree Fsummit Fmarked Fboth. intros Hx.
    destruct (run_corners fp orc m Hok Hfp) as (su' & sa' & ru0 & Ha & Hr).
    rewrite Hrun in Hr. injection Hr as <- <- _.
    destruct (summits_exact fp orc m Hok Hfp) as (su' & sa' & ru' & Ha' & H1 & _).
    rewrite Ha in Ha'. injection Ha' as <- <- <-.
    destruct (H1 f) as (p & Hp & [[_ _ He] _ _ _ _]); [by eapply elem_of_list_lookup_2|]. rewrite He. apply H32, Hp.
  Qed.
  Lemma saddle_32 i x : not_disq w' i -> x ∈ summits_of w' i -> exists o, w_saddles w' !! i = Some o /\ float32_value (ft_ele (sa_feat o)).
  Proof.
    destruct Fmarked as (S & B & A & M). intros Hnd Hx. rewrite (marked_summits_of _ _ _ _ _ _ M) in Hx.
    pose proof (disq_marked _ _ _ _ _ _ M Hnd) as Hnd'.
    destruct (saddle_origin fpath fp orc near m Hf Hnear Hok Hup Hlow Hpix Hreach Hfp su sa ru objs d s Hrun Hstd Hdm i x Hnd' Hx)
      as (p & o & f & Hp & Ho & _ & He & _).
    destruct (mk_saddle _ _ _ _ _ M _ _ Ho) as (b & Hb & Ef & _). exists b. split; [done|]. rewrite Ef, He. by apply H32.
  Qed.

  (** A summit stands above each of its open saddles. *)
  Lemma summit_above a k i : at_summit w' a k -> joins w' k a i -> not_disq w' i ->
    exists u o, w_summits w' !! a = Some u /\ w_saddles w' !! i = Some o /\ float32_value (ft_ele (su_feat u)) /\
      float32_value (ft_ele (sa_feat o)) /\ ft_ele (sa_feat o) < ft_ele (su_feat u).
  Proof.
    intros Hk Hj Hnd. pose proof (at_summits d' i k a (Fboth a k i Hk Hj) Hj) as Hx.
    destruct (saddle_32 i a Hnd Hx) as (o & Ho & H1). destruct (Fsaddle i a Hnd Hx) as (_ & [f Hf0] & Hlt).
    pose proof (summit_32 a f Hf0) as H2. rewrite <-Fsummit in Hf0. destruct (w_summits w' !! a) as [u|] eqn:Eu; [|done].
    injection Hf0 as <-. exists u, o. cbn in Hlt. rewrite Ho, Eu in Hlt. done.
  Qed.

  Theorem finished_prom a k i : at_summit w' a k -> joins w' k a i -> not_disq w' i ->
    exists f, prom_ft w' k = Ok f /\ (0 < B2R f)%R /\
      close_to f (feet_of (ele_at w' (Sum a)) - feet_of (ele_at w' (Sad i)))
        (bpow radix2 (-50) * (Rabs (feet_of (ele_at w' (Sad i))) + Rabs (feet_of (ele_at w' (Sum a))))).
  Proof.
    intros Hk Hj Hnd. destruct (summit_above a k i Hk Hj Hnd) as (u & o & Hu & Ho & H1 & H2 & Hlt).
    destruct (above_close _ _ H2 H1) as (f & Ef & Hc & Hp & _). exists f. cbn [ele_at]. rewrite Hu, Ho.
    split; [|split; [by apply Hp|done]]. destruct Hj as (l & El & <- & <- & _). unfold prom_ft, summit_float, saddle_float.
    rewrite El, Hu, Ho. done.
  Qed.

  Theorem finished_decline x t0 q i : (q, i) ∈ lp_paths (local_prominent_region m w' x t0) ->
    exists f, decline w' q i = Ok f /\ (0 < B2R f)%R /\
      close_to f (feet_of (ele_at w' (Sum x)) - feet_of (ele_at w' (Sad i)))
        (bpow radix2 (-50) * (Rabs (feet_of (ele_at w' (Sad i))) + Rabs (feet_of (ele_at w' (Sum x))))).
  Proof.
    intros Hq. destruct (so_paths _ _ _ _ (region_sound m w' (tg_own _ Ftree) x t0) q i Hq) as [He _].
    destruct (leads_head _ _ _ _ _ He) as (k0 & r & s0 & -> & Hk0). destruct He as (p & b & k & Eq & Hp & Hk & Hj & Hend).
    assert (not_disq w' i) as Hnd.
    { destruct Hend as [[(o & Ho & Hd & _)|[(o & Ho & Hd & _) _]]|[(o & Ho & Hd & _) _]]; by exists o. }
    destruct (summit_above b k i Hk Hj Hnd) as (u & o & Hu & Ho & H1 & H2 & Hlt).
    assert (exists u', w_summits w' !! x = Some u' /\ float32_value (ft_ele (su_feat u')) /\ ft_ele (sa_feat o) < ft_ele (su_feat u')) as (u' & Hu' & H3 & Hlt').
    { destruct (leads_below _ _ _ _ Hp) as [->|(h & h' & (u1 & Hu1 & <-) & (u' & Hu' & <-) & Hle)]; [by exists u|].
      exists u'. assert (u1 = u) as -> by congruence. split; [done|]. split; [|lia].
      apply (summit_32 x). rewrite <-Fsummit, Hu'. done. }
    destruct (above_close _ _ H2 H3) as (f & Ef & Hc & Hpos & _). exists f. cbn [ele_at]. rewrite Hu', Ho.
    split; [|split; [by apply Hpos|done]]. destruct Hk0 as (l & El & <- & _). unfold decline, summit_float, saddle_float.
    rewrite El, Hu', Ho. done.
  Qed.
End finished.
