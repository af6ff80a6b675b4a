(** Walking from the saddles of a discovery that are given as objects: those that
    were found or those that were made from them by splitting. *)
From Verif Require Import Tree_spec Walk_model Run_model Raster_spec Raster_proof Raster_facts Contig_proof Blob_proof
  Closest_spec Closest_proof Feature_spec Scan_proof Feature_facts Nodata_proof Network_spec Rebuild_proof Climb_spec
  Climb_proof Climb_facts Graph_spec Graph_proof Walk_spec Walk_proof Synth_proof Links_proof Steps_proof One_proof
  Walk_facts Found_proof Again_proof Walked_proof Mesh_proof.
From Coq Require Import ZifyBool.
Local Open Scope Z_scope.

(** The objects [objs] are fit to be walked from in place of the saddles [sa]. *)
Record started (m : datamap) (sa : list feature) (objs : list saddle) : Prop := {
  st_links : forall o, o ∈ objs -> sa_links o = [];
  st_flags : forall o, o ∈ objs -> sa_single o = false /\ sa_basin o = false /\
    (sa_over o = None \/ (sa_over o = Some true /\ ft_edge (sa_feat o) = true));
  st_walk : forall o, o ∈ objs -> walkable m (sa_feat o);
  st_from : forall o, o ∈ objs -> ft_kind (sa_feat o) = KSaddle /\ (2 <= length (ft_hpn (sa_feat o)))%nat /\
    exists f p, f ∈ sa /\ data_cell m p /\ stands_for m p f /\ ft_ele (sa_feat o) = elev m p /\
      (forall g z, g ∈ ft_hpn (sa_feat o) -> z ∈ g -> rim m p z) /\ (ft_edge (sa_feat o) = true -> sa_feat o = f);
  st_tree : forall f, f ∈ sa -> (exists o, o ∈ objs /\ sa_feat o = f) \/
    exists es, spanning_tree (length (ft_hpn f)) es /\ forall a b, (a, b) ∈ es ->
      exists o ga gb g h, o ∈ objs /\ ft_ele (sa_feat o) = ft_ele f /\ ft_hpn (sa_feat o) = [ga; gb] /\
        ft_hpn f !! a = Some g /\ ft_hpn f !! b = Some h /\ (forall z, z ∈ ga -> z ∈ h) /\ (forall z, z ∈ gb -> z ∈ g) }.

Lemma start_objects su sa ru : dm_start su sa ru = dm_objects su (map new_saddle sa) ru.
Proof. unfold dm_start, dm_objects. by rewrite map_app, map_length. Qed.

Section start.
  Variables (fpath : datamap -> list mpoint -> mpoint -> mpoint -> option (list mpoint * Q)).
  Variables (fp : datamap -> list xy -> xy -> xy -> option Q) (orc : xy -> nat -> nat -> nat).
  Variables (near : searches) (m : datamap).
  Hypotheses (Hf : mpaths_found fpath m) (Hnear : sound_searches near m) (Hok : map_ok m) (Hup : north_up m)
    (Hlow : climbable m) (Hpix : pixels_in_reach m) (Hreach : map_in_reach m) (Hfp : paths_found fp m).
  Variables (su sa ru : list feature) (objs : list saddle).
  Hypotheses (Hrun : run_no_rebuild fp orc m = Ok (su, sa, ru)) (Hst : started m sa objs).
  Local Notation d0 := (dm_objects su objs ru).

  Lemma objects_input :
    walk_input m (mp_world d0) (mp_summits d0) (mp_saddles d0 ++ mp_runoffs d0) /\
    all_peaks m (mp_world d0) (mp_summits d0) /\
    (forall d' t, summit_cell (mp_world d0) (mp_summits d0) d' t <-> exists f, su !! d' = Some f /\ covers f t).
  Proof.
    destruct (start_input m fp orc Hok Hfp su sa ru Hrun) as (I & Hpk & Hdom).
    destruct I as [I1 I2 I3 I4 I5 I6 I7 I8 I9 I10 I11]. split; [|done]. split; try done.
    - cbn. apply NoDup_app. split_and!; [apply NoDup_seq| |apply NoDup_seq].
      intros x H1 H2. apply elem_of_seq in H1, H2. lia.
    - intros i Hi. cbn in *. apply lookup_lt_is_Some. rewrite app_length, map_length.
      apply elem_of_app in Hi as [Hi|Hi]; apply elem_of_seq in Hi; lia.
    - intros f (o & -> & Ho)%elem_of_list_fmap. cbn in Ho. apply elem_of_app in Ho as [Ho|Ho]; [by apply (st_walk _ _ _ Hst)|].
      apply I9. unfold feats_of. apply elem_of_list_fmap. exists o. split; [done|]. cbn. rewrite map_app.
      apply elem_of_app. by right.
    - intros i o k Ho Hk. cbn in Ho. apply elem_of_list_lookup_2 in Ho. apply elem_of_app in Ho as [Ho|Ho].
      + rewrite (st_links _ _ _ Hst o Ho) in Hk. by apply elem_of_nil in Hk.
      + apply elem_of_list_fmap in Ho as (f & -> & _). by apply elem_of_nil in Hk.
  Qed.

  Lemma objects_bare : bare (mp_world d0).
  Proof.
    split; [done|]. split_and!.
    - intros i o Ho. cbn in Ho. apply elem_of_list_lookup_2 in Ho. apply elem_of_app in Ho as [Ho|Ho].
      + by apply (st_links _ _ _ Hst).
      + by apply elem_of_list_fmap in Ho as (f & -> & _).
    - intros i o Ho. cbn in Ho. apply elem_of_list_lookup_2 in Ho. apply elem_of_app in Ho as [Ho|Ho].
      + by apply (st_flags _ _ _ Hst).
      + apply elem_of_list_fmap in Ho as (f & -> & _). cbn. auto.
    - intros i o Ho. cbn in Ho. by apply list_lookup_fmap_Some in Ho as (f & _ & ->).
  Qed.

  Lemma objects_walk :
    exists d s, dm_walk fpath near m d0 = Ok (d, s) /\ ws_world s = mp_world d /\
      mp_saddles d ++ mp_runoffs d ≡ₚ ws_feats s /\
      let dom := fun d t => exists f, su !! d = Some f /\ covers f t in
      walk_links m dom (fun _ => []) 0 (mp_world d) (ws_feats s) (mp_linkers d) /\
      walk_output (mp_world d0) (mp_world d) (mp_saddles d0 ++ mp_runoffs d0) (ws_feats s) /\
      all_linked m dom (mp_world d0) (mp_world d) (mp_saddles d0 ++ mp_runoffs d0) (ws_feats s).
  Proof.
    destruct objects_input as (I & Hpk & Hdom). unfold dm_walk.
    pose proof (walk_claims fpath near m Hf Hnear Hok Hup Hlow Hpix Hreach _ _ _ I) as H.
    destruct (climb_from_saddles _ _ _ _ _ _) as [s|e]; [|by destruct H as [_ []]].
    cbn [rbind]. eexists _, s. split; [reflexivity|]. split; [done|].
    cbn [mp_world mp_saddles mp_runoffs mp_linkers]. destruct H as ([W1 W2 W3 W4 W5] & HO & HA). split.
    { clear. induction (ws_feats s) as [|i l IH]; [done|]. rewrite !filter_cons.
      destruct (decide (is_runoff (ws_world s) i = false)) as [E1|E1], (decide (is_runoff (ws_world s) i = true)) as [E2|E2];
        try (destruct (is_runoff (ws_world s) i); done).
      - by constructor.
      - rewrite <-Permutation_middle. by constructor. }
    split; [|split].
    - split; try done.
      + intros k l Hk Hle. destruct (W2 k l Hk Hle) as (o & x & ds & L1 & L2 & L3 & L4 & L5 & L6).
        exists o, x, ds. do 4 (split; [done|]). split; [|done]. by eapply leads_ext.
      + intros d x Hx. destruct (W5 d x Hx) as [Ho|]; [|by right]. left.
        unfold domain_saddles in Ho. cbn in Ho. rewrite list_lookup_fmap in Ho.
        destruct (su !! d); cbn in Ho; done.
    - done.
    - intros i o Hi Ho. destruct (HA Hpk i o Hi Ho) as (ps & H1 & H2). exists ps. split; [done|].
      intros p Hp'. destruct (H2 p Hp') as [H3 H4]. split; [done|].
      intros o' g Ho' Hg. destruct (H4 o' g Ho' Hg) as (k & l & z & t & K1 & K2 & K3 & K4 & K5 & K6).
      exists k, l, z, t. split_and!; try done. by apply Hdom.
  Qed.
End start.
