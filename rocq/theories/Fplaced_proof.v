(** Placing saddles and dividing flat areas with the searches in binary64. *)
From Verif Require Import Tree_spec Base_model Raster_model Analyze_model Closest_model Network_model Float_model Float_spec Float_proof
  Slope_spec Near_model Near_spec Near_proof Near_run_proof Fsearch_model Fsearch_spec Fsearch_proof Fnet_spec Fnet_proof
  Closest_spec Closest_proof Network_spec Feature_spec Climb_spec Climb_facts Placed_spec Placed_proof Shelf_spec Raster_spec.
From Flocq Require Import Core BinarySingleNaN.
From Coq Require Import Reals Qreals.
Local Open Scope Z_scope.

Section placed.
  Context (hyp : b64 -> b64 -> b64) (kd : list xy -> xy -> nat * b64) (m : datamap) (g1 g5 : b64).
  Hypothesis HL : float_library hyp kd.
  Hypothesis HR : float_raster m g1 g5.
  Notation fs := (float_searches hyp g1 g5 kd).

  Lemma float_placing f : plain_head f -> (forall g, g ∈ ft_hpn f -> g <> []) -> (forall g z, g ∈ ft_hpn f -> z ∈ g -> in_map m (pt_xy z)) ->
     (forall z, z ∈ ft_multi f -> in_map m z.1) -> placing (2 ^ 22) (about_closest_in m) fs m f.
  Proof.
    pose proof (fl_hypot _ _ HL) as Hh. pose proof (fl_zero _ _ HL) as Hz. pose proof (fl_tree _ _ HL) as Hk.
    pose proof (fr_g1 _ _ _ HR) as E1. pose proof (fr_g5 _ _ _ HR) as E5. pose proof (fr_usual1 _ _ _ HR) as S1. pose proof (fr_usual5 _ _ _ HR) as S5.
    intros Hp Hne Hin Hm. split.
    - intros h0 h1 E. assert (H0 : h0 ∈ ft_hpn f) by (rewrite E; by left). assert (H1 : h1 ∈ ft_hpn f) by (rewrite E; right; by left).
      destruct (float_pair hyp kd m g1 g5 HL HR h0 h1) as (p & t & d & Ef & Hp0 & Ht1 & N); [exact (fun p Hp => Hin h0 p H0 Hp)|exact (fun p Hp => Hin h1 p H1 Hp)|by apply Hne|by apply Hne|].
      cbn [s_pair float_searches]. rewrite Ef. cbn [rbind fst snd option_map]. eexists p, t, _. split; [reflexivity|]. split; [done|]. split; [done|].
      split; [done|]. split; [done|]. intros Hs.
      destruct (closest_pair hyp Hh Hz kd Hk m g1 g5 E1 E5 S1 S5 h0 h1 p t) as (p' & t' & d' & Ef' & _ & _ & _ & Hmin);
        [intros z Hz0; apply (usual_in m g1 g5 HR); exact (Hin h0 z H0 Hz0)|intros z Hz0; apply (usual_in m g1 g5 HR); exact (Hin h1 z H1 Hz0)|done|done| |done|].
      { apply (fr_reach _ _ _ HR); [exact (Hin h0 p H0 Hp0)|exact (Hin h1 t H1 Ht1)]. }
      rewrite Ef' in Ef. injection Ef as -> -> _. exact Hmin.
    - intros k l tx ty Hk0 Hl0 Ex Ey Hmu. unfold plain_head, nearest_own, own_cells in *. destruct (ft_multi f) as [|p0 pts] eqn:Em; [done|].
      cbn [s_member float_searches].
      destruct (closest_member hyp Hh Hz _ _ k l (half_exact tx k Ex Hk0) (half_exact ty l Ey Hl0) p0 pts Hp) as (p & E & Hpm & Hmin).
      { intros z Hz0. apply (usual_in m g1 g5 HR). by apply Hm. }
      exists p. split; [done|]. split; [done|]. intros q Hq. unfold away2. rewrite Ex, Ey. by apply Hmin.
    - intros g z Hg Hz0. destruct (usual_in m g1 g5 HR (pt_xy z) (Hin g z Hg Hz0)) as [H1 H2]. split; [exact H1|exact H2].
  Qed.

  Lemma float_nearest_map : nearest_map fs m.
  Proof.
    intros us them d Hus Hth Hne Hs p t Hpt. cbn [s_map float_searches] in Hs.
    destruct (distance_map hyp (fl_hypot _ _ HL) (fl_zero _ _ HL) kd (fl_tree _ _ HL) us them) as (d' & E & H1 & H2); [| |done|].
    - intros q Hq. apply (usual_in m g1 g5 HR). by apply Hus.
    - intros q Hq. apply (usual_in m g1 g5 HR). by apply Hth.
    - assert (d' = d) as -> by congruence. destruct (decide (p ∈ us)) as [Hin|Hin]; [|rewrite H2 in Hpt; done].
      destruct (H1 p Hin) as (t' & Ht' & Hm & Hmin). assert (t' = t) as -> by congruence. done.
  Qed.

  Lemma float_map_reach : map_in_reach m.
  Proof. intros p q Hp Hq. eapply Qlt_trans; [exact (fr_reach _ _ _ HR p q Hp Hq)|reflexivity]. Qed.
  Lemma float_pixels : pixels_in_reach m.
  Proof. apply pixels_in_reach_check; [pose proof (fr_rows _ _ _ HR)|pose proof (fr_cols _ _ _ HR)]; lia. Qed.
End placed.
