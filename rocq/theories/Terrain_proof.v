(** The graph made by discovery and walk describes how the ground is connected. *)
From Verif Require Import Tree_spec Walk_model Raster_spec Raster_proof Raster_facts Contig_proof Blob_proof
  Closest_spec Closest_proof Feature_spec Scan_proof Feature_facts Nodata_proof Network_spec Rebuild_proof Climb_spec
  Climb_proof Climb_facts Graph_spec Graph_proof Walk_spec Walk_proof Synth_proof Links_proof Steps_proof One_proof
  Walk_facts Found_proof Again_proof Walked_proof Mesh_proof Run_model Start_proof Terrain_spec.
From Verif Require Basin_spec.
From Coq Require Import ZifyBool Qabs Lqa.
Local Open Scope Z_scope.

(** ** Rounding tells cells apart *)
Lemma round6_close a b : round6 a = round6 b -> (Qabs (a - b) <= 1 # 1000000)%Q.
Proof.
  intros H. unfold round6 in H.
  pose proof (py_round_nearest (a * (1000000 # 1))) as H1. pose proof (py_round_nearest (b * (1000000 # 1))) as H2.
  rewrite H in H1. set (n := inject_Z (py_round (b * (1000000 # 1)))) in *.
  apply Qabs_Qle_condition in H1 as [H1 H1']. apply Qabs_Qle_condition in H2 as [H2 H2'].
  apply Qabs_Qle_condition. split; lra.
Qed.
Lemma eq_key_close a b : eq_key a = eq_key b -> (Qabs (a - b) <= 1 # 1000000)%Q.
Proof.
  unfold eq_key. destruct (Qeq_bool a 0) eqn:Ea, (Qeq_bool b 0) eqn:Eb; try done.
  - intros _. apply Qeq_bool_eq in Ea, Eb. rewrite Ea, Eb. by vm_compute.
  - intros [= H]. by apply round6_close.
Qed.
Lemma pixel_apart (q : Q) (x y : Z) (a b : Q) : (1 # 1000000 < Qabs q)%Q -> (a - b == inject_Z (x - y) * q)%Q ->
  eq_key a = eq_key b -> x = y.
Proof.
  intros Hq Hd H%eq_key_close. rewrite Hd, Qabs_Qmult in H. destruct (decide (x = y)); [done|exfalso].
  assert (H1 : (1 <= Qabs (inject_Z (x - y)))%Q).
  { change 1%Q with (inject_Z 1). change (Qabs (inject_Z (x - y))) with (inject_Z (Z.abs (x - y))).
    rewrite <-Zle_Qle. lia. }
  assert (H2 : (1 * Qabs q <= Qabs (inject_Z (x - y)) * Qabs q)%Q).
  { apply Qmult_le_compat_r; [done|apply Qabs_nonneg]. }
  lra.
Qed.
Lemma spot_cell m f g : north_up m -> fine_grid m -> spot_eq (ft_spot m f) (ft_spot m g) = true -> ft_pos f = ft_pos g.
Proof.
  intros (H2 & H4 & _ & _) [F1 F5] H. unfold spot_eq in H. apply andb_true_iff in H as [H _].
  apply andb_true_iff in H as [Ha%bool_decide_eq_true Hb%bool_decide_eq_true].
  unfold ft_spot, ft_latlon in *. cbn [sp_lat sp_lon] in *. destruct (ft_pos f) as [x y], (ft_pos g) as [x' y'].
  unfold xy_to_latlon in *. cbn [fst snd] in *. f_equal.
  - eapply (pixel_apart (gt5 (dm_gt m))); [done| |exact Ha]. rewrite H4. unfold Z.sub. rewrite inject_Z_plus, inject_Z_opp. ring.
  - eapply (pixel_apart (gt1 (dm_gt m))); [done| |exact Hb]. rewrite H2. unfold Z.sub. rewrite inject_Z_plus, inject_Z_opp. ring.
Qed.

(** ** High ground *)
Lemma joined_refl m e c : high m e c -> ground_joined m e c c.
Proof. by constructor. Qed.
Lemma joined_sym m e a b : ground_joined m e a b -> ground_joined m e b a.
Proof. apply linked_sym. intros x y (H & H1 & H2). split; [congruence|lia]. Qed.
Lemma joined_trans m e a b c : ground_joined m e a b -> ground_joined m e b c -> ground_joined m e a c.
Proof. apply linked_trans. Qed.
Lemma joined_low m e e' a b : e' <= e -> ground_joined m e a b -> ground_joined m e' a b.
Proof. intros He. apply linked_mono; [done|]. intros c [H1 H2]. split; [done|lia]. Qed.
Lemma joined_uphill m a b : uphill m a b -> ground_joined m (elev m a) a b.
Proof.
  induction 1 as [H|b c H IH Hc [Ha He]]; [by apply joined_refl|].
  eapply Raster_spec.linked_step; [done| |done]. split; [done|]. apply uphill_le in H. lia.
Qed.
Lemma joined_flat m a b : same_flat m a b -> ground_joined m (elev m a) a b.
Proof. intros H. by apply joined_uphill, uphill_flat. Qed.
Lemma joined_rim m p q : higher_rim m p q -> ground_joined m (elev m p) p q.
Proof.
  intros (Hq & Hlt & c & Hc & Ha). eapply Raster_spec.linked_step; [by apply joined_flat|split; [done|lia]|done].
Qed.

Lemma not_down_uphill m a b c : not_down m a b -> data_cell m a -> uphill m b c -> uphill m a c.
Proof.
  intros Hab Ha Hbc. eapply uphill_trans; [|exact Hbc]. eapply uphill_step; [by apply uphill_refl|..]; try apply Hab.
  by apply uphill_data_l in Hbc.
Qed.
(** A path that does not descend stays in the flat area or leaves it over a higher cell. *)
Lemma uphill_exit m c t : uphill m c t -> same_flat m c t \/ exists z, higher_rim m c z /\ uphill m z t.
Proof.
  induction 1 as [H|b t H IH Ht [Ha He]]; [left; by constructor|].
  destruct IH as [IH|(z & Hz & Hu)].
  - destruct (Z.lt_ge_cases (elev m b) (elev m t)).
    + right. exists t. split; [|by apply uphill_refl]. split; [done|].
      pose proof (same_flat_elev _ _ _ IH). split; [lia|]. by exists b.
    + left. eapply Raster_spec.linked_step; [done|done|]. split; [done|lia].
  - right. exists z. split; [done|]. by eapply uphill_step.
Qed.
Lemma peak_uphill m c t : peak m c -> uphill m c t -> same_flat m c t.
Proof. intros [_ Hp] [?|(z & Hz & _)]%uphill_exit; [done|]. by apply Hp in Hz. Qed.

Section rims.
  Variables (fp : datamap -> list xy -> xy -> xy -> option Q) (orc : xy -> nat -> nat -> nat) (m : datamap).
  Hypotheses (Hok : map_ok m) (Hfp : paths_found fp m).

  Lemma components_nil c : (forall z, ~ rim m c z) -> components (rim m c) [].
  Proof.
    intros H. split; cbn; try done.
    - constructor.
    - intros z. split; [by intros ?%elem_of_nil|]. intros Hz. by apply H in Hz.
    - by intros g ?%elem_of_nil.
  Qed.
  Lemma rim_pte c d z : same_flat m c d -> rim m c z <-> rim m d z.
  Proof. intros H. unfold rim. by rewrite (rim_same m c d _ H). Qed.
  Lemma rim_parts c : data_cell m c -> exists hp, components (rim m c) hp.
  Proof.
    intros Hc. destruct (analyze_all_spec fp orc m Hok Hfp) as (areas & _ & Hres & Hfirst & _).
    destruct (area_of m Hok areas c Hfirst Hc) as (p & fs & Hin & Hpc & _).
    assert (exists hp, components (rim m p) hp) as [hp Hhp].
    { destruct (Hres p fs Hin); try (by eexists); exists []; by apply components_nil. }
    exists hp. eapply components_ext; [|exact Hhp]. intros z. by apply rim_pte.
  Qed.

  Lemma peak_or c : data_cell m c -> peak m c \/ exists z, higher_rim m c z.
  Proof.
    intros Hc. destruct (rim_parts c Hc) as [[|g hp] Hhp].
    - left. split; [done|]. intros q Hq. apply rim_lift, (comp_all _ _ Hhp) in Hq. by apply elem_of_nil in Hq.
    - right. by apply (proj1 (components_nonnil _ _ _ Hhp)).
  Qed.
  Lemma peak_above c : data_cell m c -> exists t, peak m t /\ uphill m c t.
  Proof.
    remember (above m (elev m c)) as n eqn:En. revert c En. induction (lt_wf n) as [n _ IH]. intros c -> Hc.
    destruct (peak_or c Hc) as [Hp|[z Hz]]; [exists c; split; [done|by apply uphill_refl]|].
    pose proof Hz as (Hzd & Hlt & x & Hx & Ha).
    destruct (IH (above m (elev m z))) with z as (t & Ht & Hu); [by apply above_lt; [apply Hzd|]|done|done|].
    exists t. split; [done|]. eapply uphill_trans; [by apply uphill_flat|].
    pose proof (same_flat_elev _ _ _ Hx). eapply not_down_uphill; [split; [done|lia]| |done]. by eapply same_flat_data_r.
  Qed.
End rims.

(** ** The run *)
Section terrain.
  Variables (fpath : datamap -> list mpoint -> mpoint -> mpoint -> option (list mpoint * Q)).
  Variables (fp : datamap -> list xy -> xy -> xy -> option Q) (orc : xy -> nat -> nat -> nat).
  Variables (near : searches) (m : datamap).
  Hypotheses (Hf : mpaths_found fpath m) (Hnear : sound_searches near m) (Hok : map_ok m) (Hup : north_up m)
    (Hlow : climbable m) (Hpix : pixels_in_reach m) (Hreach : map_in_reach m) (Hfp : paths_found fp m)
    (Hfine : fine_grid m).
  Variables (su sa ru : list feature) (objs : list saddle) (d : dmap) (s : walk_state).
  Hypotheses (Hrun : run_no_rebuild fp orc m = Ok (su, sa, ru)) (Hstd : started m sa objs)
    (Hdm : dm_walk fpath near m (dm_objects su objs ru) = Ok (d, s)).

  Definition dom (x : nat) (t : xy) : Prop := exists f, su !! x = Some f /\ covers f t.
  Local Notation w := (mp_world d).

  Lemma summit_facts :
    (forall x t, dom x t -> peak m t) /\ (forall x t t', dom x t -> (dom x t' <-> same_flat m t t')) /\
    (forall x y t, dom x t -> dom y t -> x = y) /\ (forall t, peak m t -> exists x, dom x t) /\
    (forall x f, su !! x = Some f -> dom x (ft_pos f)).
  Proof.
    clear Hdm Hstd.
    destruct (run_corners fp orc m Hok Hfp) as (su' & sa' & ru0 & Ha & Hr).
    rewrite Hrun in Hr. injection Hr as <- <- _.
    destruct (summits_exact fp orc m Hok Hfp) as (su' & sa' & ru' & Ha' & H1 & H2).
    rewrite Ha in Ha'. injection Ha' as <- <- <-. split_and!.
    - intros x t (f & Hx & Ht). destruct (H1 f) as (p & Hp & [[Hc _ _] _ _ _ _]); [by eapply elem_of_list_lookup_2|].
      apply Hc in Ht. by apply (peak_same m p t Ht).
    - intros x t t' (f & Hx & Ht). destruct (H1 f) as (p & Hp & [[Hc _ _] _ _ _ _]); [by eapply elem_of_list_lookup_2|].
      apply Hc in Ht. split.
      + intros (f' & Hx' & Ht'). assert (f' = f) as -> by congruence. apply Hc in Ht'.
        eapply same_flat_trans; [by apply same_flat_sym|done].
      + intros Hs. exists f. split; [done|]. apply Hc. by eapply same_flat_trans.
    - intros x y t (f & Hx & Ht) (g & Hy & Ht'). destruct (H1 f) as (p & Hp & [[Hc _ _] _ _ _ _]); [by eapply elem_of_list_lookup_2|].
      assert (Hpt : peak m t) by (apply (peak_same m p t); [by apply Hc|done]).
      destruct (H2 t Hpt) as (i & h & Hi & _ & Hu). by rewrite (Hu x f Hx Ht), (Hu y g Hy Ht').
    - intros t Ht. destruct (H2 t Ht) as (i & h & Hi & Hc & _). exists i, h. done.
    - intros x f Hx. exists f. split; [done|]. destruct (H1 f) as (p & Hp & [[Hc Hpos _] _ _ _ _]); [by eapply elem_of_list_lookup_2|].
      by apply Hc.
  Qed.

  Lemma summit_levels : (forall x f a, su !! x = Some f -> covers f a -> ft_ele f = elev m a) /\
    (forall x f, su !! x = Some f -> exists b, covers f b).
  Proof.
    clear Hdm Hstd.
    destruct (run_corners fp orc m Hok Hfp) as (su' & sa' & ru0 & Ha & Hr).
    rewrite Hrun in Hr. injection Hr as <- <- _.
    destruct (summits_exact fp orc m Hok Hfp) as (su' & sa' & ru' & Ha' & H1 & _).
    rewrite Ha in Ha'. injection Ha' as <- <- <-. split.
    - intros x f a Hx Hc. destruct (H1 f) as (p & Hp & [[Hcs _ He] _ _ _ _]); [by eapply elem_of_list_lookup_2|].
      apply Hcs in Hc. rewrite He. by apply same_flat_elev.
    - intros x f Hx. destruct (H1 f) as (p & Hp & [[Hcs Hpos _] _ _ _ _]); [by eapply elem_of_list_lookup_2|].
      exists (ft_pos f). by apply Hcs.
  Qed.

  Lemma runoff_kind f : f ∈ ru -> ft_edge f = true /\ ft_kind f = KRunoff.
  Proof.
    clear Hdm Hstd.
    destruct (run_corners fp orc m Hok Hfp) as (su' & sa' & ru0 & Ha & Hr). intros Hin.
    assert (Hcw : forall f, f ∈ map (fun c : xy => Feat KRunoff c (elev m c) [] true [(c, elev m c)] [])
      [(dm_max_x m, 0); (dm_max_x m, dm_max_y m); (0, 0); (0, dm_max_y m)] -> ft_edge f = true /\ ft_kind f = KRunoff).
    { intros g Hg. by apply elem_of_list_fmap in Hg as (c & -> & _). }
    revert Hr Hcw. generalize (map (fun c : xy => Feat KRunoff c (elev m c) [] true [(c, elev m c)] [])
      [(dm_max_x m, 0); (dm_max_x m, dm_max_y m); (0, 0); (0, dm_max_y m)]). intros corners Hr Hcw.
    rewrite Hrun in Hr. injection Hr as <- <- ->. apply elem_of_app in Hin as [Hin|Hin]; [|by apply Hcw].
    clear Hcw Hrun. destruct (analyze_all_spec fp orc m Hok Hfp) as (areas & Heq & Hres & _ & _).
    unfold analyze in Ha. rewrite Heq in Ha. cbn [rbind] in Ha. injection Ha as _ _ <-.
    apply elem_of_list_filter in Hin as [Hk Hin]. split; [|done].
    apply elem_of_concat in Hin as (fs & Hin & (pfs & -> & Hpf)%elem_of_list_fmap). destruct pfs as [p fs]. cbn in Hin.
    assert (Hsad : forall (b : bool) h, f ∈ (if b then [h] else []) -> ft_kind h = KSaddle -> ft_edge f = true).
    { intros b h Hh Hkh. destruct b; [|by apply elem_of_nil in Hh]. apply elem_of_list_singleton in Hh as ->. congruence. }
    destruct (Hres p fs Hpf) as [| | | |].
    - apply elem_of_list_singleton in Hin as ->. done.
    - apply elem_of_cons in Hin as [->|Hin]; [done|]. apply elem_of_list_singleton in Hin as ->. done.
    - destruct (decide _); [|by apply elem_of_nil in Hin]. apply elem_of_list_singleton in Hin as ->. done.
    - destruct (decide _); [|by apply elem_of_nil in Hin]. apply elem_of_list_singleton in Hin as ->. done.
    - apply elem_of_app in Hin as [Hin|Hin].
      + apply elem_of_list_lookup in Hin as [j Hj].
        destruct (Forall2_lookup_r _ _ _ _ _ ltac:(eassumption) Hj) as (g & _ & mid & _ & _ & _ & _ & _ & He & _). done.
      + destruct (decide _); [|by apply elem_of_nil in Hin]. apply elem_of_list_singleton in Hin as ->.
        destruct (decide _); done.
  Qed.

  Lemma saddle_facts :
    (forall f, f ∈ sa -> ft_kind f = KSaddle /\ exists p, data_cell m p /\ two_sided m p /\ stands_for m p f /\
       components (rim m p) (ft_hpn f)) /\
    (forall p, data_cell m p -> two_sided m p -> exists i f, sa !! i = Some f /\ covers f p).
  Proof.
    clear Hdm Hstd.
    destruct (run_corners fp orc m Hok Hfp) as (su' & sa' & ru0 & Ha & Hr).
    rewrite Hrun in Hr. injection Hr as <- <- _.
    destruct (saddles_exact fp orc m Hok Hfp) as (su' & sa' & ru' & Ha' & H1 & H2).
    rewrite Ha in Ha'. injection Ha' as <- <- <-. split.
    - intros f Hin. split.
      + unfold analyze in Ha. destruct (analyze_all fp orc m); cbn [rbind] in Ha; [|done]. injection Ha as _ <- _.
        by apply elem_of_list_filter in Hin as [? _].
      + destruct (H1 f Hin) as (p & ? & ? & ? & ? & _). exists p. done.
    - intros p Hp Ht. destruct (H2 p Hp Ht) as (i & f & ? & ? & _). eauto.
  Qed.

  Local Notation d0 := (dm_objects su objs ru).
  Lemma spots_apart a b : summit_same m (mp_world d0) a b = true -> a = b.
  Proof.
    destruct summit_facts as (_ & _ & S3 & _ & S5).
    unfold summit_same, summit_spot. destruct (Nat.eqb a b) eqn:Eab; [intros _; by apply Nat.eqb_eq|].
    cbn [orb dm_objects mp_world w_summits]. rewrite !list_lookup_fmap.
    destruct (su !! a) as [f|] eqn:Ef, (su !! b) as [g|] eqn:Eg; cbn; try done. intros Hs.
    apply spot_cell in Hs; [|done|done]. cbn in Hs. apply (S3 a b (ft_pos f)); [by apply S5|]. rewrite Hs. by apply S5.
  Qed.
  Lemma run_mesh : tidy m w /\ (forall k, room w 0 k) /\
    kept_lists (mp_saddles d0 ++ mp_runoffs d0) (mp_world d0) w /\
    (forall x, su_feat <$> w_summits w !! x = su !! x) /\ walkables m (feats_of w).
  Proof.
    destruct (objects_input fp orc m Hok Hfp su sa ru objs Hrun Hstd) as (I & _ & _).
    pose proof Hdm as Hdm'. unfold dm_walk in Hdm'.
    destruct (climb_from_saddles _ _ _ _ _ _) as [s1|e] eqn:E; [|done]. cbn [rbind] in Hdm'.
    destruct (walk_mesh fpath near m Hf Hnear Hok Hup Hlow Hpix Hreach _ _ _ s1 I E) as (T & R & K & F & W).
    - by eapply objects_bare.
    - apply spots_apart.
    - injection Hdm' as <- <-. cbn [mp_world]. split_and!; try done. intros x. rewrite F. cbn. rewrite list_lookup_fmap.
      by destruct (su !! x).
  Qed.

  Lemma run_claims :
    walk_links m dom (fun _ => []) 0 w (ws_feats s) (mp_linkers d) /\
    walk_output (mp_world d0) w (seq 0 (length objs) ++ seq (length objs) (length ru)) (ws_feats s) /\
    all_linked m dom (mp_world d0) w (seq 0 (length objs) ++ seq (length objs) (length ru)) (ws_feats s) /\
    mp_saddles d ++ mp_runoffs d ≡ₚ ws_feats s.
  Proof.
    destruct (objects_walk fpath fp orc near m Hf Hnear Hok Hup Hlow Hpix Hreach Hfp su sa ru objs Hrun Hstd)
      as (d' & s' & H2 & H3 & H4 & H5 & H6 & H7).
    rewrite Hdm in H2. injection H2 as <- <-. done.
  Qed.

  Lemma start_feature i o : w_saddles (mp_world d0) !! i = Some o ->
    (objs !! i = Some o /\ o ∈ objs) \/ (i ∈ seq (length objs) (length ru) /\ exists f, o = new_saddle f /\ f ∈ ru).
  Proof.
    intros Ho. cbn in Ho. apply lookup_app_Some in Ho as [Ho|[Hge Ho]].
    - left. split; [done|]. by eapply elem_of_list_lookup_2.
    - right. apply list_lookup_fmap_Some in Ho as (f & Hl & ->). split.
      + apply elem_of_seq. apply lookup_lt_Some in Hl. lia.
      + exists f. split; [done|]. by eapply elem_of_list_lookup_2.
  Qed.
  Lemma start_saddle i o : objs !! i = Some o ->
    i ∈ seq 0 (length objs) ++ seq (length objs) (length ru) /\ w_saddles (mp_world d0) !! i = Some o.
  Proof.
    intros Hi. split.
    - apply elem_of_app. left. apply elem_of_seq. apply lookup_lt_Some in Hi. lia.
    - cbn. by apply lookup_app_l_Some.
  Qed.

  Lemma in_summits i x : x ∈ Basin_spec.summits_of w i -> exists o k l, w_saddles w !! i = Some o /\ k ∈ sa_links o /\
    w_links w !! k = Some l /\ ln_summit l = x.
  Proof.
    unfold Basin_spec.summits_of. destruct (w_saddles w !! i) as [o|]; [|by intros ?%elem_of_nil].
    intros (k & Hk & Hl)%elem_of_list_omap. destruct (w_links w !! k) as [l|] eqn:El; [|done]. injection Hl as <-. eauto 10.
  Qed.
  Lemma summits_in i o k l : w_saddles w !! i = Some o -> k ∈ sa_links o -> w_links w !! k = Some l ->
    ln_summit l ∈ Basin_spec.summits_of w i.
  Proof.
    intros Ho Hk Hl. unfold Basin_spec.summits_of. rewrite Ho. apply elem_of_list_omap. exists k. by rewrite Hl.
  Qed.

  (** Where a saddle with links that is not disqualified comes from. *)
  Lemma saddle_origin i x : Basin_spec.not_disq w i -> x ∈ Basin_spec.summits_of w i ->
    exists p o f, data_cell m p /\ w_saddles w !! i = Some o /\ ft_edge (sa_feat o) = false /\ ft_ele (sa_feat o) = elev m p /\
      ft_kind (sa_feat o) = KSaddle /\ length (ft_hpn (sa_feat o)) = 2%nat /\ (forall g z, g ∈ ft_hpn (sa_feat o) -> z ∈ g -> rim m p z) /\
      f ∈ sa /\ stands_for m p f /\ (ft_edge f = false -> parent_of w i = None).
  Proof.
    intros (o & Ho & Hdq) (o' & k & l & Ho' & Hk & Hl & Ex)%in_summits. assert (o' = o) as -> by congruence.
    destruct run_claims as (HL & (segs & Hout & Hlen & HO) & _ & _).
    destruct (wl_saddle _ _ _ _ _ _ _ HL i o k Ho Hk ltac:(lia)) as (l' & Hl' & Ei). assert (l' = l) as -> by congruence.
    destruct (wl_link _ _ _ _ _ _ _ HL k l Hl ltac:(lia)) as (_ & _ & _ & _ & _ & _ & Hin & _). rewrite Ei, Hout in Hin.
    apply elem_of_concat in Hin as (seg & Hi & (n & Hn)%elem_of_list_lookup).
    destruct (lookup_lt_is_Some_2 (seq 0 (length objs) ++ seq (length objs) (length ru)) n) as [i0 Hi0].
    { rewrite <-Hlen. by eapply lookup_lt_Some. }
    assert (Hex : is_Some (w_saddles (mp_world d0) !! i0)).
    { apply elem_of_list_lookup_2 in Hi0. cbn. apply lookup_lt_is_Some. rewrite app_length, map_length.
      apply elem_of_app in Hi0 as [Hi0|Hi0]; apply elem_of_seq in Hi0; lia. }
    destruct Hex as [o0 Ho0]. destruct (HO n i0 o0 Hi0 Ho0) as (ps & seg' & Hseg & HP & Hfalse & Htrue).
    assert (seg' = seg) as -> by congruence. clear Hseg.
    pose proof (start_feature i0 o0 Ho0) as Hin0.
    assert (Hps : i ∈ ps).
    { destruct (ft_edge (sa_feat o0)) eqn:Ee; [|by destruct (Hfalse eq_refl) as [-> _]].
      destruct (Htrue eq_refl) as [(-> & (oi & Hoi & Hov) & _)|(-> & _ & _ & oi & Hoi & Hlt)].
      - apply elem_of_app in Hi as [?|Hi]; [done|]. apply elem_of_list_singleton in Hi as ->.
        assert (oi = o) as -> by congruence. unfold disqualified in Hdq. by rewrite Hov in Hdq.
      - apply elem_of_list_singleton in Hi as ->. assert (oi = o) as -> by congruence. apply Hlt in Hk. cbn in Hk. lia. }
    destruct HP as [(-> & Hor)|(Hlen2 & Hnr & Hnd & Hnew & es & _ & Hes)].
    - exfalso. apply elem_of_list_singleton in Hps as ->. destruct (ft_edge (sa_feat o0)) eqn:Ee.
      + destruct (Htrue eq_refl) as [(-> & (oi & Hoi & Hov) & _)|(-> & _ & _ & oi & Hoi & Hlt)].
        * assert (oi = o) as -> by congruence. unfold disqualified in Hdq. by rewrite Hov in Hdq.
        * assert (oi = o) as -> by congruence. apply Hlt in Hk. cbn in Hk. lia.
      + destruct Hin0 as [[_ Hin0]|(_ & f & -> & Hru)].
        * destruct (st_from _ _ _ Hstd o0 Hin0) as (_ & Hts & _). destruct Hor as [?|[? _]]; [lia|done].
        * apply runoff_kind in Hru as [? _]. cbn in Ee. congruence.
    - destruct Hin0 as [[_ Hin0]|(_ & f & -> & Hru)]; [|apply runoff_kind in Hru; by destruct Hnr].
      destruct (st_from _ _ _ Hstd o0 Hin0) as (Hk0 & Hts & f & p & Hsa & Hp & Hst & He & Hrim & Hedge).
      apply elem_of_list_lookup in Hps as [y Hy].
      destruct (Forall2_lookup_l _ _ _ _ _ Hes Hy) as ([e1 e2] & _ & o1 & pos & ga & gb & g & h & Ho1 & Hfe & _ & _ & _ & Hg & Hh & _ & _ & Hga & Hgb).
      assert (o1 = o) as -> by congruence. exists p, o, f. rewrite Hfe. cbn [ft_edge ft_ele ft_hpn ft_kind].
      split; [done|]. split; [done|]. split; [done|]. split; [done|]. split; [done|]. split; [done|]. split; [|split; [done|split; [done|]]].
      + intros g' z Hg' Hz.
        apply elem_of_cons in Hg' as [->|Hg'].
        * apply (Hrim h); [by eapply elem_of_list_lookup_2|by apply Hga].
        * apply elem_of_list_singleton in Hg' as ->. apply (Hrim g); [by eapply elem_of_list_lookup_2|by apply Hgb].
      + intros Ee. destruct (ft_edge (sa_feat o0)) eqn:Ee0; [rewrite (Hedge eq_refl) in Ee0; congruence|].
        destruct (Hfalse eq_refl) as [_ Hpar]. apply Hpar; [by eapply elem_of_list_lookup_2|].
        specialize (Hnew i). apply elem_of_list_lookup_2 in Hy as Hy'. specialize (Hnew Hy').
        apply lookup_lt_Some in Ho0. lia.
  Qed.

  (** Links lead up. *)
  Lemma saddle_ground i x : Basin_spec.not_disq w i -> x ∈ Basin_spec.summits_of w i -> exists p, data_cell m p /\
    elev m p = Basin_spec.ele_at w (inl i) /\
    forall y, y ∈ Basin_spec.summits_of w i -> exists t, dom y t /\ ground_joined m (elev m p) p t.
  Proof.
    intros Hnd Hx. destruct (saddle_origin i x Hnd Hx) as (p & o & f & Hp & Ho & _ & He & _ & Hlen & Hrim & _).
    exists p. split; [done|]. split; [cbn; by rewrite Ho|].
    intros y (o' & k & l & Ho' & Hk & Hl & Ey)%in_summits. assert (o' = o) as -> by congruence.
    destruct run_claims as (HL & _ & _ & _).
    destruct (wl_saddle _ _ _ _ _ _ _ HL i o k Ho Hk ltac:(lia)) as (l' & Hl' & Ei). assert (l' = l) as -> by congruence.
    destruct (wl_link _ _ _ _ _ _ _ HL k l Hl ltac:(lia)) as (o1 & _ & _ & Ho1 & _ & _ & _ & Hlead & _).
    assert (o1 = o) as -> by congruence. rewrite Ey in Hlead.
    destruct Hlead as [(g & z & t & Hg & Hz & Ht & Hu)|(Hnil & _)]; [|by rewrite Hnil in Hlen].
    exists t. split; [done|]. destruct (Hrim g z Hg Hz) as [Hr _]. eapply joined_trans; [by apply joined_rim|].
    eapply joined_low; [|by apply joined_uphill]. destruct Hr as (_ & ? & _). lia.
  Qed.

  (** Pieces of a saddle join the summits on their two sides. *)
  Lemma object_hops o0 : o0 ∈ objs ->
    exists es, spanning_tree (length (ft_hpn (sa_feat o0))) es /\ forall a b, (a, b) ∈ es ->
      exists x y ga gb za zb ta tb, ft_hpn (sa_feat o0) !! a = Some ga /\ ft_hpn (sa_feat o0) !! b = Some gb /\ za ∈ ga /\ zb ∈ gb /\
        dom x ta /\ uphill m (pt_xy za) ta /\ dom y tb /\ uphill m (pt_xy zb) tb /\
        Basin_spec.hop w (fun i => Basin_spec.ele_at w (inl i) = ft_ele (sa_feat o0)) x y.
  Proof.
    intros Hin0. apply elem_of_list_lookup in Hin0 as Hj. destruct Hj as [j Hj].
    destruct run_claims as (HL & _ & HA & _).
    destruct run_mesh as (T & _). destruct (start_saddle j o0 Hj) as [Hin Hst].
    destruct (HA j _ Hin Hst) as (ps & HP & Hall).
    destruct (st_from _ _ _ Hstd o0 Hin0) as (Hkind & Hts & _).
    destruct HP as [(_ & [?|[_ ?]])|(_ & _ & _ & _ & es & Htree & Hes)]; [lia|congruence|].
    exists es. split; [done|]. intros a b [n Hn]%elem_of_list_lookup.
    destruct (Forall2_lookup_r _ _ _ _ _ Hes Hn) as (i & Hi & o & pos & ga & gb & g & h & Ho & Hfe & _ & _ & _ & Hg & Hh & _ & _ & Hga & Hgb).
    cbn [fst snd] in *. apply elem_of_list_lookup_2 in Hi. destruct (Hall i Hi) as [_ Hlk].
    assert (Hside : forall g', g' ∈ [ga; gb] -> exists x z t, z ∈ g' /\ dom x t /\ uphill m (pt_xy z) t /\
      x ∈ Basin_spec.summits_of w i).
    { intros g' Hg'. destruct (Hlk o g' Ho) as (k & l & z & t & _ & Hl & El & Hz & Hd & Hu); [by rewrite Hfe|].
      exists (ln_summit l), z, t. split; [done|]. split; [done|]. split; [done|].
      destruct (wl_link _ _ _ _ _ _ _ HL k l Hl ltac:(lia)) as (o1 & _ & _ & Ho1 & _ & _ & _ & _ & _ & _ & _ & _ & (k' & Hk' & Hkk) & _).
      rewrite El in Ho1. assert (o1 = o) as -> by congruence.
      destruct (wl_saddle _ _ _ _ _ _ _ HL i o k' Ho Hk' ltac:(lia)) as (l' & Hl' & Ei).
      replace (ln_summit l) with (ln_summit l'); [by eapply summits_in|].
      destruct Hkk as [->|Hkk]; [congruence|]. unfold equal_links in Hkk. rewrite (link_same_ends _ _ _ _ _ _ Hl Hl') in Hkk.
      apply andb_true_iff in Hkk as [Hkk _]. by apply (t_apart _ _ T) in Hkk. }
    destruct (Hside ga) as (y & zb & tb & Hzb & Hdy & Huy & Hy); [by left|].
    destruct (Hside gb) as (x & za & ta & Hza & Hdx & Hux & Hx); [by right; left|].
    exists x, y, g, h, za, zb, ta, tb. split_and!; try done; [by apply Hgb|by apply Hga|].
    exists i. split_and!; try done.
    - cbn. rewrite Ho, Hfe. done.
    - exists o. split; [done|]. destruct (t_flags _ _ T i o Ho) as (F1 & F2 & F3). rewrite Hfe in F3. unfold disqualified.
      destruct F3 as [->|[_ ?]]; [by rewrite F1, F2|done].
  Qed.

  Lemma saddle_hops f : f ∈ sa ->
    exists es, spanning_tree (length (ft_hpn f)) es /\ forall a b, (a, b) ∈ es ->
      exists x y ga gb za zb ta tb, ft_hpn f !! a = Some ga /\ ft_hpn f !! b = Some gb /\ za ∈ ga /\ zb ∈ gb /\
        dom x ta /\ uphill m (pt_xy za) ta /\ dom y tb /\ uphill m (pt_xy zb) tb /\
        Basin_spec.hop w (fun i => Basin_spec.ele_at w (inl i) = ft_ele f) x y.
  Proof.
    intros Hj. destruct (st_tree _ _ _ Hstd f Hj) as [(o & Ho & <-)|(es & Htree & Hes)]; [by apply object_hops|].
    exists es. split; [done|]. intros a b Hab. destruct (Hes a b Hab) as (o & ga & gb & g & h & Ho & He & Hhp & Hg & Hh & Hga & Hgb).
    destruct (object_hops o Ho) as (es' & (_ & _ & Ht') & Hes'). rewrite Hhp in *. cbn [length] in Ht'.
    assert (Hswap : forall x y, Basin_spec.hop w (fun i => Basin_spec.ele_at w (inl i) = ft_ele (sa_feat o)) x y ->
      Basin_spec.hop w (fun i => Basin_spec.ele_at w (inl i) = ft_ele f) x y /\
      Basin_spec.hop w (fun i => Basin_spec.ele_at w (inl i) = ft_ele f) y x).
    { intros x y (i & H1 & H2 & H3 & H4). rewrite He in H1. split; by exists i. }
    assert (Hone : (0%nat, 1%nat) ∈ es' \/ (1%nat, 0%nat) ∈ es').
    { assert (Hr : forall q, q ∈ es' -> (q.1 < 2 /\ q.2 < 2)%nat).
      { intros [q1 q2] Hq. destruct (Hes' q1 q2 Hq) as (_ & _ & g1 & g2 & _ & _ & _ & _ & H1 & H2 & _).
        apply lookup_lt_Some in H1, H2. done. }
      pose proof (Ht' 0%nat 1%nat ltac:(lia) ltac:(lia)) as Hj'. clear -Hr Hj'.
      assert (Hgen : forall u v : nat, Tree_spec.joined es' u v -> u = 0%nat -> v = 1%nat -> (0%nat, 1%nat) ∈ es' \/ (1%nat, 0%nat) ∈ es').
      { induction 1 as [u|u v t Huv Hvt IH]; [lia|]. intros -> ->.
        assert (v = 0 \/ v = 1)%nat as [->| ->].
        { destruct Huv as [Hq|Hq]; apply Hr in Hq; cbn in Hq; lia. }
        - by apply IH.
        - destruct Huv; auto. }
      by eapply Hgen. }
    destruct Hone as [H1|H1]; destruct (Hes' _ _ H1) as (x & y & g1 & g2 & za & zb & ta & tb & Hg1 & Hg2 & Hza & Hzb & H3 & H4 & H5 & H6 & Hhop);
      cbn in Hg1, Hg2; injection Hg1 as <-; injection Hg2 as <-; apply Hswap in Hhop as [Hh1 Hh2].
    - exists y, x, g, h, zb, za, tb, ta. split_and!; auto.
    - exists x, y, g, h, za, zb, ta, tb. split_and!; auto.
  Qed.

  Local Notation up e := (fun i => e <= Basin_spec.ele_at w (inl i)).
  Lemma hops_low e e' x y : e' <= e -> Basin_spec.joined w (up e) x y -> Basin_spec.joined w (up e') x y.
  Proof.
    intros He. apply rtc_subrel. intros a b (i & H1 & H2). exists i. split; [lia|done].
  Qed.
  Lemma hops_sym e x y : Basin_spec.joined w (up e) x y -> Basin_spec.joined w (up e) y x.
  Proof.
    induction 1 as [|a b c (i & H1 & H2 & H3 & H4) _ IH]; [apply rtc_refl|]. eapply rtc_r; [exact IH|]. by exists i.
  Qed.

  (** What is claimed of a cell at its own level. *)
  Definition meets (c : xy) : Prop := forall x t y t', dom x t -> dom y t' -> uphill m c t -> uphill m c t' ->
    Basin_spec.joined w (up (elev m c)) x y.

  Lemma along e x : (forall c, high m e c -> meets c) -> forall a b, ground_joined m e a b ->
    (forall y t, dom y t -> uphill m a t -> Basin_spec.joined w (up e) x y) ->
    forall y t, dom y t -> uphill m b t -> Basin_spec.joined w (up e) x y.
  Proof.
    intros Hm a b Hab Ha. induction Hab as [H|b c Hab IH Hc Hbc]; [done|]. intros y t Hy Hu.
    assert (Hb : high m e b) by by eapply linked_in_r in Hab.
    destruct (Z.le_gt_cases (elev m b) (elev m c)).
    - apply (IH y t Hy). eapply not_down_uphill; [by split|apply Hb|done].
    - destruct (peak_above fp orc m Hok Hfp b) as (q & Hq & Huq); [apply Hb|].
      destruct summit_facts as (_ & _ & _ & S4 & _). destruct (S4 q Hq) as [z Hz].
      apply rtc_transitive with z; [by apply (IH z q)|].
      apply (hops_low (elev m c)); [apply Hc|]. apply (Hm c Hc z q y t); try done.
      eapply not_down_uphill; [|apply Hc|done]. split; [|lia]. destruct Hbc as (H1 & H2 & H3). split; [congruence|lia].
  Qed.

  Lemma cells_meet c : data_cell m c -> meets c.
  Proof.
    remember (above m (elev m c)) as n eqn:En. revert c En. induction (lt_wf n) as [n _ IH]. intros c -> Hc.
    set (e := elev m c) in *.
    assert (Hhi : forall q, high m (e + 1) q -> meets q).
    { intros q [Hq Hle]. apply (IH (above m (elev m q))); [apply above_lt; [apply Hq|lia]|done|done]. }
    clear IH. intros x t y t' Hx Hy Hu Hu'. destruct summit_facts as (S1 & S2 & S3 & S4 & _).
    destruct (uphill_exit _ _ _ Hu) as [Hs|(z & Hz & Hzu)].
    { assert (Hs' : same_flat m c t').
      { apply peak_uphill; [|done]. apply (peak_same m c t Hs). by eapply S1. }
      replace y with x; [apply rtc_refl|]. apply (S3 x y t'); [|done]. apply (S2 x t); [done|].
      eapply same_flat_trans; [by apply same_flat_sym|done]. }
    destruct (uphill_exit _ _ _ Hu') as [Hs|(z' & Hz' & Hzu')].
    { apply S1 in Hy. apply (peak_same m c t' Hs) in Hy as [_ Hy]. by apply Hy in Hz. }
    assert (Hrim : forall q, higher_rim m c q -> high m (e + 1) q).
    { intros q (Hq & Hlt & _). split; [done|]. unfold e. lia. }
    (* moving over the rim *)
    assert (Hmove : forall r a b, linked adj8 (higher_rim m c) a b -> 
      (forall q tq, dom q tq -> uphill m a tq -> Basin_spec.joined w (up e) r q) ->
      forall q tq, dom q tq -> uphill m b tq -> Basin_spec.joined w (up e) r q).
    { intros r a b Hab Ha q tq Hq Hqu.
      destruct (peak_above fp orc m Hok Hfp a) as (u & Hu0 & Hau); [apply linked_in_l in Hab; apply Hab|].
      destruct (S4 u Hu0) as [v Hv]. apply rtc_transitive with v; [by apply (Ha v u)|].
      apply (hops_low (e + 1)); [lia|]. eapply (along (e + 1) v Hhi a b); [|..|exact Hq|exact Hqu].
      - eapply linked_mono; [| |exact Hab]; auto.
      - intros v' u' Hv' Hau'. apply (hops_low (elev m a)).
        + apply linked_in_l in Hab. apply Hrim in Hab. apply Hab.
        + apply (Hhi a) with u u'; try done. apply linked_in_l in Hab. by apply Hrim. }
    assert (Hstart : forall q tq, dom q tq -> uphill m z tq -> Basin_spec.joined w (up e) x q).
    { intros q tq Hq Hqu. apply (hops_low (elev m z)); [destruct (Hrim z Hz); lia|].
      apply (Hhi z (Hrim z Hz)) with t tq; done. }
    destruct (rim_parts fp orc m Hok Hfp c Hc) as [hp Hhp].
    assert (Hzg : lift m z ∈ concat hp) by by apply (comp_all _ _ Hhp), rim_lift.
    assert (Hzg' : lift m z' ∈ concat hp) by by apply (comp_all _ _ Hhp), rim_lift.
    apply elem_of_concat in Hzg as (g & Hzg & (i & Hi)%elem_of_list_lookup).
    apply elem_of_concat in Hzg' as (g' & Hzg' & (i' & Hi')%elem_of_list_lookup).
    destruct (decide (i = i')) as [->|Hne].
    { eapply (Hmove x z z'); [|done|exact Hy|done]. apply linked_lift. by apply (comp_linked _ _ Hhp i' i' g g'). }
    assert (Hts : two_sided m c).
    { exists z, z'. split_and!; [done..|]. intros Hl%linked_lift. by apply (comp_linked _ _ Hhp i i' g g') in Hl. }
    clear hp Hhp g g' i i' Hzg Hzg' Hi Hi' Hne.
    destruct saddle_facts as (SF & SF2). destruct (SF2 c Hc Hts) as (j & f & Hj & Hcov).
    destruct (SF f) as (_ & p & Hp & _ & Hst & Hcp); [by eapply elem_of_list_lookup_2|].
    apply (sf_cells _ _ _ Hst) in Hcov. assert (Ee : ft_ele f = e) by (rewrite (sf_ele _ _ _ Hst); by apply same_flat_elev).
    assert (Hhp : components (rim m c) (ft_hpn f)).
    { eapply components_ext; [|exact Hcp]. intros q. by apply rim_pte. }
    clear Hcp Hst Hcov Hp p.
    destruct (saddle_hops f) as (es & (_ & _ & Htree) & Hes); [by eapply elem_of_list_lookup_2|].
    set (S := fun i => forall g q, ft_hpn f !! i = Some g -> q ∈ g -> forall v tv, dom v tv -> uphill m (pt_xy q) tv ->
      Basin_spec.joined w (up e) x v).
    assert (Hgroup : forall i g q q', ft_hpn f !! i = Some g -> q ∈ g -> q' ∈ g -> linked adj8 (higher_rim m c) (pt_xy q) (pt_xy q')).
    { intros i g q q' Hg Hq Hq'.
      assert (Hr : rim m c q). { apply (comp_all _ _ Hhp). apply elem_of_concat. exists g. split; [done|by eapply elem_of_list_lookup_2]. }
      assert (Hr' : rim m c q'). { apply (comp_all _ _ Hhp). apply elem_of_concat. exists g. split; [done|by eapply elem_of_list_lookup_2]. }
      apply linked_lift. rewrite <-(rim_is_lift _ _ _ Hr), <-(rim_is_lift _ _ _ Hr'). by apply (comp_linked _ _ Hhp i i g g). }
    assert (Hspread : forall i g q, ft_hpn f !! i = Some g -> q ∈ g ->
      (forall v tv, dom v tv -> uphill m (pt_xy q) tv -> Basin_spec.joined w (up e) x v) -> S i).
    { intros i g q Hg Hq Hv g1 q1 Hg1 Hq1 v tv Hdv Huv. assert (g1 = g) as -> by congruence.
      eapply (Hmove x (pt_xy q) (pt_xy q1)); [by eapply Hgroup|done|exact Hdv|done]. }
    assert (Hhopup : forall a b, Basin_spec.hop w (fun i => Basin_spec.ele_at w (inl i) = ft_ele f) a b ->
      Basin_spec.hop w (up e) a b).
    { intros a b (i & H1 & H2). exists i. split; [lia|done]. }
    assert (Hatq : forall q, rim m c q -> high m (e + 1) (pt_xy q)) by (intros q [Hq _]; auto).
    assert (Hrimq : forall i g q, ft_hpn f !! i = Some g -> q ∈ g -> rim m c q).
    { intros i g q Hg Hq. apply (comp_all _ _ Hhp). apply elem_of_concat. exists g. split; [done|by eapply elem_of_list_lookup_2]. }
    assert (Hpass : forall i g q v tv v' tv', ft_hpn f !! i = Some g -> q ∈ g -> dom v tv -> uphill m (pt_xy q) tv ->
      dom v' tv' -> uphill m (pt_xy q) tv' -> Basin_spec.joined w (up e) v v').
    { intros i g q v tv v' tv' Hg Hq Hv Huv Hv' Huv'. pose proof (Hatq q (Hrimq _ _ _ Hg Hq)) as Hh.
      apply (hops_low (elev m (pt_xy q))); [destruct Hh; lia|]. by apply (Hhi _ Hh) with tv tv'. }
    assert (Hedge : forall a b, (a, b) ∈ es -> (S a <-> S b)).
    { intros a b Hab. destruct (Hes a b Hab) as (u & v & ga & gb & za & zb & ta & tb & Hga & Hgb & Hza & Hzb & Hdu & Huu & Hdv & Huv & Hh).
      apply Hhopup in Hh. split; intros HS.
      - eapply (Hspread b gb zb); [done|done|]. intros v' tv' Hv' Huv'.
        apply rtc_transitive with u; [by eapply (HS ga za)|]. eapply rtc_l; [exact Hh|]. by eapply (Hpass b gb zb v tb).
      - eapply (Hspread a ga za); [done|done|]. intros v' tv' Hv' Huv'.
        apply rtc_transitive with v; [by eapply (HS gb zb)|]. eapply rtc_l.
        + destruct Hh as (i & H1 & H2 & H3 & H4). exists i. split_and!; [exact H1|exact H2|exact H4|exact H3].
        + by eapply (Hpass a ga za u ta). }
    assert (Hzg : lift m z ∈ concat (ft_hpn f)) by by apply (comp_all _ _ Hhp), rim_lift.
    assert (Hzg' : lift m z' ∈ concat (ft_hpn f)) by by apply (comp_all _ _ Hhp), rim_lift.
    apply elem_of_concat in Hzg as (g & Hzg & (i & Hi)%elem_of_list_lookup).
    apply elem_of_concat in Hzg' as (g' & Hzg' & (i' & Hi')%elem_of_list_lookup).
    assert (HSi : S i) by by eapply (Hspread i g (lift m z)).
    assert (HSi' : S i').
    { pose proof (Htree i i' (lookup_lt_Some _ _ _ Hi) (lookup_lt_Some _ _ _ Hi')) as Hj'. clear -Hj' HSi Hedge.
      induction Hj' as [|a b c' Hab _ IH]; [done|]. apply IH. destruct Hab as [Hab|Hab]; [by apply (Hedge a b)|by apply (Hedge b a)]. }
    by eapply (HSi' g' (lift m z')).
  Qed.

  Theorem terrain x y a b e : dom x a -> dom y b -> e <= elev m a -> e <= elev m b ->
    Basin_spec.joined w (up e) x y <-> ground_joined m e a b.
  Proof.
    intros Hx Hy Ha Hb. destruct summit_facts as (S1 & S2 & S3 & S4 & _). split.
    - intros HJ. revert a Hx Ha. induction HJ as [x|x z y Hxz _ IH]; intros a Hx Ha.
      + eapply joined_low; [exact Ha|]. apply joined_flat. by apply (S2 x).
      + destruct Hxz as (i & Hi & Hnd & Hxi & Hzi). destruct (saddle_ground i x Hnd Hxi) as (p & Hp & Ep & Hall).
        destruct (Hall x Hxi) as (t & Ht & Hpt). destruct (Hall z Hzi) as (t' & Ht' & Hpt').
        apply joined_trans with t; [eapply joined_low; [exact Ha|]; apply joined_flat; by apply (S2 x)|].
        apply joined_trans with p; [apply joined_sym; eapply joined_low; [|exact Hpt]; lia|].
        apply joined_trans with t'; [eapply joined_low; [|exact Hpt']; lia|].
        apply (IH Hy); [done|]. apply linked_in_r in Hpt' as [_ ?]. lia.
    - intros HJ. assert (Hda : data_cell m a) by by apply linked_in_l in HJ as [? _].
      assert (Hdb : data_cell m b) by by apply linked_in_r in HJ as [? _].
      eapply (along e x); [|exact HJ| |exact Hy|by apply uphill_refl].
      + intros c [Hc _]. by apply cells_meet.
      + intros z t Hz Hu. apply (hops_low (elev m a)); [done|].
        by apply (cells_meet a Hda x a z t Hx Hz (uphill_refl _ _ Hda) Hu).
  Qed.

  (** Higher ground can be reached if and only if a higher summit can. *)
  Theorem terrain_higher x a e : dom x a -> e <= elev m a ->
    (exists y b, dom y b /\ elev m a < elev m b /\ Basin_spec.joined w (up e) x y) <->
    (exists c, elev m a < elev m c /\ ground_joined m e a c).
  Proof.
    intros Hx He. destruct summit_facts as (_ & _ & _ & S4 & _). split.
    - intros (y & b & Hy & Hlt & HJ). exists b. split; [done|]. apply (terrain x y a b e); [done|done|done|lia|done].
    - intros (c & Hlt & HJ). assert (Hc : high m e c) by by apply linked_in_r in HJ.
      destruct (peak_above fp orc m Hok Hfp c) as (t & Ht & Hu); [apply Hc|]. destruct (S4 t Ht) as [y Hy].
      pose proof (joined_uphill m c t Hu) as HJt. assert (elev m c <= elev m t) by (apply linked_in_r in HJt; apply HJt).
      exists y, t. split; [done|]. split; [lia|]. apply (terrain x y a t e); [done|done|done|destruct Hc; lia|].
      eapply joined_trans; [exact HJ|]. eapply joined_low; [|exact HJt]. apply Hc.
  Qed.
End terrain.
