(** The whole analysis: a walked map is fit for basin saddle detection. *)
From Verif Require Import Tree_spec Walk_model Run_model Raster_spec Raster_proof Raster_facts Contig_proof Blob_proof
  Closest_spec Closest_proof Feature_spec Scan_proof Feature_facts Nodata_proof Network_spec Rebuild_proof Climb_spec
  Climb_proof Climb_facts Graph_spec Graph_proof Walk_spec Walk_proof Synth_proof Links_proof Steps_proof One_proof
  Walk_facts Found_proof Again_proof Walked_proof Mesh_proof Start_proof Terrain_spec Terrain_proof.
From Verif Require Basin_spec Run_spec Basin_proof Detect_proof.
From Coq Require Import ZifyBool.
Local Open Scope Z_scope.

(** ** Walking a runoff makes no saddle *)
Definition calm (w w' : world) : Prop :=
  length (w_saddles w') = length (w_saddles w) /\
  (forall j, sa_feat <$> w_saddles w' !! j = sa_feat <$> w_saddles w !! j) /\
  (forall d u, w_summits w !! d = Some u -> exists u', w_summits w' !! d = Some u' /\
     forall k, k ∈ su_links u -> k ∈ su_links u') /\
  w_links w `prefix_of` w_links w'.
Lemma calm_refl w : calm w w.
Proof. split_and!; try done. intros d u Hu. by exists u. Qed.
Lemma calm_trans w1 w2 w3 : calm w1 w2 -> calm w2 w3 -> calm w1 w3.
Proof.
  intros (A1 & A2 & A3 & A4) (B1 & B2 & B3 & B4). split_and!.
  - congruence.
  - intros j. by rewrite B2.
  - intros d u Hu. destruct (A3 d u Hu) as (u2 & Hu2 & H2). destruct (B3 d u2 Hu2) as (u3 & Hu3 & H3). exists u3. auto.
  - by etrans.
Qed.
Lemma calm_saddle i f w : (forall o, sa_feat (f o) = sa_feat o) -> calm w (upd_saddle i f w).
Proof.
  intros Hf. split_and!; cbn.
  - apply alter_length.
  - intros j. change (alter f i (w_saddles w) !! j) with (w_saddles (upd_saddle i f w) !! j). rewrite upd_saddle_lookup.
    destruct (decide _); [|done]. destruct (w_saddles w !! j); cbn; [by rewrite Hf|done].
  - intros d u Hu. by exists u.
  - done.
Qed.
Lemma calm_summit d f w : (forall o, exists l, su_links (f o) = su_links o ++ l) -> calm w (upd_summit d f w).
Proof.
  intros Hf. split_and!; try done. intros e u Hu. rewrite upd_summit_lookup. destruct (decide _); [|by exists u].
  rewrite Hu. cbn. eexists. split; [done|]. intros k Hk. destruct (Hf u) as [l ->]. apply elem_of_app. by left.
Qed.
Lemma calm_remote m b k w : calm w (add_to_remote m b k w).
Proof.
  unfold add_to_remote. destruct (w_links w !! k) as [l|]; [|apply calm_refl].
  set (f := fun s : summit => _). set (g := fun s : saddle => _).
  assert (Hf : forall w, calm w (upd_summit (ln_summit l) f w)) by (intros; apply calm_summit; intros o; by eexists).
  assert (Hg : forall w, calm w (upd_saddle (ln_saddle l) g w)) by (intros; by apply calm_saddle).
  destruct (_ && _), (_ && _); try apply calm_refl; try apply Hf; try apply Hg.
  eapply calm_trans; [apply Hf|apply Hg].
Qed.
Lemma calm_links w l : calm w (World (w_saddles w) (w_summits w) (w_links w ++ l)).
Proof. split_and!; try done; [intros d u Hu; by exists u|by apply prefix_app_r]. Qed.
Lemma calm_link m b d k s : calm (ws_world s) (ws_world (link_saddle m b d k s)).
Proof.
  unfold link_saddle. cbn [ws_world]. eapply calm_trans; [|apply calm_remote].
  eapply calm_trans; [|apply calm_links]. apply calm_summit. intros o. exists []. by rewrite app_nil_r.
Qed.
Lemma calm_edges m b k hs : forall s s', foldM (link_edge m b k) hs s = Ok s' -> calm (ws_world s) (ws_world s').
Proof.
  induction hs as [|h hs IH]; intros s s' H; cbn [foldM] in H; [injection H as <-; apply calm_refl|].
  unfold link_edge at 1 in H. destruct h as [|h0 h]; [done|].
  destruct (cs_table _ !! _) as [d|]; cbn [rbind] in H; [|by apply IH].
  eapply calm_trans; [apply (calm_link m b d k)|by apply IH].
Qed.
Lemma calm_edge_saddle m i k s s' : edge_saddle m i k s = Ok s' -> calm (ws_world s) (ws_world s').
Proof.
  unfold edge_saddle. destruct (hpn_of k s) as [hs|]; [|done]. cbn [rbind].
  destruct (foldM _ _ _) as [s1|] eqn:E; [|done]. cbn [rbind]. intros [= <-]. cbn [ws_world add_feat set_world].
  eapply calm_trans; [by eapply calm_edges|].
  eapply calm_trans; [|by apply calm_saddle]. eapply calm_trans; by apply calm_saddle.
Qed.

Section calm.
  Variables (fpath : datamap -> list mpoint -> mpoint -> mpoint -> option (list mpoint * Q)).
  Variables (near : searches) (m : datamap).

  Lemma calm_climb k s s' : climb_edges near m k s = Ok s' -> ws_world s' = ws_world s.
  Proof.
    unfold climb_edges. destruct (hpn_of k s); cbn [rbind]; [|done].
    destruct (foldM _ _ _); cbn [rbind]; [|done]. by intros [= <-].
  Qed.

  Lemma calm_one i o s s' : w_saddles (ws_world s) !! i = Some o -> ft_edge (sa_feat o) = true ->
    ft_kind (sa_feat o) = KRunoff -> walk_one fpath near m i s = Ok s' -> calm (ws_world s) (ws_world s').
  Proof.
    intros Ho He Hk. unfold walk_one. rewrite Ho, He. unfold walk_border.
    destruct (climb_edges near m i s) as [s1|] eqn:E1; [|done]. cbn [rbind]. apply calm_climb in E1.
    rewrite E1, Ho. rewrite decide_True by done. rewrite <-E1 in Ho |- *. clear E1.
    destruct (decide (ft_hpn (sa_feat o) = [])) as [Hn|Hn].
    - destruct (latlong_to_xy m _ _) as [c|]; [|done]. cbn [rbind]. destruct (cs_table _ !! _) as [d|].
      + set (s2 := link_saddle m true d i s1). assert (C : calm (ws_world s1) (ws_world s2)) by apply calm_link.
        unfold generate_synthetic_saddles. destruct (w_saddles (ws_world s2) !! i) as [o2|] eqn:Ho2; [|done].
        assert (sa_feat o2 = sa_feat o) as ->.
        { destruct C as (_ & C & _). specialize (C i). rewrite Ho2, Ho in C. by injection C. }
        rewrite Hn. cbn [rbind foldM]. destruct (edge_saddle m i i _) as [s3|] eqn:E3; [|done]. cbn [rbind]. intros [= <-].
        apply calm_edge_saddle in E3. cbn [ws_world set_world add_feat] in *. eapply calm_trans; [exact C|].
        eapply calm_trans; [exact E3|by apply calm_saddle].
      + intros [= <-]. apply calm_refl.
    - cbn [foldM]. destruct (edge_saddle m i i s1) as [s3|] eqn:E3; [|done]. cbn [rbind]. intros [= <-].
      apply calm_edge_saddle in E3. cbn [ws_world set_world add_feat] in *.
      eapply calm_trans; [exact E3|by apply calm_saddle].
  Qed.

  Lemma calm_all l : forall s s', (forall i, i ∈ l -> exists o, w_saddles (ws_world s) !! i = Some o /\
      ft_edge (sa_feat o) = true /\ ft_kind (sa_feat o) = KRunoff) ->
    foldM (walk_one fpath near m) l s = Ok s' -> calm (ws_world s) (ws_world s').
  Proof.
    induction l as [|i l IH]; intros s s' Hl H; cbn [foldM] in H; [injection H as <-; apply calm_refl|].
    destruct (walk_one fpath near m i s) as [s1|] eqn:E; [|done]. cbn [rbind] in H.
    destruct (Hl i) as (o & Ho & He & Hk); [by left|]. pose proof (calm_one i o s s1 Ho He Hk E) as C.
    eapply calm_trans; [exact C|]. apply IH; [|done]. intros j Hj. destruct (Hl j) as (oj & Hoj & Hej & Hkj); [by right|].
    destruct C as (_ & C & _). specialize (C j). rewrite Hoj in C. destruct (w_saddles (ws_world s1) !! j) as [o'|]; [|done].
    injection C as C. exists o'. by rewrite C.
  Qed.
End calm.

(** ** The graph after the walk *)
Section run.
  Variables (fpath : datamap -> list mpoint -> mpoint -> mpoint -> option (list mpoint * Q)).
  Variables (fp : datamap -> list xy -> xy -> xy -> option Q) (orc : xy -> nat -> nat -> nat).
  Variables (near : searches) (m : datamap).
  Hypotheses (Hf : mpaths_found fpath m) (Hnear : sound_searches near m) (Hok : map_ok m) (Hup : north_up m)
    (Hlow : climbable m) (Hpix : pixels_in_reach m) (Hreach : map_in_reach m) (Hfp : paths_found fp m)
    (Hfine : fine_grid m).

  Section walked.
  Variables (su sa ru : list feature) (objs : list saddle) (d : dmap) (s : walk_state).
  Hypotheses (Hrun : run_no_rebuild fp orc m = Ok (su, sa, ru)) (Hstd : started m sa objs)
    (Hdm : dm_walk fpath near m (dm_objects su objs ru) = Ok (d, s)).
  Local Notation w := (mp_world d).
  Local Notation w0 := (mp_world (dm_objects su objs ru)).

  Lemma run_mesh2 : exists w1, tidy m w1 /\ kept_lists (seq 0 (length objs)) w0 w1 /\
    kept_lists (seq (length objs) (length ru)) w1 w /\ calm w1 w /\
    (forall x, su_feat <$> w_summits w1 !! x = su_feat <$> w_summits w !! x) /\
    mp_saddles d = filter (fun i => is_runoff w i = false) (ws_feats s).
  Proof.
    destruct (objects_input fp orc m Hok Hfp su sa ru objs Hrun Hstd) as (I & _ & _).
    pose proof Hdm as Hdm'. unfold dm_walk in Hdm'.
    destruct (climb_from_saddles _ _ _ _ _ _) as [s'|e] eqn:E; [|done]. cbn [rbind] in Hdm'.
    destruct (walk_mesh2 fpath near m Hf Hnear Hok Hup Hlow Hpix Hreach _ _ (seq 0 (length objs)) (seq (length objs) (length ru)) s' I E)
      as (s1 & E1 & T1 & K1 & K2 & T & R & F & F1 & W).
    - by eapply objects_bare.
    - by eapply (spots_apart fp orc m).
    - injection Hdm' as <- <-. cbn [mp_world mp_saddles]. exists (ws_world s1). split_and!; try done.
      + eapply calm_all; [|exact E1]. intros i Hi%elem_of_seq.
        assert (Hi' : (i - length objs < length ru)%nat) by lia. apply lookup_lt_is_Some in Hi' as [f Hfi].
        destruct (K1 i (new_saddle f)) as (o & Ho & Hof & _).
        { cbn. rewrite lookup_app_r, list_lookup_fmap, Hfi by lia. done. }
        exists o. rewrite Hof. split; [done|]. cbn. eapply (runoff_kind fp orc m Hok Hfp su sa ru Hrun). by eapply elem_of_list_lookup_2.
      + intros x. by rewrite F, F1.
  Qed.

  Lemma listed_saddle i x : Basin_spec.not_disq w i -> x ∈ Basin_spec.summits_of w i -> i ∈ mp_saddles d.
  Proof.
    intros Hnd Hx.
    destruct (saddle_origin fpath fp orc near m Hf Hnear Hok Hup Hlow Hpix Hreach Hfp su sa ru objs d s Hrun Hstd Hdm i x Hnd Hx)
      as (p & o & f & _ & Ho & _ & _ & Hkind & _).
    destruct run_mesh2 as (w1 & _ & _ & _ & _ & _ & ->). apply elem_of_list_filter. split.
    - unfold is_runoff. rewrite Ho, Hkind. done.
    - destruct (in_summits d i x Hx) as (o' & k & l & Ho' & Hk & Hl & Ex). assert (o' = o) as -> by congruence.
      destruct (run_claims fpath fp orc near m Hf Hnear Hok Hup Hlow Hpix Hreach Hfp su sa ru objs d s Hrun Hstd Hdm) as (HL & _).
      destruct (wl_saddle _ _ _ _ _ _ _ HL i o k Ho Hk ltac:(lia)) as (l' & Hl' & Ei). assert (l' = l) as -> by congruence.
      destruct (wl_link _ _ _ _ _ _ _ HL k l Hl ltac:(lia)) as (_ & _ & _ & _ & _ & _ & Hin & _). by rewrite Ei in Hin.
  Qed.

  Lemma runoff_index i : i ∈ seq (length objs) (length ru) -> exists f, w_saddles w0 !! i = Some (new_saddle f) /\ ft_kind f = KRunoff.
  Proof.
    intros Hi%elem_of_seq. assert (Hi' : (i - length objs < length ru)%nat) by lia. apply lookup_lt_is_Some in Hi' as [f Hfi].
    exists f. split; [cbn; rewrite lookup_app_r, list_lookup_fmap, Hfi by lia; done|].
    eapply (runoff_kind fp orc m Hok Hfp su sa ru Hrun). by eapply elem_of_list_lookup_2.
  Qed.

  Lemma walked_kind i o : i ∈ ws_feats s -> i ∉ seq (length objs) (length ru) -> w_saddles w !! i = Some o ->
    ft_kind (sa_feat o) = KSaddle /\ (ft_edge (sa_feat o) = true -> sa_feat o ∈ sa).
  Proof.
    intros Hin HiB Ho.
    destruct (run_mesh fpath fp orc near m Hf Hnear Hok Hup Hlow Hpix Hreach Hfp Hfine su sa ru objs d s Hrun Hstd Hdm) as (_ & _ & KL & _).
    destruct (run_claims fpath fp orc near m Hf Hnear Hok Hup Hlow Hpix Hreach Hfp su sa ru objs d s Hrun Hstd Hdm)
      as (_ & (segs & Hout & Hlen & HO) & _).
    assert (Hown : i ∈ seq 0 (length objs) ++ seq (length objs) (length ru) ->
      ft_kind (sa_feat o) = KSaddle /\ (ft_edge (sa_feat o) = true -> sa_feat o ∈ sa)).
    { intros [Hi|Hi]%elem_of_app; [|done]. apply elem_of_seq in Hi. assert (Hlt : (i < length objs)%nat) by lia.
      apply lookup_lt_is_Some in Hlt as [o0 Hfi]. destruct (KL i o0) as (o2 & Ho2 & Hf2 & _).
      { cbn. by apply lookup_app_l_Some. }
      assert (o2 = o) as -> by congruence. rewrite Hf2. apply elem_of_list_lookup_2 in Hfi.
      destruct (st_from _ _ _ Hstd o0 Hfi) as (Hk & _ & f & p & Hsa & _ & _ & _ & _ & Hed). split; [done|].
      intros He. by rewrite (Hed He). }
    rewrite Hout in Hin. apply elem_of_concat in Hin as (seg & Hi & (n & Hn)%elem_of_list_lookup).
    destruct (lookup_lt_is_Some_2 (seq 0 (length objs) ++ seq (length objs) (length ru)) n) as [i0 Hi0].
    { rewrite <-Hlen. by eapply lookup_lt_Some. }
    apply elem_of_list_lookup_2 in Hi0 as Hin0.
    assert (Hex : is_Some (w_saddles w0 !! i0)).
    { cbn. apply lookup_lt_is_Some. rewrite app_length, map_length.
      apply elem_of_app in Hin0 as [Hx|Hx]; apply elem_of_seq in Hx; lia. }
    destruct Hex as [o0 Ho0]. destruct (HO n i0 o0 Hi0 Ho0) as (ps & seg' & Hseg & HP & Hfalse & Htrue).
    assert (seg' = seg) as -> by congruence. clear Hseg.
    assert (Hcase : i ∈ ps \/ i = i0).
    { destruct (ft_edge (sa_feat o0)) eqn:Ee; [|by destruct (Hfalse eq_refl) as [-> _]; left].
      destruct (Htrue eq_refl) as [(-> & _)|(-> & _)].
      - apply elem_of_app in Hi as [?|Hi]; [by left|right]. by apply elem_of_list_singleton in Hi.
      - right. by apply elem_of_list_singleton in Hi. }
    destruct Hcase as [Hps| ->]; [|by apply Hown].
    destruct HP as [(-> & _)|(_ & _ & _ & _ & es & _ & Hes)].
    - apply elem_of_list_singleton in Hps as ->. by apply Hown.
    - apply elem_of_list_lookup in Hps as [y Hy].
      destruct (Forall2_lookup_l _ _ _ _ _ Hes Hy) as (e & _ & o1 & pos & ga & gb & g & h & Ho1 & Hfe & _).
      assert (o1 = o) as -> by congruence. rewrite Hfe. done.
  Qed.

  Lemma omap_short {A B} (f : A -> option B) l : (length (omap f l) <= length l)%nat.
  Proof. induction l as [|x l IH]; cbn; [lia|]. destruct (f x); cbn; lia. Qed.

  Lemma walked_graph : Run_spec.border_apart m w (mp_saddles d) -> Basin_spec.basin_graph m w (mp_saddles d).
  Proof.
    intros Hap.
    destruct (run_mesh fpath fp orc near m Hf Hnear Hok Hup Hlow Hpix Hreach Hfp Hfine su sa ru objs d s Hrun Hstd Hdm) as (T & R & KL & F & W).
    destruct (run_claims fpath fp orc near m Hf Hnear Hok Hup Hlow Hpix Hreach Hfp su sa ru objs d s Hrun Hstd Hdm) as (HL & _).
    assert (Hopen : forall i, Basin_spec.open_ w (inl i) -> Basin_spec.not_disq w i).
    { intros i (o & Ho & Hd & _). by exists o. }
    split.
    - intros i Hop Hne. destruct (Basin_spec.summits_of w i) as [|x l] eqn:El; [done|].
      apply (listed_saddle i x); [by apply Hopen|rewrite El; by left].
    - intros i Hop. destruct (Basin_spec.summits_of w i) as [|x l] eqn:El; [cbn; lia|]. rewrite <-El.
      destruct (saddle_origin fpath fp orc near m Hf Hnear Hok Hup Hlow Hpix Hreach Hfp su sa ru objs d s Hrun Hstd Hdm i x (Hopen i Hop))
        as (p & o & f & _ & Ho & He & _ & _ & Hlen & _); [rewrite El; by left|].
      pose proof (R i o Ho He) as HR. rewrite Hlen in HR. unfold Basin_spec.summits_of. rewrite Ho.
      pose proof (omap_short (fun k => ln_summit <$> w_links w !! k) (sa_links o)). lia.
    - intros i o k Hop Ho Hk. destruct (t_sa _ _ T i o k Ho Hk) as (l & Hl & Ei). exists l. split; [done|]. split; [done|].
      intros u Hu _.
      assert (Hx : ln_summit l ∈ Basin_spec.summits_of w i) by by eapply summits_in.
      destruct (sa_parent o) as [pa|] eqn:Epa.
      + destruct run_mesh2 as (w1 & T1 & K1 & K2 & C & F1 & _).
        destruct (saddle_origin fpath fp orc near m Hf Hnear Hok Hup Hlow Hpix Hreach Hfp su sa ru objs d s Hrun Hstd Hdm i _ (Hopen i Hop) Hx)
          as (p & o' & f & _ & Ho' & _ & _ & Hkind & _). assert (o' = o) as -> by congruence.
        destruct C as (C1 & C2 & C3 & C4).
        assert (HiB : i ∉ seq (length objs) (length ru)).
        { intros HiB. destruct (runoff_index i HiB) as (g & Hg & Hkg). destruct (KL i _ Hg) as (o2 & Ho2 & Hf2 & _).
          assert (o2 = o) as -> by congruence. rewrite Hf2 in Hkind. cbn in Hkind. congruence. }
        destruct (w_saddles w1 !! i) as [o1|] eqn:Ho1.
        2: { exfalso. apply lookup_ge_None in Ho1. apply lookup_lt_Some in Ho. lia. }
        destruct (K2 i o1 Ho1) as (o2 & Ho2 & Hf2 & Hl2). assert (o2 = o) as -> by congruence.
        specialize (Hl2 HiB). rewrite Hl2 in Hk. destruct (t_sa _ _ T1 i o1 k Ho1 Hk) as (l1 & Hl1 & Ei1).
        assert (Hl1' : w_links w !! k = Some l1) by by eapply prefix_lookup.
        assert (l1 = l) as -> by congruence. clear Hl1'.
        assert (Hgrow : forall u1, w_summits w1 !! ln_summit l = Some u1 -> k ∈ su_links u1 -> k ∈ su_links u).
        { intros u1 Hu1 Hk1. destruct (C3 _ _ Hu1) as (u' & Hu' & Hinc). assert (u' = u) as -> by congruence. auto. }
        destruct (t_other _ _ T1 i o1 k l Ho1 Hk Hl1) as (u1 & Hu1 & [Hk1|(k' & l' & Hk' & Hl' & Hne & Hsame)]); [by apply (Hgrow u1)|].
        exfalso. destruct (t_both _ _ T1 _ _ _ _ Hu1 Hk' Hl') as (oj & Hoj & Hkj).
        destruct (t_su _ _ T1 _ _ _ Hu1 Hk') as (l'' & Hl'' & Ex). assert (l'' = l') as -> by congruence.
        set (j' := ln_saddle l') in *.
        assert (HjB : j' ∉ seq (length objs) (length ru)).
        { intros HjB. destruct (runoff_index j' HjB) as (g & Hg & _). destruct (K1 j' _ Hg) as (o3 & Ho3 & _ & Hl2').
          assert (o3 = oj) as -> by congruence. rewrite Hl2' in Hkj; [by apply elem_of_nil in Hkj|].
          intros H1%elem_of_seq. apply elem_of_seq in HjB. lia. }
        destruct (K2 j' oj Hoj) as (oj' & Hoj' & Hfj & Hlj). specialize (Hlj HjB).
        apply Hne. symmetry. apply (Hap i j' (ln_summit l)).
        * by apply (listed_saddle i (ln_summit l)); [apply Hopen|].
        * assert (Hout : j' ∈ ws_feats s).
          { assert (Hlw : w_links w !! k' = Some l') by by eapply prefix_lookup.
            destruct (wl_link _ _ _ _ _ _ _ HL k' l' Hlw ltac:(lia)) as (_ & _ & _ & _ & _ & _ & Hin & _). exact Hin. }
          destruct run_mesh2 as (_ & _ & _ & _ & _ & _ & ->). apply elem_of_list_filter. split; [|done].
          unfold is_runoff. rewrite Hoj'. apply bool_decide_eq_false. intros Hkr.
          destruct (walked_kind j' oj' Hout HjB Hoj'). congruence.
        * unfold parent_of. rewrite Ho. cbn. by rewrite Epa.
        * done.
        * rewrite <-Ex. eapply summits_in; [exact Hoj'|by rewrite Hlj|by eapply prefix_lookup].
        * apply link_same_inv in Hsame as (x1 & x2 & Hx1 & Hx2 & _ & Hss). assert (x1 = l) as -> by congruence.
          assert (x2 = l') as -> by congruence. rewrite Ei in Hss. fold j' in Hss.
          rewrite <-Hss. apply saddle_same_spots. intros y. unfold saddle_spot. specialize (C2 y).
          destruct (w_saddles w !! y), (w_saddles w1 !! y); cbn in *; congruence.
      + destruct (wl_link _ _ _ _ _ _ _ HL k l Hl ltac:(lia)) as (o1 & u1 & _ & Ho1 & Hu1 & _ & _ & _ & _ & _ & _ & _ & _ & _ & Hboth).
        rewrite Ei in Ho1. assert (o1 = o) as -> by congruence. assert (u1 = u) as -> by congruence. by apply Hboth.
    - intros a u k _ Hu Hk. destruct (t_su _ _ T a u k Hu Hk) as (l & Hl & Ea). exists l. split; [done|]. split; [done|].
      intros o Ho _ _. destruct (t_both _ _ T a u k l Hu Hk Hl) as (o' & Ho' & Hk'). congruence.
    - intros a u _. apply (t_sund _ _ T).
    - intros i a (Hop & _ & Ha). cbn [Basin_spec.edge] in Ha.
      destruct (saddle_origin fpath fp orc near m Hf Hnear Hok Hup Hlow Hpix Hreach Hfp su sa ru objs d s Hrun Hstd Hdm i a (Hopen i Hop) Ha)
        as (p & o & f & _ & Ho & _ & _ & _ & Hlen & _).
      destruct (in_summits d i a Ha) as (o' & k & l & Ho' & Hk & Hl & Ex). assert (o' = o) as -> by congruence.
      destruct (t_sa _ _ T i o k Ho Hk) as (l' & Hl' & Ei). assert (l' = l) as -> by congruence.
      destruct (wl_link _ _ _ _ _ _ _ HL k l Hl ltac:(lia)) as (o1 & u1 & _ & Ho1 & Hu1 & _ & _ & _ & Hlt & _).
      rewrite Ei in Ho1. assert (o1 = o) as -> by congruence. rewrite Ex in Hu1. cbn. rewrite Ho, Hu1. apply Hlt.
      intros Hn. by rewrite Hn in Hlen.
    - apply (t_apart _ _ T).
  Qed.

  Lemma walked_override : Basin_spec.no_override w.
  Proof.
    destruct (run_mesh fpath fp orc near m Hf Hnear Hok Hup Hlow Hpix Hreach Hfp Hfine su sa ru objs d s Hrun Hstd Hdm) as (T & _).
    intros i o Ho. destruct (t_flags _ _ T i o Ho) as (_ & _ & [->|[-> _]]); done.
  Qed.
  Lemma walked_kept : Basin_spec.kept_proper m w.
  Proof. intros i o Ho Hov. by destruct (walked_override i o Ho). Qed.

  (** Without border saddles there is nothing to keep apart. *)
  Lemma no_border_apart : (forall f, f ∈ sa -> ft_edge f = false) -> Run_spec.border_apart m w (mp_saddles d).
  Proof.
    intros Hnb i j x Hi _ [pa Hpa] Hx _ _. exfalso.
    destruct (run_mesh fpath fp orc near m Hf Hnear Hok Hup Hlow Hpix Hreach Hfp Hfine su sa ru objs d s Hrun Hstd Hdm) as (T & _).
    destruct (in_summits d i x Hx) as (o & k & l & Ho & _).
    assert (Hnd : Basin_spec.not_disq w i).
    { exists o. split; [done|]. destruct (t_flags _ _ T i o Ho) as (F1 & F2 & [F3|[_ He]]); unfold disqualified; rewrite ?F3, ?F1, ?F2; [done|].
      exfalso. destruct run_mesh2 as (_ & _ & _ & _ & _ & _ & Hms). rewrite Hms in Hi. apply elem_of_list_filter in Hi as [Hnr Hi].
      destruct (walked_kind i o Hi) as [_ Hs]; [|done|].
      - intros HiB. destruct (runoff_index i HiB) as (g & Hg & Hkg).
        destruct (run_mesh fpath fp orc near m Hf Hnear Hok Hup Hlow Hpix Hreach Hfp Hfine su sa ru objs d s Hrun Hstd Hdm) as (_ & _ & KL & _).
        destruct (KL i _ Hg) as (o2 & Ho2 & Hf2 & _). assert (o2 = o) as -> by congruence.
        unfold is_runoff in Hnr. rewrite Ho in Hnr. apply bool_decide_eq_false in Hnr. apply Hnr. by rewrite Hf2.
      - specialize (Hnb _ (Hs He)). congruence. }
    destruct (saddle_origin fpath fp orc near m Hf Hnear Hok Hup Hlow Hpix Hreach Hfp su sa ru objs d s Hrun Hstd Hdm i x Hnd Hx)
      as (p & o' & f & _ & _ & _ & _ & _ & _ & _ & Hj & _ & Hpar).
    rewrite Hpar in Hpa; [done|]. by apply Hnb.
  Qed.
  End walked.

  Section detected.
  Variables (su sa ru : list feature) (objs : list saddle) (d : dmap) (s : walk_state).
  Hypotheses (Hrun : run_no_rebuild fp orc m = Ok (su, sa, ru)) (Hstd : started m sa objs)
    (Hdm : dm_walk fpath near m (dm_objects su objs ru) = Ok (d, s))
    (Hap : Run_spec.border_apart m (mp_world d) (mp_saddles d)).

  Lemma run_parts fuel d' : dm_detect fuel m d = Ok d' ->
    Basin_model.disqualify_basin_saddles m fuel (mp_world d) (mp_saddles d) = Ok (mp_world d') /\
    Basin_spec.basin_graph m (mp_world d) (mp_saddles d) /\ Basin_spec.kept_proper m (mp_world d) /\
    mp_summits d' = mp_summits d /\ mp_saddles d' = mp_saddles d /\ mp_runoffs d' = mp_runoffs d /\ mp_linkers d' = mp_linkers d.
  Proof.
    intros H. unfold dm_detect in H.
    destruct (Basin_model.disqualify_basin_saddles _ _ _ _) as [w'|] eqn:E; [|done]. cbn [rbind] in H. injection H as <-. cbn.
    split; [done|]. split; [by eapply walked_graph|]. split; [by eapply walked_kept|]. done.
  Qed.

  Lemma parts_complete fuel : (length (mp_saddles d) + length (w_saddles (mp_world d)) < fuel)%nat ->
    exists d', dm_detect fuel m d = Ok d'.
  Proof.
    intros Hfuel. destruct (Detect_proof.detect_completes m (mp_world d) (mp_saddles d) fuel) as [w' Hw'].
    - by eapply walked_graph.
    - by eapply walked_override.
    - done.
    - unfold dm_detect. rewrite Hw'. cbn. by eexists.
  Qed.

  Lemma parts_forest fuel d' : dm_detect fuel m d = Ok d' ->
    forall c, ~ Basin_spec.closed (Basin_spec.open_edge (mp_world d')) c.
  Proof.
    intros H. destruct (run_parts fuel d' H) as (E & G & K & _).
    by apply (Detect_proof.detect_forest m (mp_world d) (mp_saddles d) G K fuel).
  Qed.

  Lemma parts_terrain fuel d' x y a b e : dm_detect fuel m d = Ok d' ->
    dom su x a -> dom su y b -> e <= elev m a -> e <= elev m b ->
    Basin_spec.joined (mp_world d') (fun i => e <= Basin_spec.ele_at (mp_world d') (inl i)) x y <-> ground_joined m e a b.
  Proof.
    intros H Hx Hy Ha Hb. destruct (run_parts fuel d' H) as (E & G & K & _).
    destruct (Detect_proof.detect_key m _ _ fuel _ G K E x y) as [_ HJ]. rewrite <-(HJ e).
    by eapply (terrain fpath fp orc near m).
  Qed.
  End detected.

  (** ** The saddles as they were found *)
  Lemma started_found su sa ru : run_no_rebuild fp orc m = Ok (su, sa, ru) -> started m sa (map new_saddle sa).
  Proof.
    intros Hrun. destruct (start_input m fp orc Hok Hfp su sa ru Hrun) as (I & _ & _).
    destruct (saddle_facts fp orc m Hok Hfp su sa ru Hrun) as (SF & _). split.
    - intros o (f & -> & _)%elem_of_list_fmap. done.
    - intros o (f & -> & _)%elem_of_list_fmap. cbn. auto.
    - intros o (f & -> & Hin)%elem_of_list_fmap. cbn. apply (in_walk _ _ _ _ I). unfold feats_of. cbn. rewrite map_map. cbn.
      rewrite map_id. apply elem_of_app. by left.
    - intros o (f & -> & Hin)%elem_of_list_fmap. cbn. destruct (SF f Hin) as (Hk & p & Hp & Hts & Hst & Hc).
      split; [done|]. split; [by apply (components_two _ _ _ Hc)|]. exists f, p. split_and!; try done; [by apply Hst|].
      intros g z Hg Hz. apply (comp_all _ _ Hc). apply elem_of_concat. eauto.
    - intros f Hin. left. exists (new_saddle f). split; [|done]. apply elem_of_list_fmap. eauto.
  Qed.

  Lemma sparse_walk su sa ru : run_no_rebuild fp orc m = Ok (su, sa, ru) ->
    dm_run_sparse fpath fp orc near m = dm_walk fpath near m (dm_objects su (map new_saddle sa) ru).
  Proof. intros Hrun. unfold dm_run_sparse. rewrite Hrun. cbn [rbind]. by rewrite start_objects. Qed.
  Lemma found_run : exists su sa ru, run_no_rebuild fp orc m = Ok (su, sa, ru).
  Proof. destruct (run_corners fp orc m Hok Hfp) as (su & sa & ru0 & _ & Hr). eauto. Qed.

  Theorem run_completes d s fuel : dm_run_sparse fpath fp orc near m = Ok (d, s) ->
    Run_spec.border_apart m (mp_world d) (mp_saddles d) ->
    (length (mp_saddles d) + length (w_saddles (mp_world d)) < fuel)%nat ->
    exists d', dm_run fpath fp orc near fuel m = Ok d'.
  Proof.
    intros Hdm Hap Hfuel. destruct found_run as (su & sa & ru & Hrun). unfold dm_run. rewrite Hdm. cbn [rbind].
    rewrite (sparse_walk _ _ _ Hrun) in Hdm. eapply parts_complete; try done. by eapply started_found.
  Qed.

  Theorem run_forest d s fuel d' : dm_run_sparse fpath fp orc near m = Ok (d, s) ->
    Run_spec.border_apart m (mp_world d) (mp_saddles d) -> dm_run fpath fp orc near fuel m = Ok d' ->
    forall c, ~ Basin_spec.closed (Basin_spec.open_edge (mp_world d')) c.
  Proof.
    intros Hdm Hap H. destruct found_run as (su & sa & ru & Hrun). unfold dm_run in H. rewrite Hdm in H. cbn [rbind] in H.
    rewrite (sparse_walk _ _ _ Hrun) in Hdm. eapply parts_forest; try done. by eapply started_found.
  Qed.

  Theorem run_terrain su sa ru d s fuel d' x y a b e : run_no_rebuild fp orc m = Ok (su, sa, ru) ->
    dm_run_sparse fpath fp orc near m = Ok (d, s) ->
    Run_spec.border_apart m (mp_world d) (mp_saddles d) -> dm_run fpath fp orc near fuel m = Ok d' ->
    dom su x a -> dom su y b -> e <= elev m a -> e <= elev m b ->
    Basin_spec.joined (mp_world d') (fun i => e <= Basin_spec.ele_at (mp_world d') (inl i)) x y <-> ground_joined m e a b.
  Proof.
    intros Hrun Hdm Hap H Hx Hy Ha Hb. unfold dm_run in H. rewrite Hdm in H. cbn [rbind] in H.
    rewrite (sparse_walk _ _ _ Hrun) in Hdm. eapply parts_terrain; try done. by eapply started_found.
  Qed.
End run.
