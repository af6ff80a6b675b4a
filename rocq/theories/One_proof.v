(** One saddle of the walk. *)
From Verif Require Import Tree_spec Walk_model Raster_spec Raster_proof Raster_facts Contig_proof Closest_spec
  Closest_proof Feature_spec Network_spec Rebuild_proof Climb_spec Climb_proof Climb_facts Graph_spec Graph_proof
  Walk_spec Walk_proof Synth_proof Links_proof Steps_proof.
From Coq Require Import ZifyBool.
Local Open Scope Z_scope.

(** Splits conjunctions without unfolding definitions. *)
Ltac conjs := repeat match goal with |- _ /\ _ => split end.

Lemma split_piece_grow w w' f p e : grow w w' -> split_piece w f p e -> split_piece w' f p e.
Proof.
  intros Hg (o & pos & ga & gb & g & h & Ho & Hfe & H). destruct (gr_sa _ _ Hg p o Ho) as (o' & Ho' & He & _).
  exists o', pos, ga, gb, g, h. split; [done|]. split; [congruence|done].
Qed.
Lemma pieces_grow w w' n i f ps : grow w w' -> pieces_of w n i f ps -> pieces_of w' n i f ps.
Proof.
  intros Hg [H|(H1 & H2 & H3 & H4 & es & H5 & H6)]; [by left|right]. conjs; try done.
  exists es. split; [done|]. eapply Forall2_impl; [exact H6|]. intros p e. by apply split_piece_grow.
Qed.
Lemma all_sides_grow m dom w w' n p o : grow w w' -> w_saddles w !! p = Some o ->
  all_sides_linked m dom w n p -> all_sides_linked m dom w' n p.
Proof.
  intros Hg Ho H o' g Ho' Hg'. destruct (gr_sa _ _ Hg p o Ho) as (o2 & Ho2 & He & _).
  assert (o2 = o') as -> by congruence. rewrite He in Hg'.
  destruct (H o g Ho Hg') as (k & l & z & t & H1 & H2 & H3). exists k, l, z, t.
  conjs; try apply H3; [done|by eapply grow_link].
Qed.

Section one.
  Variables (fpath : datamap -> list mpoint -> mpoint -> mpoint -> option (list mpoint * Q)).
  Variables (near : searches) (m : datamap).
  Hypotheses (Hf : mpaths_found fpath m) (Hnear : sound_searches near m) (Hok : map_ok m) (Hup : north_up m)
    (Hlow : climbable m) (Hpix : pixels_in_reach m) (Hreach : map_in_reach m).
  Variable dom : nat -> xy -> Prop.
  Variables (w0 : world) (C : Prop).
  Notation n0 := (length (w_links w0)).
  Notation winv := (winv m dom w0 C).
  Notation rs := (rs C).
  Notation sides w p := (all_sides_linked m dom w n0 p).

  Lemma synth_fam i w w' o ks : w_saddles w !! i = Some o ->
    length (w_saddles w') = (length (w_saddles w) + length ks)%nat ->
    ks = seq (length (w_saddles w)) (length ks) -> same_but_children i w w' ->
    (exists par, forall p, p ∈ ks -> fresh_piece m w' par p) -> fam_change w w'.
  Proof.
    intros Ho Hlen Hks (A1 & A2 & A3 & A4) [par Hfr]. split; [done|]. split; [done|]. split.
    - intros j x Hx. destruct (decide (j = i)) as [->|Hj].
      + assert (x = o) as -> by congruence. destruct (A4 o Ho) as [l Hl]. eexists. split; [exact Hl|]. by conjs.
      + exists x. conjs; auto.
    - intros j o' Ho' Hn. apply lookup_ge_None in Hn. apply lookup_lt_Some in Ho' as Hlt.
      destruct (Hfr j) as (o2 & H1 & H2 & _); [rewrite Hks; apply elem_of_seq; lia|]. congruence.
  Qed.

  Definition ready (ks : list nat) (s : walk_state) : Prop :=
    forall p, p ∈ ks -> exists op, w_saddles (ws_world s) !! p = Some op /\ walkable m (sa_feat op).

  (** *** Interior saddles *)
  Lemma interior_ok ks s : winv [] s -> NoDup ks -> ready ks s ->
    (forall p, p ∈ ks -> p ∉ ws_feats s) ->
    rs (fun s' => winv [] s' /\ grow (ws_world s) (ws_world s') /\ frame_on ks (ws_world s) (ws_world s') /\
          (forall p op, p ∈ ks -> w_saddles (ws_world s) !! p = Some op ->
             exists L, w_saddles (ws_world s') !! p = Some (set_links L op)) /\
          length (w_saddles (ws_world s')) = length (w_saddles (ws_world s)) /\
          ws_feats s' = ws_feats s ++ ks /\
          (C -> forall p, p ∈ ks -> sides (ws_world s') p))
       (foldM (walk_synthetic near m) ks s).
  Proof.
    intros V Hnd Hr Hnf.
    apply (rs_fold C _ (fun pre s' => winv [] s' /\ grow (ws_world s) (ws_world s') /\
          frame_on ks (ws_world s) (ws_world s') /\
          (forall p op, p ∈ ks -> w_saddles (ws_world s) !! p = Some op ->
             exists L, w_saddles (ws_world s') !! p = Some (set_links L op)) /\
          length (w_saddles (ws_world s')) = length (w_saddles (ws_world s)) /\
          ws_feats s' = ws_feats s ++ pre /\
          (C -> forall p, p ∈ pre -> sides (ws_world s') p))).
    - intros pre k s1 [post Hpost] (A1 & A2 & A3 & A4 & A5 & A6 & A7).
      assert (Hk : k ∈ ks) by (rewrite Hpost; apply elem_of_app; right; by left).
      destruct (Hr k Hk) as (op & Hop & Hwk). destruct (A4 k op Hk Hop) as [L HL].
      assert (Hnk : k ∉ ws_feats s1).
      { rewrite A6. intros [H|H]%elem_of_app; [by apply (Hnf k Hk)|].
        rewrite Hpost in Hnd. apply NoDup_app in Hnd as (_ & Hd & _). apply (Hd k H). by left. }
      eapply rs_weaken.
      { apply (walk_synthetic_ok near m Hnear Hok Hup Hlow Hpix dom w0 C [] k s1 _ A1 HL Hwk Hnk).
        by apply not_elem_of_nil. }
      intros s2 (B1 & B2 & B3 & [L' B4] & B5 & B6 & B7). split; [done|]. split; [by eapply grow_trans|].
      split; [|split; [|split; [congruence|split; [by rewrite B6, A6, <-app_assoc|]]]].
      + intros j x Hx Hj. apply B3; [by apply A3|]. by intros ->.
      + intros p op' Hp Hop'. destruct (decide (p = k)) as [->|Hpk].
        * assert (op' = op) as -> by congruence. by exists L'.
        * destruct (A4 p op' Hp Hop') as [Lp HLp]. exists Lp. by apply B3.
      + intros HC p [Hp|Hp%elem_of_list_singleton]%elem_of_app.
        * destruct (Hr p) as (opp & Hopp & _); [rewrite Hpost; apply elem_of_app; by left|].
          destruct (gr_sa _ _ A2 p opp Hopp) as (o1 & Ho1 & _).
          eapply all_sides_grow; [exact B2|exact Ho1|by apply A7].
        * subst p. intros o g Ho Hg. rewrite B4 in Ho. injection Ho as <-. cbn in Hg. by apply B7.
    - split; [done|]. split; [apply grow_refl|]. split; [apply frame_on_refl|].
      split; [|split; [done|split; [by rewrite app_nil_r|]]].
      + intros p op _ Hp. exists (sa_links op). rewrite Hp. by destruct op.
      + intros _ p Hp. by apply elem_of_nil in Hp.
  Qed.

  (** *** Border features *)
  Definition finish (i : nat) (ks : list nat) (s : walk_state) : res walk_state :=
    let* s := foldM (edge_saddle m i) ks s in
    let s := set_world (upd_saddle i (set_over (Some true)) (ws_world s)) s in
    Ok (add_feat i s).

  Lemma finish_ok X i ks s oi : winv X s -> w_saddles (ws_world s) !! i = Some oi ->
    (X = [] \/ (X = [i] /\ i ∈ ks)) -> (ks = [i] \/ i ∉ ks) -> NoDup ks -> ready ks s ->
    (C -> forall p op g z, p ∈ ks -> w_saddles (ws_world s) !! p = Some op -> g ∈ ft_hpn (sa_feat op) -> z ∈ g ->
       is_Some (cs_table (ws_climb s) !! pt_xy z)) ->
    exists s', finish i ks s = Ok s' /\ winv [] s' /\ grow (ws_world s) (ws_world s') /\
      frame_on (i :: ks) (ws_world s) (ws_world s') /\
      length (w_saddles (ws_world s')) = length (w_saddles (ws_world s)) /\
      ws_feats s' = ws_feats s ++ ks ++ [i] /\
      (exists o', w_saddles (ws_world s') !! i = Some o' /\ sa_over o' = Some true) /\
      (forall p, p ∈ ks -> parent_of (ws_world s') p = Some i /\ p ∈ children_of (ws_world s') i) /\
      (C -> forall p, p ∈ ks -> sides (ws_world s') p).
  Proof.
    intros V Hoi HX Hks Hnd Hr Hrec.
    assert (H : Links_proof.rs True (fun s' => winv X s' /\ grow (ws_world s) (ws_world s') /\
      frame_on (i :: ks) (ws_world s) (ws_world s') /\
      length (w_saddles (ws_world s')) = length (w_saddles (ws_world s)) /\
      ws_feats s' = ws_feats s ++ ks /\ ws_climb s' = ws_climb s /\
      (forall p, p ∈ ks -> parent_of (ws_world s') p = Some i /\ p ∈ children_of (ws_world s') i) /\
      (C -> forall p, p ∈ ks -> sides (ws_world s') p)) (foldM (edge_saddle m i) ks s)).
    { apply (rs_fold True _ (fun pre s' => winv X s' /\ grow (ws_world s) (ws_world s') /\
        frame_on (i :: ks) (ws_world s) (ws_world s') /\
        length (w_saddles (ws_world s')) = length (w_saddles (ws_world s)) /\
        ws_feats s' = ws_feats s ++ pre /\ ws_climb s' = ws_climb s /\
        (forall p, p ∈ pre -> parent_of (ws_world s') p = Some i /\ p ∈ children_of (ws_world s') i) /\
        (C -> forall p, p ∈ pre -> sides (ws_world s') p))).
      - intros pre k s1 [post Hpost] (A1 & A2 & A3 & A4 & A5 & A6 & A7 & A8).
        assert (Hk : k ∈ ks) by (rewrite Hpost; apply elem_of_app; right; by left).
        destruct (Hr k Hk) as (op & Hop & Hwk).
        destruct (gr_sa _ _ A2 k op Hop) as (ok1 & Hok1 & Ek1 & _).
        destruct (gr_sa _ _ A2 i oi Hoi) as (oi1 & Hoi1 & Ei1 & _).
        destruct (edge_saddle_ok m dom w0 C X i k s1 ok1 oi1 A1 Hok1) as
          (s2 & -> & B1 & B2 & B3 & B4 & B5 & B6 & (o2 & B7 & B8 & B9) & (o3 & B10 & B11 & B12 & B13 & B14 & B15) & B16).
        { by rewrite Ek1. } { done. }
        { intros x Hx. destruct HX as [-> |[-> _]]; [by apply elem_of_nil in Hx|by apply elem_of_list_singleton in Hx]. }
        cbn [Links_proof.rs]. split; [done|]. split; [by eapply grow_trans|]. split; [|split; [congruence|]].
        { eapply frame_on_trans; [exact A3|]. eapply frame_on_sub; [|exact B3].
          intros x [->|Hx]%elem_of_cons; [by right|]. apply elem_of_list_singleton in Hx as ->. by left. }
        split; [by rewrite B5, A5, <-app_assoc|]. split; [congruence|]. split.
        + intros p [Hp|Hp%elem_of_list_singleton]%elem_of_app.
          * destruct (A7 p Hp) as [P1 P2].
            assert (Hpk : p <> k).
            { intros ->. rewrite Hpost in Hnd. apply NoDup_app in Hnd as (_ & Hd & _). apply (Hd k Hp). by left. }
            assert (Hpi : p <> i).
            { intros ->. destruct Hks as [Hks|Hks].
              - rewrite Hks in Hpost. destruct pre as [|x [|y pre]]; [by apply elem_of_nil in Hp|done|done].
              - apply Hks. rewrite Hpost. apply elem_of_app. by left. }
            split.
            -- unfold parent_of in *. destruct (w_saddles (ws_world s1) !! p) as [opp|] eqn:Epp; [|done].
               rewrite (B3 p opp Epp); [done|]. intros [|[|Hb%elem_of_nil]%elem_of_cons]%elem_of_cons; done.
            -- unfold children_of in *. rewrite Hoi1 in P2. rewrite B10. cbn in *. by apply B14.
          * subst p. unfold parent_of, children_of. rewrite B7, B10. by split.
        + intros HC p [Hp|Hp%elem_of_list_singleton]%elem_of_app.
          * destruct (Hr p) as (opp & Hopp & _); [rewrite Hpost; apply elem_of_app; by left|].
            destruct (gr_sa _ _ A2 p opp Hopp) as (o1 & Ho1 & _).
            eapply all_sides_grow; [exact B2|exact Ho1|by apply A8].
          * subst p. intros o g Ho Hg. rewrite B7 in Ho. injection Ho as <-. rewrite B8 in Hg.
            apply B16; [|done]. intros g' z Hg' Hz. rewrite A6. rewrite Ek1 in Hg'. by eapply (Hrec HC k op g' z).
      - split; [done|]. split; [apply grow_refl|]. split; [apply frame_on_refl|]. split; [done|].
        split; [by rewrite app_nil_r|]. split; [done|].
        split; [intros p Hp; by apply elem_of_nil in Hp|intros _ p Hp; by apply elem_of_nil in Hp]. }
    unfold finish. destruct (foldM (edge_saddle m i) ks s) as [s1|e]; [|destruct H as [_ H]; by destruct H].
    destruct H as (A1 & A2 & A3 & A4 & A5 & A6 & A7 & A8). cbn [rbind]. eexists. split; [reflexivity|].
    set (w2 := upd_saddle i (set_over (Some true)) (ws_world s1)).
    assert (Hfc : fam_change (ws_world s1) w2) by (apply fam_change_upd; intros x; cbn; conjs; auto).
    destruct (gr_sa _ _ A2 i oi Hoi) as (oi1 & Hoi1 & Ei1 & _).
    assert (Hi2 : w_saddles w2 !! i = Some (set_over (Some true) oi1)).
    { unfold w2. rewrite upd_saddle_lookup, Hoi1. by rewrite decide_True by done. }
    assert (Hpar : forall p, p ∈ ks -> parent_of w2 p = Some i /\ p ∈ children_of w2 i).
    { intros p Hp. destruct (A7 p Hp) as [P1 P2]. split.
      - unfold parent_of, w2 in *. rewrite upd_saddle_lookup.
        destruct (decide (p = i)); [|done]. by destruct (w_saddles (ws_world s1) !! p).
      - unfold children_of in *. rewrite Hoi1 in P2. by rewrite Hi2. }
    pose proof (fam_change_grow _ _ Hfc) as Hg2.
    assert (V2 : winv X (add_feat i (set_world w2 s1))) by (by apply winv_feat, winv_fam).
    cbn [add_feat set_world ws_world ws_feats]. split; [|conjs].
    - destruct HX as [-> |[-> Hik]]; [done|]. eapply winv_done; [exact V2| |].
      + cbn. apply elem_of_app. right. by left.
      + intros j l o su _ _ _ Ho _. left. change (w_saddles w2 !! i = Some o) in Ho.
        destruct (Hpar i Hik) as [P _]. unfold parent_of in P. rewrite Ho in P. cbn in P. eauto.
    - by eapply grow_trans.
    - eapply frame_on_trans; [exact A3|]. intros j x Hx Hj. unfold w2. rewrite upd_saddle_lookup.
      rewrite decide_False; [done|]. intros ->. apply Hj. by left.
    - unfold w2. cbn. by rewrite alter_length.
    - by rewrite A5, <-app_assoc.
    - eexists. split; [exact Hi2|done].
    - done.
    - intros HC p Hp. destruct (Hr p Hp) as (opp & Hopp & _). destruct (gr_sa _ _ A2 p opp Hopp) as (o1 & Ho1 & _).
      eapply all_sides_grow; [exact Hg2|exact Ho1|by apply A8].
  Qed.

  (** *** One saddle *)
  Definition one_post (n i : nat) (o : saddle) (s s' : walk_state) : Prop :=
    winv [] s' /\ grow (ws_world s) (ws_world s') /\ frame_on [i] (ws_world s) (ws_world s') /\
    (length (w_saddles (ws_world s)) <= length (w_saddles (ws_world s')))%nat /\
    exists ps seg, ws_feats s' = ws_feats s ++ seg /\ contributes (ws_world s') n (length (w_links w0)) i (sa_feat o) ps seg /\
      (forall x, x ∈ seg -> x = i \/ ((n <= x)%nat /\ (x < length (w_saddles (ws_world s')))%nat)) /\
      (forall x, x ∈ ps -> x ∈ seg) /\
      (C -> forall p, p ∈ ps -> sides (ws_world s') p).

  (** Splitting [i] and finishing it as a border feature. *)
  Lemma border_synth X n i s s1 o oi :
    winv X s1 -> (X = [] \/ (X = [i] /\ ft_hpn (sa_feat o) = [])) ->
    grow (ws_world s) (ws_world s1) -> frame_on [i] (ws_world s) (ws_world s1) ->
    length (w_saddles (ws_world s1)) = length (w_saddles (ws_world s)) -> ws_feats s1 = ws_feats s ->
    (n <= length (w_saddles (ws_world s)))%nat -> (i < n)%nat ->
    w_saddles (ws_world s1) !! i = Some oi -> sa_feat oi = sa_feat o -> walkable m (sa_feat o) ->
    ft_edge (sa_feat o) = true -> (ft_kind (sa_feat o) = KRunoff -> ft_hpn (sa_feat o) = []) ->
    (C -> forall g z, g ∈ ft_hpn (sa_feat o) -> z ∈ g -> is_Some (cs_table (ws_climb s1) !! pt_xy z)) ->
    rs (one_post n i o s)
      (let* (w, ks) := generate_synthetic_saddles fpath near m i (ws_world s1) in finish i ks (set_world w s1)).
  Proof.
    intros V HX Hg1 Hf1 Hl1 He1 Hn Hi Hoi Efe Hw Hed Hkind Hrec. pose proof Hw as Hw'. rewrite <-Efe in Hw'.
    destruct (synth_spec fpath near m Hf Hnear Hreach i (ws_world s1) oi Hoi Hw') as (w2 & ks & -> & Hcase).
    rewrite Efe in Hcase. cbn [rbind].
    assert (Hprep : fam_change (ws_world s1) w2 /\ frame_on [i] (ws_world s1) w2 /\
      (length (w_saddles (ws_world s1)) <= length (w_saddles w2))%nat /\
      (exists o2, w_saddles w2 !! i = Some o2) /\ (ks = [i] \/ i ∉ ks) /\ NoDup ks /\
      ready ks (set_world w2 s1) /\ (X = [i] -> i ∈ ks) /\
      (forall p op g z, p ∈ ks -> w_saddles w2 !! p = Some op -> g ∈ ft_hpn (sa_feat op) -> z ∈ g ->
         exists h, h ∈ ft_hpn (sa_feat o) /\ z ∈ h) /\
      pieces_of w2 n i (sa_feat o) ks /\
      (forall x, x ∈ ks -> x = i \/ ((length (w_saddles (ws_world s1)) <= x)%nat /\ (x < length (w_saddles w2))%nat))).
    { destruct Hcase as [(-> & -> & Hlen)|(Hlen & Hks & Hlw & Hsb & _ & (es & Hst & Hsp) & par & Hpar & Hfr)].
      - conjs; try done.
        + apply fam_change_refl.
        + apply frame_on_refl.
        + eauto.
        + by left.
        + apply NoDup_singleton.
        + intros p ->%elem_of_list_singleton. exists oi. split; [done|]. by rewrite Efe.
        + intros _. by left.
        + intros p op g z ->%elem_of_list_singleton Hop Hg Hz. rewrite Hoi in Hop. injection Hop as <-.
          exists g. by rewrite <-Efe.
        + left. split; [done|]. by left.
        + intros x ->%elem_of_list_singleton. by left.
      - assert (Hfam : fam_change (ws_world s1) w2) by (eapply synth_fam; eauto).
        assert (Hin : forall x, x ∈ ks -> (length (w_saddles (ws_world s1)) <= x < length (w_saddles w2))%nat).
        { intros x Hx. rewrite Hks in Hx. apply elem_of_seq in Hx. lia. }
        conjs; try done.
        + destruct Hsb as (_ & _ & Hfr' & _). by apply frame_on_one.
        + lia.
        + destruct Hsb as (_ & _ & _ & Hc). destruct (Hc oi Hoi) as [l Hl]. eauto.
        + right. intros Hik. specialize (Hin i Hik). lia.
        + rewrite Hks. apply NoDup_seq.
        + intros p Hp. destruct (Hfr p Hp) as (op & H1 & _ & _ & H4). by exists op.
        + intros ->. destruct HX as [|[_ HX]]; [done|]. rewrite HX in Hlen. cbn in Hlen. lia.
        + intros p op g z Hp Hop Hg Hz. apply elem_of_list_lookup in Hp as [ix Hix].
          destruct (Forall2_lookup_l _ _ _ _ _ Hsp Hix) as (e & _ & o' & pos & ga & gb & g' & h' & H1 & H2 & _ & _ & _ & H3 & H4 & _ & _ & H5 & H6).
          rewrite Hop in H1. injection H1 as <-. rewrite H2 in Hg. cbn in Hg.
          apply elem_of_cons in Hg as [->|Hg]; [exists h'|apply elem_of_list_singleton in Hg as ->; exists g'].
          * split; [by eapply elem_of_list_lookup_2|auto].
          * split; [by eapply elem_of_list_lookup_2|auto].
        + right. conjs; try done.
          * intros [_ Hk]. rewrite (Hkind Hk) in Hlen. cbn in Hlen. lia.
          * rewrite Hks. apply NoDup_seq.
          * intros p Hp. specialize (Hin p Hp). lia.
          * by exists es.
        + intros x Hx. right. by apply Hin. }
    destruct Hprep as (Hfc & Hfr2 & Hl2 & [o2 Ho2] & Hks & Hnd & Hrd & HXk & Hsub & Hpc & Hrange).
    destruct (finish_ok X i ks (set_world w2 s1) o2) as (s' & -> & A1 & A2 & A3 & A4 & A5 & A6 & A7 & A8); try done.
    { by apply winv_fam. }
    { destruct HX as [->|[-> HX]]; [by left|right]. auto. }
    { intros HC p op g z Hp Hop Hg Hz. cbn. destruct (Hsub p op g z Hp Hop Hg Hz) as (h & Hh & Hzh).
      by eapply (Hrec HC h z). }
    cbn [Links_proof.rs]. cbn [set_world ws_world ws_feats] in A2, A3, A4, A5.
    assert (Hgall : grow (ws_world s) (ws_world s')).
    { eapply grow_trans; [exact Hg1|]. eapply grow_trans; [by apply fam_change_grow|exact A2]. }
    split; [done|]. split; [done|]. split; [|split; [lia|]].
    - intros j x Hx Hj. apply A3.
      + apply Hfr2; [|done]. by apply Hf1.
      + intros [->|Hjk]%elem_of_cons; [apply Hj; by left|].
        destruct (Hrange j Hjk) as [->|Hr]; [apply Hj; by left|]. apply lookup_lt_Some in Hx. lia.
    - exists ks, (ks ++ [i]). conjs.
      + by rewrite A5, He1.
      + split; [by apply (pieces_grow w2)|]. split; [congruence|]. intros _. left. conjs; try done.
      + intros x [Hx|Hx%elem_of_list_singleton]%elem_of_app; [|by left].
        destruct (Hrange x Hx) as [|Hr]; [by left|right]. lia.
      + intros x Hx. apply elem_of_app. by left.
      + done.
  Qed.

  Lemma walk_one_ok n i s o : winv [] s -> w_saddles (ws_world s) !! i = Some o -> walkable m (sa_feat o) ->
    (n <= length (w_saddles (ws_world s)))%nat -> (i < n)%nat -> i ∉ ws_feats s ->
    (forall x, x ∈ ws_feats s -> (x < length (w_saddles (ws_world s)))%nat) ->
    rs (one_post n i o s) (walk_one fpath near m i s).
  Proof.
    intros V Ho Hw Hn Hi Hnf Hlt. unfold walk_one. rewrite Ho. destruct (ft_edge (sa_feat o)) eqn:Eed.
    - (* border *)
      unfold walk_border. eapply rs_bind; [by apply (climb_edges_ok near m Hnear Hok Hup Hlow Hpix dom w0 C [] i s o)|].
      intros s1 (V1 & Ew & Ef & Hrec). rewrite Ew, Ho.
      assert (Hl1 : length (w_saddles (ws_world s1)) = length (w_saddles (ws_world s))) by (by rewrite Ew).
      assert (Ho1 : w_saddles (ws_world s1) !! i = Some o) by (by rewrite Ew).
      destruct (decide (ft_kind (sa_feat o) = KRunoff)) as [Ek|Ek].
      + destruct (decide (ft_hpn (sa_feat o) = [])) as [Eh|Eh].
        * unfold ft_latlon. rewrite latlon_round_trip by apply Hup. cbn [rbind].
          assert (Ep : ((ft_pos (sa_feat o)).1, (ft_pos (sa_feat o)).2) = ft_pos (sa_feat o)) by (by destruct (ft_pos _)).
          rewrite Ep. destruct (cs_table (ws_climb s1) !! ft_pos (sa_feat o)) as [d|] eqn:Et.
          -- destruct (i_sound _ _ _ (v_climb _ _ _ _ _ _ V1) _ _ Et) as (t & Hd & Hu).
             assert (Hl : leads m dom (sa_feat o) d) by (right; split; [done|by exists t]).
             assert (V1' : winv [i] s1) by (eapply winv_weaken; [|exact V1]; intros x Hx; by apply elem_of_nil in Hx).
             destruct (link_saddle_step m dom w0 C [i] s1 true d i o V1' Ho1 Hl ltac:(by left))
               as ((A1 & A2 & A3 & [L A4] & A5 & A6 & A7) & _ & _).
             rewrite Ew in A2, A3.
             eapply (border_synth [i] n i s (link_saddle m true d i s1) o (set_links L o)); try done; try congruence;
               [by right|by apply frame_on_one].
          -- cbn [Links_proof.rs]. split; [by apply winv_feat|]. cbn [add_feat ws_world ws_feats]. rewrite Ew.
             split; [apply grow_refl|]. split; [apply frame_on_refl|]. split; [lia|].
             exists [i], [i]. conjs.
             ++ by rewrite Ef.
             ++ split; [left; split; [done|]; right; done|]. split; [congruence|]. intros _. right.
                split; [done|]. split; [done|]. split; [done|]. exists o. split; [done|].
                intros k Hk. apply Nat.nle_gt. intros Hle.
                destruct (v_sa _ _ _ _ _ _ V i o k Ho Hk Hle) as (l & Hl & <-).
                destruct (lo_out _ _ _ _ _ _ (v_link _ _ _ _ _ _ V k l Hl Hle)) as [Hx|Hx]; [by apply elem_of_nil in Hx|done].
             ++ intros x ->%elem_of_list_singleton. by left.
             ++ done.
             ++ intros _ p ->%elem_of_list_singleton o' g Ho' Hg. assert (o' = o) as -> by congruence.
                rewrite Eh in Hg. by apply elem_of_nil in Hg.
        * change (rs (one_post n i o s) (finish i [i] s1)).
          destruct (finish_ok [] i [i] s1 o) as (s' & -> & A1 & A2 & A3 & A4 & A5 & A6 & A7 & A8); try done.
          { by left. } { by left. } { apply NoDup_singleton. }
          { intros p ->%elem_of_list_singleton. by exists o. }
          { intros HC p op g z ->%elem_of_list_singleton Hop Hg Hz. assert (op = o) as -> by congruence. by eapply Hrec. }
          cbn [Links_proof.rs]. rewrite Ew in A2, A3, A4. split; [done|]. split; [done|]. split.
          { eapply frame_on_sub; [|exact A3]. intros x [->|?]%elem_of_cons; [by left|done]. }
          split; [lia|]. exists [i], ([i] ++ [i]). conjs.
          -- by rewrite A5, Ef.
          -- split; [left; split; [done|]; right; done|]. split; [congruence|]. intros _. by left.
          -- intros x [Hx%elem_of_list_singleton|Hx%elem_of_list_singleton]%elem_of_app; by left.
          -- intros x Hx. apply elem_of_app. by left.
          -- done.
      + rewrite <-Ew. eapply (border_synth [] n i s s1 o o); try done.
        * by left.
        * rewrite Ew. apply grow_refl.
        * rewrite Ew. apply frame_on_refl.
    - (* interior *)
      destruct (synth_spec fpath near m Hf Hnear Hreach i (ws_world s) o Ho Hw) as (w1 & ks & -> & Hcase). cbn [rbind].
      destruct Hcase as [(-> & -> & Hlen)|(Hlen & Hks & Hlw & Hsb & Hsame & (es & Hst & Hsp) & par & Hpar & Hfr)].
      + eapply rs_weaken.
        { apply (interior_ok [i] (set_world (ws_world s) s)).
          - apply winv_fam; [done|apply fam_change_refl].
          - apply NoDup_singleton.
          - intros p ->%elem_of_list_singleton. by exists o.
          - by intros p ->%elem_of_list_singleton. }
        cbn [set_world ws_world ws_feats]. intros s' (A1 & A2 & A3 & A4 & A5 & A6 & A7).
        split; [done|]. split; [done|]. split; [done|]. split; [lia|]. exists [i], [i]. conjs; try done.
        * split; [left; split; [done|by left]|]. split; [|congruence]. intros _. split; [done|].
          by intros p ->%elem_of_list_singleton.
        * intros x ->%elem_of_list_singleton. by left.
      + assert (Hin : forall x, x ∈ ks -> (length (w_saddles (ws_world s)) <= x < length (w_saddles w1))%nat).
        { intros x Hx. rewrite Hks in Hx. apply elem_of_seq in Hx. lia. }
        assert (Hnone : par = None) by (destruct Hpar as [|[_ ?]]; congruence). subst par.
        assert (Hfam : fam_change (ws_world s) w1) by (eapply synth_fam; eauto).
        eapply rs_weaken.
        { apply (interior_ok ks (set_world w1 s)).
          - by apply winv_fam.
          - rewrite Hks. apply NoDup_seq.
          - intros p Hp. destruct (Hfr p Hp) as (op & H1 & _ & _ & H4). by exists op.
          - cbn. intros p Hp Hpf. specialize (Hin p Hp). specialize (Hlt p Hpf). lia. }
        cbn [set_world ws_world ws_feats]. intros s' (A1 & A2 & A3 & A4 & A5 & A6 & A7).
        split; [done|]. split; [eapply grow_trans; [by apply fam_change_grow|done]|]. split; [|split; [lia|]].
        * intros j x Hx Hj. apply A3.
          -- destruct Hsb as (_ & _ & Hfr' & _). apply Hfr'; [done|]. intros ->. apply Hj. by left.
          -- intros Hjk. specialize (Hin j Hjk). apply lookup_lt_Some in Hx. lia.
        * exists ks, ks. conjs; try done.
          -- split; [|split; [|congruence]].
             ++ eapply pieces_grow; [exact A2|]. right. conjs; try done.
                ** intros [? _]. congruence.
                ** rewrite Hks. apply NoDup_seq.
                ** intros p Hp. specialize (Hin p Hp). lia.
                ** by exists es.
             ++ intros _. split; [done|]. intros p Hp _. destruct (Hfr p Hp) as (op & H1 & _ & H3 & _).
                destruct (A4 p op Hp H1) as [L HL]. unfold parent_of. rewrite HL. cbn. done.
          -- intros x Hx. right. specialize (Hin x Hx). lia.
  Qed.
End one.
