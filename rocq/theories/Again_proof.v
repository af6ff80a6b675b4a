(** Walking when some or all summits have a domain already. *)
From Verif Require Import Tree_spec Walk_model Raster_spec Raster_proof Raster_facts Contig_proof Blob_proof
  Closest_spec Closest_proof Feature_spec Scan_proof Feature_facts Nodata_proof Network_spec Rebuild_proof Climb_spec
  Climb_proof Climb_facts Graph_spec Graph_proof Walk_spec Walk_proof Synth_proof Links_proof Steps_proof One_proof
  Walk_facts.
From Coq Require Import ZifyBool.
Local Open Scope Z_scope.

Lemma map_alter {A B} (f : A -> B) (g : A -> A) i (l : list A) :
  (forall x, f (g x) = f x) -> map f (alter g i l) = map f l.
Proof.
  intros H. revert i. induction l as [|a l IH]; intros [|i]; cbn; try done.
  - by rewrite H.
  - f_equal. apply IH.
Qed.
Lemma feats_upd i g w : (forall x, sa_feat (g x) = sa_feat x) -> feats_of (upd_saddle i g w) = feats_of w.
Proof. intros H. unfold feats_of. cbn. by apply map_alter. Qed.

Lemma feats_remote m b k w : feats_of (add_to_remote m b k w) = feats_of w.
Proof.
  unfold add_to_remote. destruct (w_links w !! k); [|done].
  repeat match goal with |- context [if ?b then _ else _] => destruct b end; try done; by rewrite feats_upd.
Qed.

Lemma same_lists_upd w0 i g w : (forall x, sa_links (g x) = sa_links x) -> same_lists w0 w -> same_lists w0 (upd_saddle i g w).
Proof.
  intros Hg H j o Ho. rewrite upd_saddle_lookup in Ho. destruct (decide (j = i)) as [->|]; [|by apply H].
  destruct (w_saddles w !! i) as [x|] eqn:E; [|done]. injection Ho as <-. rewrite Hg. by apply H.
Qed.

(** Summits that have a domain keep having one. *)
Definition has_domain (w : world) (d : nat) : Prop :=
  exists su, w_summits w !! d = Some su /\ is_Some (su_domain su).
Definition keeps (w w' : world) : Prop := forall d, has_domain w d -> has_domain w' d.

Lemma keeps_upd w j g : (forall su, is_Some (su_domain su) -> is_Some (su_domain (g su))) -> keeps w (upd_summit j g w).
Proof.
  intros H d (su & Hs & Hd). unfold has_domain. rewrite upd_summit_lookup. destruct (decide (d = j)) as [->|].
  - rewrite Hs. cbn. eauto.
  - eauto.
Qed.
Lemma keeps_remote m b k w : keeps w (add_to_remote m b k w).
Proof.
  unfold add_to_remote. destruct (w_links w !! k) as [l|]; [|by intros d H].
  repeat match goal with |- context [if ?b then _ else _] => destruct b end; try by intros d H.
  all: exact (keeps_upd w (ln_summit l) (fun s => Summit (su_feat s) (su_links s ++ [k]) (su_domain s)) (fun _ H => H)).
Qed.

Ltac bad := cbn; split; [done|tauto].

Section again.
  Variables (fpath : datamap -> list mpoint -> mpoint -> mpoint -> option (list mpoint * Q)).
  Variables (near : searches) (m : datamap).
  Hypotheses (Hf : mpaths_found fpath m) (Hnear : sound_searches near m) (Hok : map_ok m) (Hup : north_up m)
    (Hlow : climbable m) (Hpix : pixels_in_reach m) (Hreach : map_in_reach m).
  Variable dom : nat -> xy -> Prop.
  Variable w0 : world.
  Notation rs := (rs False).

  Definition walkables (l : list feature) : Prop := forall f, f ∈ l -> walkable m f.

  Record keep (s : walk_state) : Prop := {
    k_walk : walkables (feats_of (ws_world s));
    k_inv : inv m dom (ws_climb s);
    k_none : (forall d t, ~ dom d t) -> w_links (ws_world s) = w_links w0 /\ ws_linkers s = [] /\
      w_summits (ws_world s) = w_summits w0 /\ same_lists w0 (ws_world s);
    k_dom : keeps w0 (ws_world s);
    k_len : (length (w_saddles w0) <= length (w_saddles (ws_world s)))%nat }.

  Lemma keep_walk s i o : keep s -> w_saddles (ws_world s) !! i = Some o -> walkable m (sa_feat o).
  Proof.
    intros K Ho. apply (k_walk _ K). apply elem_of_list_fmap. exists o. split; [done|]. by eapply elem_of_list_lookup_2.
  Qed.

  Lemma keep_climb s k : keep s -> rs keep (climb_edges near m k s).
  Proof.
    intros K. unfold climb_edges, hpn_of. destruct (w_saddles (ws_world s) !! k) as [o|] eqn:Ho; cbn; [|bad].
    pose proof (keep_walk s k o K Ho) as Hw.
    apply (rs_bind False (fun c => inv m dom c)).
    - apply (rs_fold False _ (fun pre c => inv m dom c)); [|apply K].
      intros pre g c [post Hpost] H. eapply rs_bind.
      + apply (climb_points_ok near m Hnear Hok Hup Hlow Hpix dom False g c H); [done|]. intros z Hz.
        destruct (wk_higher _ _ Hw g z) as (? & ? & _); [|done|done].
        rewrite Hpost. apply elem_of_app. right. by left.
      + intros [l c'] [(I1 & _) _]. done.
    - intros c Hc. destruct K. split; done.
  Qed.

  Lemma keep_link s ign d k : keep s -> (exists c, cs_table (ws_climb s) !! c = Some d) -> keep (link_saddle m ign d k s).
  Proof.
    intros K [c Hc]. destruct (i_sound _ _ _ (k_inv _ K) _ _ Hc) as (t & Ht & _). split.
    - unfold link_saddle. cbn [ws_world]. rewrite feats_remote. apply K.
    - apply K.
    - intros Hno. by destruct (Hno d t).
    - intros x Hx. unfold link_saddle. cbn [ws_world]. apply keeps_remote.
      destruct (keeps_upd (ws_world s) d (fun su =>
        Summit (su_feat su) (su_links su) ((fun l => l ++ [k]) <$> su_domain su))
        ltac:(intros su [ds ->]; by eexists) x (k_dom _ K x Hx)) as (su & H1 & H2).
      by exists su.
    - unfold link_saddle. cbn [ws_world]. rewrite add_remote_length. apply K.
  Qed.

  Lemma keep_edge s ign k g : keep s -> rs keep (link_edge m ign k g s).
  Proof.
    intros K. unfold link_edge. destruct g as [|h g]; [bad|].
    destruct (cs_table (ws_climb s) !! pt_xy h) as [d|] eqn:E; cbn; [|done]. apply keep_link; eauto.
  Qed.
  Lemma keep_edges s ign k hs : keep s -> rs keep (foldM (link_edge m ign k) hs s).
  Proof. intros K. apply (rs_fold False _ (fun _ s => keep s)); [|done]. intros. by apply keep_edge. Qed.

  Lemma keep_feat s k : keep s -> keep (add_feat k s).
  Proof. intros []. by split. Qed.

  Lemma keep_world s w : keep s -> walkables (feats_of w) -> w_links w = w_links (ws_world s) ->
    w_summits w = w_summits (ws_world s) -> (same_lists w0 (ws_world s) -> same_lists w0 w) ->
    (length (w_saddles (ws_world s)) <= length (w_saddles w))%nat -> keep (set_world w s).
  Proof.
    intros [K1 K2 K3 K4 K5] H1 H2 H3 H4 H5. split; try done.
    - intros H. cbn. rewrite H2, H3. destruct (K3 H) as (? & ? & ? & ?). auto.
    - intros d Hd. destruct (K4 d Hd) as (su & Hs & Hx). exists su. cbn. by rewrite H3.
    - cbn. lia.
  Qed.

  Lemma keep_synth s i : keep s -> rs (fun r => keep (set_world r.1 s))
    (generate_synthetic_saddles fpath near m i (ws_world s)).
  Proof.
    intros K. destruct (w_saddles (ws_world s) !! i) as [o|] eqn:Ho.
    2:{ unfold generate_synthetic_saddles. rewrite Ho. bad. }
    destruct (synth_spec fpath near m Hf Hnear Hreach i (ws_world s) o Ho (keep_walk _ _ _ K Ho)) as (w2 & ks & -> & Hcase).
    cbn. destruct Hcase as [(-> & -> & Hlen)|(Hlen & Hks & Hlw & Hsb & _ & _ & par & Hpar & Hfr)].
    - by apply keep_world; [|apply K|..].
    - destruct Hsb as (B1 & B2 & B3 & B4). apply keep_world; try done.
      + intros f Hin. apply elem_of_list_fmap in Hin as (x & -> & Hx). apply elem_of_list_lookup in Hx as [j Hj].
        destruct (decide (j = i)) as [->|Hji].
      * destruct (B4 o Ho) as [l Hl]. rewrite Hl in Hj. injection Hj as <-. by apply (keep_walk s i o).
      * destruct (w_saddles (ws_world s) !! j) as [y|] eqn:Ey.
        -- rewrite (B3 j y Ey Hji) in Hj. injection Hj as <-. by apply (keep_walk s j y).
        -- apply lookup_ge_None in Ey. apply lookup_lt_Some in Hj as Hlt.
          destruct (Hfr j) as (y & Hy & _ & _ & Hwy); [rewrite Hks; apply elem_of_seq; lia|].
          rewrite Hy in Hj. by injection Hj as <-.
      + intros HL j x Hj. destruct (decide (j = i)) as [->|Hji].
        * destruct (B4 o Ho) as [l Hl]. rewrite Hl in Hj. injection Hj as <-. exact (HL i o Ho).
        * destruct (w_saddles (ws_world s) !! j) as [y|] eqn:Ey.
          -- rewrite (B3 j y Ey Hji) in Hj. injection Hj as <-. by apply HL.
          -- apply lookup_ge_None in Ey. apply lookup_lt_Some in Hj as Hlt.
             destruct (Hfr j) as (y & Hy & Hnil & _); [rewrite Hks; apply elem_of_seq; lia|].
             rewrite Hy in Hj. injection Hj as <-. rewrite Hnil.
             destruct (w_saddles w0 !! j) as [z|] eqn:Ez; [|done]. apply lookup_lt_Some in Ez.
             exfalso. pose proof (k_len _ K). lia.
      + lia.
  Qed.

  Lemma keep_one s i : keep s -> rs keep (walk_one fpath near m i s).
  Proof.
    intros K. unfold walk_one. destruct (w_saddles (ws_world s) !! i) as [o|] eqn:Ho; [|bad].
    assert (Hfin : forall s ks, keep s -> rs keep (
      let* s := foldM (edge_saddle m i) ks s in
      let s := set_world (upd_saddle i (set_over (Some true)) (ws_world s)) s in
      Ok (add_feat i s))).
    { clear. intros s ks K. eapply (rs_bind False keep).
      - apply (rs_fold False _ (fun _ s => keep s)); [|done]. intros pre k s' _ K'. unfold edge_saddle, hpn_of.
        destruct (w_saddles (ws_world s') !! k); cbn [rbind]; [|bad]. eapply rs_bind; [by apply keep_edges|].
        intros s2 K2. apply keep_feat. apply keep_world; try done.
        { rewrite !feats_upd by done. apply K2. }
        { intros HL. by repeat apply same_lists_upd. }
        { cbn. by rewrite !alter_length. }
      - intros s2 K2. apply keep_feat. apply keep_world; try done.
        { rewrite !feats_upd by done. apply K2. }
        { intros HL. by repeat apply same_lists_upd. }
        { cbn. by rewrite !alter_length. } }
    destruct (ft_edge (sa_feat o)).
    - unfold walk_border. eapply rs_bind; [by apply keep_climb|]. intros s1 K1.
      destruct (w_saddles (ws_world s1) !! i) as [o1|] eqn:Ho1; [|bad].
      assert (Hsy : forall s, keep s -> rs keep (
        let* (w, ks) := generate_synthetic_saddles fpath near m i (ws_world s) in
        let* s := foldM (edge_saddle m i) ks (set_world w s) in
        let s := set_world (upd_saddle i (set_over (Some true)) (ws_world s)) s in
        Ok (add_feat i s))).
      { intros s2 K2. eapply rs_bind; [by apply keep_synth|]. intros [w ks] K3. by apply Hfin. }
      destruct (decide _).
      + destruct (decide _); [|by apply Hfin].
        unfold ft_latlon. rewrite latlon_round_trip by apply Hup. cbn [rbind].
        destruct (cs_table _ !! _) as [d|] eqn:E; [|by apply keep_feat].
        apply Hsy. apply keep_link; eauto.
      + by apply Hsy.
    - eapply rs_bind; [by apply keep_synth|]. intros [w ks] K2.
      apply (rs_fold False _ (fun _ s => keep s)); [|done]. intros pre k s2 _ K3. unfold walk_synthetic.
      eapply rs_bind; [by apply keep_climb|]. intros s3 K4. unfold hpn_of.
      destruct (w_saddles (ws_world s3) !! k); cbn [rbind]; [|bad].
      eapply rs_bind; [by apply keep_edges|]. intros s4 K5. by apply keep_feat.
  Qed.
End again.

Section twice.
  Variables (fpath : datamap -> list mpoint -> mpoint -> mpoint -> option (list mpoint * Q)).
  Variables (near : searches) (m : datamap).
  Hypotheses (Hf : mpaths_found fpath m) (Hnear : sound_searches near m) (Hok : map_ok m) (Hup : north_up m)
    (Hlow : climbable m) (Hpix : pixels_in_reach m) (Hreach : map_in_reach m).

  Lemma first_walk w summits feats s : walk_input m w summits feats ->
    climb_from_saddles fpath near m w summits feats = Ok s ->
    walkables m (feats_of (ws_world s)) /\ forall i, i ∈ summits -> has_domain (ws_world s) i.
  Proof.
    intros I. pose proof (in_walk _ _ _ _ I) as Hw. unfold climb_from_saddles.
    destruct (walk_init_ok m w summits Hup) as (s0 & -> & S); [apply I..|]. cbn [rbind].
    destruct S as [S1 S2 (S3a & S3b & S3c) S4 S5 S6 S7].
    assert (H : rs False (keep m (summit_cell w summits) (ws_world s0)) (foldM (walk_one fpath near m) feats s0)).
    { apply (rs_fold False _ (fun _ s => keep m (summit_cell w summits) (ws_world s0) s)).
      - intros pre i s' _ K. by apply (keep_one fpath near m Hf Hnear Hok Hup Hlow Hpix Hreach).
      - split; [|split| |by intros d|done].
        + unfold feats_of. by rewrite S1.
        + intros c d H. apply S5 in H. exists c. split; [done|]. by eapply uphill_refl, (in_cells _ _ _ _ I).
        + done.
        + intros d c H. left. apply S5. by apply S7.
        + intros d t H _. by apply S5.
        + intros _. split_and!; try done. intros i o Ho. by rewrite Ho. }
    intros E. rewrite E in H. destruct H as [K1 _ _ K4 _]. split; [done|]. intros i Hi. apply K4.
    destruct (in_sum _ _ _ _ I i Hi) as [su Hsu]. unfold has_domain. rewrite S4, Hsu. cbn. eexists. split; [done|].
    destruct (decide _) as [_|Hn]; [by eexists|]. destruct (su_domain su) eqn:Ed; [by eexists|]. by destruct Hn.
  Qed.

  Lemma second_walk w summits feats : all_have_domain w summits -> walkables m (feats_of w) ->
    match climb_from_saddles fpath near m w summits feats with
    | Ok s => ws_linkers s = [] /\ w_links (ws_world s) = w_links w /\ w_summits (ws_world s) = w_summits w /\
        same_lists w (ws_world s)
    | Err e => e <> OutOfFuel
    end.
  Proof.
    intros Hd Hw. unfold climb_from_saddles.
    assert (H0 : rs False (fun s => s = WS w (CS ∅ []) [] [] []) (walk_init m w summits)).
    { apply (rs_fold False _ (fun _ s => s = WS w (CS ∅ []) [] [] [])); [|done].
      intros pre i s [post Hpost] ->. cbn. destruct (w_summits w !! i) as [su|] eqn:E; [|bad].
      destruct (Hd i su) as [ds Hds]; [rewrite Hpost; apply elem_of_app; right; by left|done|]. by rewrite Hds. }
    assert (H : rs False (keep m (fun _ _ => False) w) (let* s := walk_init m w summits in foldM (walk_one fpath near m) feats s)).
    { eapply rs_bind; [exact H0|]. intros s ->. apply (rs_fold False _ (fun _ s => keep m (fun _ _ => False) w s)).
      - intros pre i s' _ K. by apply (keep_one fpath near m Hf Hnear Hok Hup Hlow Hpix Hreach).
      - split; cbn [ws_world ws_climb ws_linkers]; [done|split|..]; try done.
        + cbn. constructor.
        + intros d c H. cbn in H. by apply elem_of_nil in H.
        + intros _. split_and!; try done. intros i o Ho. by rewrite Ho.
        + by intros d Hd0. }
    destruct (let* s := walk_init m w summits in _) as [s|e]; cbn in H.
    - destruct (k_none _ _ _ _ H) as (H1 & H2 & H3 & H4); [intros ? ? []|]. done.
    - apply H.
  Qed.
End twice.
