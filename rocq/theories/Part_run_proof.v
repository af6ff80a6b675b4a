(** Walking from chosen saddles of a map, and of the result of an analysis. *)
From Verif Require Import Run_model Walk_model Part_model Tree_spec Raster_spec Closest_spec Feature_spec Network_spec Climb_spec Graph_spec
  Walk_spec Basin_model Basin_spec Terrain_spec Run_spec Part_spec Again_proof Walked_proof Start_proof Terrain_proof Run_proof
  Basin_facts Rebuilt_proof Region_run_proof Part_proof.
Local Open Scope nat_scope.

Section given.
  Variables (fpath : datamap -> list mpoint -> mpoint -> mpoint -> option (list mpoint * Q)).
  Variables (near : searches) (m : datamap).
  Hypotheses (Hf : mpaths_found fpath m) (Hnear : sound_searches near m) (Hok : map_ok m) (Hup : north_up m)
    (Hlow : climbable m) (Hpix : pixels_in_reach m) (Hreach : map_in_reach m).

  Lemma given_walk given d d' out s : given <> [] -> dm_walk_given fpath near m given d = Ok (d', out, s) ->
    climb_from_saddles fpath near m (mp_world d) (mp_summits d) given = Ok s /\
    mp_world d' = ws_world s /\ mp_linkers d' = ws_linkers s /\
    mp_summits d' = mp_summits d /\ mp_saddles d' = mp_saddles d /\ mp_runoffs d' = mp_runoffs d /\
    exists sa ru, out = Some (sa, ru) /\ sa ++ ru ≡ₚ ws_feats s /\
      (forall i, i ∈ sa -> is_runoff (ws_world s) i = false) /\ (forall i, i ∈ ru -> is_runoff (ws_world s) i = true).
  Proof.
    intros Hne. unfold dm_walk_given. destruct given as [|i given]; [done|].
    destruct (climb_from_saddles _ _ _ _ _ _) as [s1|]; [|done]. cbn [rbind]. intros [= <- <- <-]. cbn [mp_world mp_linkers mp_summits mp_saddles mp_runoffs].
    do 6 (split; [done|]). eexists _, _. split; [done|]. split_and!.
    - induction (ws_feats s1) as [|x l IH]; [done|]. rewrite !filter_cons. destruct (is_runoff (ws_world s1) x) eqn:E.
      + rewrite decide_False by done. rewrite decide_True by done. by rewrite <-Permutation_middle, IH.
      + rewrite decide_True by done. rewrite decide_False by done. cbn. by rewrite IH.
    - intros x [H _]%elem_of_list_filter. done.
    - intros x [H _]%elem_of_list_filter. done.
  Qed.

  (** A link of the list leads to a saddle that was made by this walk. *)
  Lemma given_unlisted given d d' out s i o : walk_input m (mp_world d) (mp_summits d) given ->
    all_peaks m (mp_world d) (mp_summits d) -> dm_walk_given fpath near m given d = Ok (d', out, s) ->
    i ∈ given -> w_saddles (mp_world d) !! i = Some o -> ft_edge (sa_feat o) = false -> 2 <= length (ft_hpn (sa_feat o)) ->
    exists k l, k ∈ mp_linkers d' /\ w_links (mp_world d') !! k = Some l /\ length (w_saddles (mp_world d)) <= ln_saddle l.
  Proof.
    intros I Hpk E Hi Ho Hedge Hlen. assert (given <> []) as Hne by (intros ->; by apply elem_of_nil in Hi).
    destruct (given_walk given d d' out s Hne E) as (Ec & Ew & El & _).
    pose proof (walk_claims fpath near m Hf Hnear Hok Hup Hlow Hpix Hreach _ _ _ I) as H. rewrite Ec in H.
    destruct H as (WL & _ & HA). destruct (HA Hpk i o Hi Ho) as (ps & Hps & Hlinked).
    destruct Hps as [(_ & [?|[? _]])|(_ & _ & _ & Hnew & es & (Hes & _) & HF)]; [lia|congruence|].
    destruct es as [|e es]; [cbn in Hes; lia|]. inversion HF as [|p ? ps' ? Hp _]; subst.
    destruct Hp as (op & pos & ga & gb & g & h & Hop & Hfeat & _).
    destruct (Hlinked p ltac:(by left)) as [_ Hs]. destruct (Hs op ga Hop) as (k & l & z & t & Hk & Hl & Hpl & _).
    { rewrite Hfeat. by left. }
    exists k, l. rewrite El, Ew. split_and!; [|done|].
    - rewrite (wl_linkers _ _ _ _ _ _ _ WL). apply elem_of_seq. apply lookup_lt_Some in Hl. lia.
    - rewrite Hpl. apply Hnew. by left.
  Qed.

  (** All summits have a domain already: nothing is linked. *)
  Lemma given_late given d d' out s : given <> [] -> all_have_domain (mp_world d) (mp_summits d) ->
    (forall f, f ∈ feats_of (mp_world d) -> walkable m f) -> dm_walk_given fpath near m given d = Ok (d', out, s) ->
    mp_linkers d' = [] /\ ws_doms s = [] /\ w_links (mp_world d') = w_links (mp_world d) /\
    w_summits (mp_world d') = w_summits (mp_world d) /\ same_lists (mp_world d) (mp_world d').
  Proof.
    intros Hne Hd Hw E. destruct (given_walk given d d' out s Hne E) as (Ec & Ew & El & _).
    pose proof (second_walk fpath near m Hf Hnear Hok Hup Hlow Hpix Hreach _ _ given Hd Hw) as H. rewrite Ec in H.
    destruct H as (H1 & H2 & H3 & H4). rewrite El, Ew. split_and!; try done.
    by apply (walk_kept fpath near m _ _ _ _ Ec).
  Qed.

  Variables (fp : datamap -> list xy -> xy -> xy -> option Q) (orc : xy -> nat -> nat -> nat).
  Hypothesis (Hfp : paths_found fp m).

  Lemma analysed_ready fuel sparse r d : dm_run_with fpath fp orc near fuel sparse false r m = Ok d ->
    all_have_domain (mp_world d) (mp_summits d) /\ (forall f, f ∈ feats_of (mp_world d) -> walkable m f).
  Proof.
    intros Hd. destruct (found_run fp orc m Hok Hfp) as (su & sa & ru & Hrun).
    assert (exists d1, dm_run_with fpath fp orc near fuel true false r m = Ok d1 /\
      (d = d1 \/ dm_detect fuel m d1 = Ok d)) as (d1 & Hd1 & Hcase).
    { unfold dm_run_with in *. destruct (if r then _ else _) as [d0|]; [|done]. cbn [rbind] in *.
      destruct (dm_walk fpath near m d0) as [[d1 s1]|]; [|done]. cbn [rbind] in *. exists d1. split; [done|].
      destruct sparse; [left; congruence|by right]. }
    destruct (with_walk fpath fp orc near m Hnear Hok Hreach Hfp fuel r su sa ru d1 Hrun Hd1) as (objs & s & Hs & Hw).
    destruct (objects_input fp orc m Hok Hfp su sa ru objs Hrun Hs) as (I & _ & _).
    assert (all_have_domain (mp_world d1) (mp_summits d1) /\ (forall f, f ∈ feats_of (mp_world d1) -> walkable m f)) as [H1 H2].
    { unfold dm_walk in Hw. destruct (climb_from_saddles _ _ _ _ _ _) as [s1|] eqn:E; [|done]. cbn [rbind] in Hw. injection Hw as <- <-.
      cbn [mp_world mp_summits]. destruct (first_walk fpath near m Hf Hnear Hok Hup Hlow Hpix Hreach _ _ _ _ I E) as [Hwk Hdom].
      split; [|done]. intros i u Hi Hu. destruct (Hdom i Hi) as (u' & Hu' & Hx). congruence. }
    destruct Hcase as [->|Hdet]; [done|]. unfold dm_detect in Hdet.
    destruct (disqualify_basin_saddles _ _ _ _) as [w1|] eqn:E; [|done]. cbn [rbind] in Hdet. injection Hdet as <-.
    cbn [mp_world mp_summits]. destruct (basin_marks m fuel _ _ _ E) as (S & B & A & M & _). split.
    - intros i u Hi. rewrite (mk_summits _ _ _ _ _ M). by apply H1.
    - intros f (o & -> & [i Hi]%elem_of_list_lookup)%elem_of_list_fmap. destruct (Basin_proof.marked_back _ _ _ _ _ _ _ M Hi) as [o1 Ho1].
      destruct (mk_saddle _ _ _ _ _ M i o1 Ho1) as (o2 & Ho2 & F & _). assert (o2 = o) as -> by congruence. rewrite F.
      apply H2. apply elem_of_list_fmap. exists o1. split; [done|]. by eapply elem_of_list_lookup_2.
  Qed.
End given.
