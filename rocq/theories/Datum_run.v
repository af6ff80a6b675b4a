(** The whole analysis depends on the order of the elevations and of the slopes
    only. *)
From Verif Require Import Network_model Walk_model Run_model Feature_spec Climb_spec Raster_proof Basin_model Basin_spec Basin_facts
  Relief_spec Relief_proof Heights_spec Heights_proof Datum_spec Datum_climb Datum_net Datum_walk Datum_list Raster_spec.
From Coq Require Import ZifyBool.
Local Open Scope Z_scope.

Section run.
  Context (fpath : datamap -> list mpoint -> mpoint -> mpoint -> option pathinfo) (near : searches).
  Context (fp : datamap -> list xy -> xy -> xy -> option Q) (orc : xy -> nat -> nat -> nat).
  Context (m1 m2 : datamap) (Hs : same_relief m1 m2) (Hsl : same_slopes m1 m2).
  Context (L1 : nodata_low m1) (L2 : nodata_low m2) (Hn : blind_searches near m1 m2) (Hp : blind_paths fpath m1 m2).
  Context (Hfp : forall pts a b, fp m1 pts a b = fp m2 pts a b).
  Local Notation fw := (Datum_net.fw m1 m2).
  Local Notation wr := (Datum_walk.wr m1 m2).
  Local Notation dr := (Datum_walk.dr m1 m2).

  Lemma corner_alike x y : alike fw (make_corner_runoff m1 x y) (make_corner_runoff m2 x y).
  Proof.
    unfold make_corner_runoff, dm_get, np_read. rewrite <-(sr_x _ _ Hs), <-(sr_y _ _ Hs).
    destruct (np_index (dm_max_x m1) x) as [i|] eqn:Ei; [|done]. cbn [rbind].
    destruct (np_index (dm_max_y m1) y) as [j|] eqn:Ej; [|done]. cbn [rbind alike].
    split; cbn; try done. exists (i, j). split; [|done].
    unfold np_index in *. unfold in_map. cbn.
    repeat match type of Ei with context [if ?c then _ else _] => destruct c eqn:?; try done end;
    repeat match type of Ej with context [if ?c then _ else _] => destruct c eqn:?; try done end;
    injection Ei as <-; injection Ej as <-; lia.
  Qed.
  Definition three (r r' : list feature * list feature * list feature) : Prop :=
    Forall2 fw r.1.1 r'.1.1 /\ Forall2 fw r.1.2 r'.1.2 /\ Forall2 fw r.2 r'.2.
  Lemma found_alike : alike three (run_no_rebuild fp orc m1) (run_no_rebuild fp orc m2).
  Proof.
    unfold run_no_rebuild. apply (alike_bind three).
    - unfold analyze. apply (alike_bind (Forall2 (ft m1 m2))); [by apply all_alike|]. intros l l' H. cbn [alike].
      assert (forall k, Forall2 fw (filter (fun f => ft_kind f = k) l) (filter (fun f => ft_kind f = k) l')) as K; [|split; [apply K|split; apply K]].
      intros k. induction H as [|f f' l l' Hf _ IH]; [constructor|]. rewrite !filter_cons, (f_kind _ _ _ _ Hf).
      destruct (decide _); [|done]. constructor; [by apply ft_fw|done].
    - intros [[su sa] ru] [[su' sa'] ru'] (H1 & H2 & H3). cbn in H1, H2, H3. apply (alike_bind (Forall2 fw)).
      + unfold make_corner_runoffs. rewrite <-(sr_x _ _ Hs), <-(sr_y _ _ Hs).
        apply (alike_bind fw); [apply corner_alike|]. intros ? ? ?. apply (alike_bind fw); [apply corner_alike|]. intros ? ? ?.
        apply (alike_bind fw); [apply corner_alike|]. intros ? ? ?. apply (alike_bind fw); [apply corner_alike|]. intros ? ? ?.
        cbn. constructor; [done|]. constructor; [done|]. constructor; [done|]. constructor; [done|constructor].
      + intros c c' Hc. cbn [alike]. split; [done|]. split; [done|]. by apply Forall2_app.
  Qed.
  Lemma news l l' : Forall2 fw l l' -> Forall2 (sdr m1 m2) (map new_saddle l) (map new_saddle l').
  Proof. induction 1; constructor; [by apply new_sdr|done]. Qed.
  Lemma summits_new l l' : Forall2 fw l l' -> Forall2 (smr m1 m2) (map new_summit l) (map new_summit l').
  Proof. induction 1; constructor; [by split|done]. Qed.
  Lemma next_alike rs rs' n : Forall2 (rsd m1 m2) rs rs' -> next_kept n rs = next_kept n rs'.
  Proof. intros H. revert n. induction H as [|r r' rs rs' Hr _ IH]; intros n; [done|]. destruct r, r'; try done. apply IH. Qed.
  Lemma objects_alike rs rs' n cs : Forall2 (rsd m1 m2) rs rs' -> Forall2 (sdr m1 m2) (rebuilt_objects n cs rs) (rebuilt_objects n cs rs').
  Proof.
    intros H. revert n cs. induction H as [|r r' rs rs' Hr Hrs IH]; intros n cs; [constructor|].
    destruct r as [g d|pos e h c], r' as [g' d'|pos' e' h' c']; try done.
    - destruct Hr as [F <-]. cbn [rebuilt_objects]. constructor; [by split|apply IH].
    - destruct Hr as (<- & He & Hh & Hc).
      assert (fw (Feat KSaddle pos e [] false [] h) (Feat KSaddle pos e' [] false [] h')) as F by (split; cbn; try done).
      destruct c, c'; try done; cbn [rebuilt_objects]; (constructor; [|apply IH]).
      + rewrite (next_alike _ _ _ Hrs). by split.
      + by apply new_sdr.
  Qed.
  Lemma rebuilt_alike : alike dr (dm_rebuilt fp orc near m1) (dm_rebuilt fp orc near m2).
  Proof.
    unfold dm_rebuilt, run_rebuild.
    apply (alike_bind (fun r r' : list feature * list rsaddle * list feature =>
      Forall2 fw r.1.1 r'.1.1 /\ Forall2 (rsd m1 m2) r.1.2 r'.1.2 /\ Forall2 fw r.2 r'.2)).
    - apply (alike_bind three); [apply found_alike|]. intros [[su sa] ru] [[su' sa'] ru'] (H1 & H2 & H3). cbn in H1, H2, H3.
      apply (alike_bind (Forall2 (rsd m1 m2))); [by apply rebuilds_alike|]. intros rs rs' Hr. done.
    - intros [[su rs] ru] [[su' rs'] ru'] (H1 & H2 & H3). cbn in H1, H2, H3. cbn [alike].
      pose proof (objects_alike rs rs' 0 [] H2) as Ho. split.
      + split; cbn; [|by apply summits_new|done]. apply Forall2_app; [done|by apply news].
      + cbn. by rewrite (Forall2_length _ _ _ H1), (Forall2_length _ _ _ H3), (Forall2_length _ _ _ Ho).
  Qed.
  Lemma start_alike : alike dr (let* (su, sa, ru) := run_no_rebuild fp orc m1 in Ok (dm_start su sa ru))
    (let* (su, sa, ru) := run_no_rebuild fp orc m2 in Ok (dm_start su sa ru)).
  Proof.
    apply (alike_bind three); [apply found_alike|]. intros [[su sa] ru] [[su' sa'] ru'] (H1 & H2 & H3). cbn in H1, H2, H3. cbn [alike]. split.
    - split; cbn; [|by apply summits_new|done]. apply news. by apply Forall2_app.
    - cbn. by rewrite (Forall2_length _ _ _ H1), (Forall2_length _ _ _ H3), (Forall2_length _ _ _ H2).
  Qed.

  Lemma like f f' : fw f f' -> like_feature m1 m2 f f'.
  Proof.
    intros [F1 F2 F3 F4 F5 F6]. split; [done..|exact F3| |].
    - by apply mpts_true in F4 as [_ ->].
    - by apply groups_true in F6 as [_ ->].
  Qed.
  Lemma likes {A} (g : A -> feature) (R : A -> A -> Prop) l l' : (forall a a', R a a' -> fw (g a) (g a')) -> Forall2 R l l' ->
    Forall2 (like_feature m1 m2) (map g l) (map g l').
  Proof. intros Hg. induction 1; constructor; [by apply like, Hg|done]. Qed.
  Lemma result d d' : dr d d' -> same_result m1 m2 d d'.
  Proof.
    intros [W E]. split.
    - exact (wr_heights m1 m2 Hs L1 L2 _ _ W).
    - eapply likes; [|apply W]. by intros s s' [? _ _ _ _ _ _ _].
    - eapply likes; [|apply W]. by intros s s' [? _ _].
    - destruct W as [_ W _]. induction W as [|? ? ? ? H _ IH]; [done|]. cbn. by rewrite (sm_domain _ _ _ _ H), IH.
    - done.
  Qed.
  Lemma marked_feats S B A w w' : marked S B A w w' -> map sa_feat (w_saddles w') = map sa_feat (w_saddles w).
  Proof.
    intros [E _ H _ _]. apply list_eq. intros j. rewrite !list_lookup_fmap.
    destruct (w_saddles w !! j) as [a|] eqn:Ea.
    - destruct (H j a Ea) as (b & -> & Eb & _). cbn. by rewrite Eb.
    - apply lookup_ge_None in Ea. rewrite <-E in Ea. apply lookup_ge_None in Ea. by rewrite Ea.
  Qed.
  Lemma detect_alike fuel d d' : dr d d' -> (forall i, i ∈ mp_saddles d -> (i < length (w_saddles (mp_world d)))%nat) ->
    alike (same_result m1 m2) (dm_detect fuel m1 d) (dm_detect fuel m2 d').
  Proof.
    intros D Hi. pose proof D as [W E]. injection E as E1 E2 E3 E4. unfold dm_detect. rewrite <-E2.
    pose proof (heights m1 m2 (ss_gt _ _ Hsl) fuel _ _ (mp_saddles d) (wr_heights m1 m2 Hs L1 L2 _ _ W) Hi) as H.
    destruct (disqualify_basin_saddles m1 fuel (mp_world d) (mp_saddles d)) as [w1|] eqn:B1,
      (disqualify_basin_saddles m2 fuel (mp_world d') (mp_saddles d)) as [w2|] eqn:B2; try done. cbn [rbind alike].
    apply basin_marks in B1 as (S1 & Ba1 & A1 & M1 & _), B2 as (S2 & Ba2 & A2 & M2 & _).
    destruct (result _ _ D) as [_ R2 R3 R4 _]. split; cbn [mp_world mp_summits mp_saddles mp_runoffs mp_linkers].
    - done.
    - by rewrite (marked_feats _ _ _ _ _ M1), (marked_feats _ _ _ _ _ M2).
    - by rewrite (mk_summits _ _ _ _ _ M1), (mk_summits _ _ _ _ _ M2).
    - by rewrite (mk_summits _ _ _ _ _ M1), (mk_summits _ _ _ _ _ M2).
    - by rewrite E1, E3, E4.
  Qed.

  Lemma run_alike fuel sparse superSparse rebuild :
    match dm_run_with fpath fp orc near fuel sparse superSparse rebuild m1, dm_run_with fpath fp orc near fuel sparse superSparse rebuild m2 with
    | Ok d, Ok d' => same_result m1 m2 d d'
    | Err e, Err e' => e = e'
    | _, _ => False
    end.
  Proof.
    change (alike (same_result m1 m2) (dm_run_with fpath fp orc near fuel sparse superSparse rebuild m1)
      (dm_run_with fpath fp orc near fuel sparse superSparse rebuild m2)). unfold dm_run_with.
    apply (alike_bind dr); [destruct rebuild; [apply rebuilt_alike|apply start_alike]|].
    intros d d' D. destruct superSparse; [by apply result|].
    pose proof (walk_alike fpath near m1 m2 Hs Hsl L1 L2 Hn Hp d d' D) as H.
    destruct (dm_walk fpath near m1 d) as [[e s]|] eqn:E, (dm_walk fpath near m2 d') as [[e' s']|]; try done.
    destruct H as [H _]. cbn [fst] in H. cbn [rbind]. destruct sparse; [by apply result|].
    apply detect_alike; [done|]. intros i. eapply walk_listed; exact E.
  Qed.
End run.
