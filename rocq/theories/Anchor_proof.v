(** Where discovery places the summit or saddle of a flat area. *)
From stdpp Require sorting.
From Verif Require Import Base_model Raster_model Analyze_model Anchor_spec Raster_proof Contig_proof Touch_proof
  Blob_proof Analyze_proof Area_proof Scan_proof Feature_spec Feature_facts Raster_spec.
Local Open Scope Z_scope.

Section anchor.
  Context (fp : datamap -> list xy -> xy -> xy -> option Q) (orc : xy -> nat -> nat -> nat).
  Context (m : datamap).

  Lemma runoff_loop_kind e ed hp l : forall s s', foldM (runoff_step fp m e ed hp) l s = Ok s' ->
    (forall f, f ∈ es_feats s -> ft_kind f = KRunoff) -> forall f, f ∈ es_feats s' -> ft_kind f = KRunoff.
  Proof.
    induction l as [|kv l IH]; intros s s'; cbn [foldM]; [by intros [= <-]|].
    destruct (runoff_step fp m e ed hp kv s) as [s1|] eqn:E1; [|done]. cbn [rbind]. intros H Hs.
    apply (IH s1 s' H). revert E1. unfold runoff_step.
    destruct (_ <? _); [by intros [= <-]|]. destruct (negb _); [by intros [= <-]|].
    destruct (ed !! _) as [nb|]; [|done]. destruct (nb !! _) as [mid|]; [|done].
    destruct (if decide _ then _ else _) as [[hs multi]|]; [|done]. cbn [rbind].
    destruct (foldM py_remove nb _) as [rest|]; [|done]. cbn [rbind]. intros [= <-]. cbn.
    intros f [Hf|Hf]%elem_of_app; [by apply Hs|]. apply elem_of_list_singleton in Hf as ->. done.
  Qed.

  Lemma consolidated_pos cell x y e per med mu ed ep fs :
    consolidatedFeatureLogic fp orc m cell x y e per med mu ed ep = Ok fs ->
    forall f, f ∈ fs -> ft_kind f <> KRunoff -> ft_pos f = (x, y).
  Proof.
    unfold consolidatedFeatureLogic. destruct (contiguous_neighbors _ _) as [hp|]; [|done]. cbn [rbind].
    set (first := match hp with [] => _ | _ :: _ => _ end).
    assert (Hfirst : forall f, f ∈ first -> ft_pos f = (x, y)).
    { intros f. unfold first. destruct hp; [|destruct (_ && _)]; intros Hf;
        first [by apply elem_of_nil in Hf|by apply elem_of_list_singleton in Hf as ->]. }
    clearbody first. destruct ed; [|intros [= <-] f Hf _; by apply Hfirst].
    unfold edge_feature_analysis. cbn [negb].
    destruct hp as [|g hp'] eqn:Ehp.
    { cbn [rbind]. intros [= <-] f [Hf|Hf]%elem_of_app Hk; [by apply Hfirst|].
      by apply elem_of_list_singleton in Hf as ->. }
    rewrite <-Ehp in *. clear Ehp.
    destruct (contiguous_neighbors _ _) as [mn|]; [|done]. cbn [rbind].
    destruct (lower_groups _ _) as [lw|]; [|done]. cbn [rbind].
    destruct (Nat.leb (length lw) 1).
    { cbn [rbind]. intros [= <-] f [Hf|Hf]%elem_of_app Hk; [by apply Hfirst|].
      destruct (Nat.ltb 1 _); [by apply elem_of_list_singleton in Hf as ->|by apply elem_of_nil in Hf]. }
    destruct (contiguous_neighbors _ _) as [en|]; [|done]. cbn [rbind].
    destruct (touching_neighborhoods _ _) as [tn|]; [|done]. cbn [rbind].
    destruct (foldM _ tn _) as [s|] eqn:El; [|done]. cbn [rbind].
    intros [= <-] f [Hf|[Hf|Hf]%elem_of_app]%elem_of_app Hk; [by apply Hfirst| |].
    - destruct Hk. eapply (runoff_loop_kind _ _ _ _ _ _ El); [|done]. cbn. intros f' Hf'. by apply elem_of_nil in Hf'.
    - destruct (match length hp with S (S _) => true | _ => false end); [destruct (Nat.eqb _ _)|];
        first [by apply elem_of_nil in Hf|by apply elem_of_list_singleton in Hf as ->].
  Qed.

  Lemma scan_first e ns : forall per med q v, scan_neighbors m e ns per med = inl (q, v) ->
    exists ns1 ns2, ns = ns1 ++ (q, Some e) :: ns2 /\ v = e /\ Some e <> dm_nodata m /\
      forall q' v', (q', v') ∈ ns1 -> v' = dm_nodata m \/ v' <> Some e.
  Proof.
    induction ns as [|[q0 v0] ns IH]; intros per med q v; cbn; [done|].
    assert (Hstep : forall per' med', scan_neighbors m e ns per' med' = inl (q, v) ->
      v0 = dm_nodata m \/ v0 <> Some e ->
      exists ns1 ns2, (q0, v0) :: ns = ns1 ++ (q, Some e) :: ns2 /\ v = e /\ Some e <> dm_nodata m /\
        forall q' v', (q', v') ∈ ns1 -> v' = dm_nodata m \/ v' <> Some e).
    { intros per' med' Hs H0. destruct (IH _ _ _ _ Hs) as (n1 & n2 & -> & Hv & Hn & Hall).
      exists ((q0, v0) :: n1), n2. split_and!; try done.
      intros q' v' [[= -> ->]|H]%elem_of_cons; [done|]. by eapply Hall. }
    destruct (decide (v0 = dm_nodata m)) as [E|E]; [intros H; eapply Hstep; [done|by left]|].
    destruct v0 as [e0|]; [|intros H; eapply Hstep; [done|by right]].
    destruct (Z.eqb_spec e0 e) as [->|Hne].
    - intros [= <- <-]. exists [], ns. split_and!; try done. intros q' v' H. by apply elem_of_nil in H.
    - intros H. eapply Hstep; [done|]. right. congruence.
  Qed.

  Lemma first_place x y per med q v : first_of_flat m (x, y) ->
    scan_neighbors m (elev m (x, y)) (full_nbrs m x y) per med = inl (q, v) ->
    place_of_flat m (x, y) q.
  Proof.
    intros Hf Hs. destruct (scan_first _ _ _ _ _ _ Hs) as (n1 & n2 & Hn & -> & Hnd & Hall). clear Hs.
    split; [done|]. right.
    assert (Hq : same_flat m (x, y) q).
    { assert (Hin : (q, Some (elev m (x, y))) ∈ full_nbrs m x y) by (rewrite Hn; apply elem_of_app; right; by left).
      apply elem_of_full_nbrs in Hin as [Ha [[Hi He]|[_ He]]]; [|done].
      assert (E : elev m (x, y) = elev m q) by congruence.
      assert (Hd : data_cell m q) by (split; [done|congruence]).
      eapply same_flat_step; [apply same_flat_refl, Hf|done..]. }
    assert (Hno : forall c v, (c, v) ∈ n1 -> ~ same_flat m (x, y) c).
    { intros c v0 Hc Hsf. pose proof (Hall c v0 Hc) as Hv0.
      assert (Hin : (c, v0) ∈ full_nbrs m x y) by (rewrite Hn; apply elem_of_app; by left).
      apply elem_of_full_nbrs in Hin as [_ Hr]. destruct (same_flat_data_r _ _ _ Hsf) as [Hi Hd].
      destruct Hr as [[_ ->]|[? _]]; [|done]. rewrite (same_flat_elev _ _ _ Hsf) in Hv0.
      destruct Hv0 as [E|E]; [by rewrite E in Hd|done]. }
    assert (Hlt : ~ rm_lt q (x, y)) by (by apply Hf).
    assert (Hn' : map fst (full_nbrs m x y) = map fst n1 ++ q :: map fst n2) by (rewrite Hn; by rewrite map_app).
    assert (Hno' : forall c, c ∈ map fst n1 -> ~ same_flat m (x, y) c).
    { intros c ([c' v0] & -> & Hc)%elem_of_list_fmap. by eapply Hno. }
    clear Hn Hno Hall. change (map fst (full_nbrs m x y)) with
      [(x + -1, y + 0); (x + -1, y + 1); (x + 0, y + 1); (x + 1, y + 1);
       (x + 1, y + 0); (x + 1, y + -1); (x + 0, y + -1); (x + -1, y + -1)] in Hn'.
    generalize dependent (map fst n1). generalize dependent (map fst n2). intros l2 l1 Hl Hno.
    unfold later_cells. cbn [fst snd].
    replace (x + 0) with x in Hl by lia. replace (y + 0) with y in Hl by lia.
    replace (x + -1) with (x - 1) in Hl by lia. replace (y + -1) with (y - 1) in Hl by lia.
    destruct l1 as [|c0 l1]; [injection Hl as <- _; destruct Hlt; unfold rm_lt; cbn; lia|].
    injection Hl as <- Hl.
    destruct l1 as [|c1 l1]; [injection Hl as <- _; destruct Hlt; unfold rm_lt; cbn; lia|].
    injection Hl as <- Hl.
    destruct l1 as [|c2 l1].
    { injection Hl as <- _. eexists [], _. split; [reflexivity|]. split; [done|]. intros c H. by apply elem_of_nil in H. }
    injection Hl as <- Hl.
    destruct l1 as [|c3 l1].
    { injection Hl as <- _. eexists [_], _. split; [reflexivity|]. split; [done|].
      intros c H. apply Hno. rewrite !elem_of_cons in *. tauto. }
    injection Hl as <- Hl.
    destruct l1 as [|c4 l1].
    { injection Hl as <- _. eexists [_; _], _. split; [reflexivity|]. split; [done|].
      intros c H. apply Hno. rewrite !elem_of_cons in *. tauto. }
    injection Hl as <- Hl.
    destruct l1 as [|c5 l1].
    { injection Hl as <- _. eexists [_; _; _], _. split; [reflexivity|]. split; [done|].
      intros c H. apply Hno. rewrite !elem_of_cons in *. tauto. }
    injection Hl as <- Hl.
    destruct l1 as [|c6 l1]; [injection Hl as <- _; destruct Hlt; unfold rm_lt; cbn; lia|].
    injection Hl as <- Hl.
    destruct l1 as [|c7 l1]; [injection Hl as <- _; destruct Hlt; unfold rm_lt; cbn; lia|].
    injection Hl as <- Hl. by destruct l1.
  Qed.

  Hypothesis Hok : map_ok m.
  Hypothesis Hfp : paths_found fp m.

  Lemma cell_places visited x y fs vis : first_of_flat m (x, y) -> (x, y) ∉ visited ->
    summit_and_saddle fp orc m visited (elev m (x, y)) x y = Ok (fs, vis) ->
    forall f, f ∈ fs -> ft_kind f <> KRunoff -> place_of_flat m (x, y) (ft_pos f).
  Proof.
    intros Hf Hv. unfold summit_and_saddle. rewrite decide_False by done. rewrite iterateFull_eq. cbn [rbind].
    assert (Hnb : nb_ok m (x, y) (full_nbrs m x y)).
    { split.
      - destruct (iterateFull_spec m x y) as (l & Hl & Hnd & _). rewrite iterateFull_eq in Hl.
        injection Hl as <-. done.
      - intros q v Hq. by apply elem_of_full_nbrs in Hq. }
    pose proof (scan_spec m (x, y) (full_nbrs m x y) [] [] _ Hnb eq_refl) as Hscan.
    destruct (scan_neighbors m (elev m (x, y)) (full_nbrs m x y) [] []) as [[q e]|[perim medge]] eqn:Es.
    - apply first_place in Es; [|done]. unfold analyze_multipoint.
      destruct (equalHeightBlob m q.1 q.2 e) as [b|]; [|done]. cbn [rbind].
      destruct (consolidatedFeatureLogic _ _ _ _ _ _ _ _ _ _ _ _) as [r|] eqn:Ec; [|done]. cbn [rbind].
      intros [= <- _] f Hin Hk. rewrite (consolidated_pos _ _ _ _ _ _ _ _ _ _ Ec f Hin Hk). by destruct q.
    - destruct Hscan as (S1 & _).
      destruct (consolidatedFeatureLogic _ _ _ _ _ _ _ _ _ _ _ _) as [r|] eqn:Ec; [|done]. cbn [rbind].
      intros [= <- _] f Hin Hk. rewrite (consolidated_pos _ _ _ _ _ _ _ _ _ _ Ec f Hin Hk).
      split; [done|]. left. split; [|done]. apply single_flat; [apply Hf|].
      intros q Hq Hqd. apply (S1 q (nb_val m q)); [|done]. apply elem_of_full_nbrs. split; [done|apply nb_val_reported].
  Qed.

  Definition all_placed (s : list feature * gset xy) : Prop :=
    forall f, f ∈ s.1 -> ft_kind f <> KRunoff -> exists p, place_of_flat m p (ft_pos f).

  Lemma cell_placed pre c areas s s' : sinv m pre areas s -> in_map m c ->
    (forall q, in_map m q -> (q ∈ pre <-> rm_lt q c)) ->
    analyze_cell fp orc m c s = Ok s' -> all_placed s -> all_placed s'.
  Proof.
    intros Hinv Hc Hpre Ha Hs. revert Ha. unfold analyze_cell. rewrite np_read_in by done. cbn [rbind].
    destruct (decide (dm_nodata m = Some (elev m c))) as [Hnd|Hnd]; [by intros [= <-]|].
    destruct (summit_and_saddle _ _ _ _ _ _ _) as [[r vis]|] eqn:E; [|done]. cbn [rbind].
    intros [= <-] f [Hf|Hf]%elem_of_app Hk; [by apply Hs|]. destruct c as [x y]. cbn [fst snd] in *.
    destruct (decide ((x, y) ∈ s.2)) as [Hv|Hv].
    { unfold summit_and_saddle in E. rewrite decide_True in E by done. injection E as <- _. by apply elem_of_nil in Hf. }
    exists (x, y). eapply cell_places; [|done..].
    split; [done|]. intros q Hq Hlt. apply Hv. eapply (si_vis2 _ _ _ _ Hinv q).
    - apply Hpre; [|done]. apply same_flat_data_r in Hq. apply Hq.
    - by apply same_flat_sym.
    - exists (x, y). split; [by apply same_flat_sym|]. intros E'. rewrite E' in Hlt. by apply rm_lt_irrefl in Hlt.
  Qed.

  Lemma scan_placed post : forall pre areas s s',
    sinv m pre areas s -> pre ++ post = nditer_cells m ->
    foldM (analyze_cell fp orc m) post s = Ok s' -> all_placed s -> all_placed s'.
  Proof.
    induction post as [|c post IH]; intros pre areas s s' Hinv Heq; cbn [foldM]; [by intros [= <-]|].
    assert (Hc : in_map m c) by (apply elem_of_nditer; rewrite <-Heq; apply elem_of_app; right; by left).
    assert (Hpre : forall q, in_map m q -> (q ∈ pre <-> rm_lt q c)).
    { intros q Hq. pose proof (nditer_sorted m Hok) as Hs. rewrite <-Heq in Hs.
      assert (Hq' : q ∈ pre ++ c :: post) by (rewrite Heq; by apply elem_of_nditer).
      clear -Hs Hq'. induction pre as [|a pre IH]; cbn in *.
      - apply Sorted.StronglySorted_inv in Hs as [_ Hs]. rewrite Forall_forall in Hs.
        split; [intros H; by apply elem_of_nil in H|]. intros Hlt.
        apply elem_of_cons in Hq' as [->|Hq'].
        + by apply rm_lt_irrefl in Hlt.
        + exfalso. eapply rm_lt_irrefl, rm_lt_trans; [exact Hlt|]. by apply Hs.
      - apply Sorted.StronglySorted_inv in Hs as [Hs Ha]. rewrite Forall_forall in Ha.
        apply elem_of_cons in Hq' as [->|Hq'].
        + split; [intros _|by left]. apply Ha. apply elem_of_app. right. by left.
        + rewrite elem_of_cons, <-(IH Hs Hq'). split; [|by right]. intros [->|?]; [|done].
          exfalso. eapply rm_lt_irrefl. by apply Ha. }
    destruct (analyze_cell_spec fp orc m Hok Hfp pre c areas s Hinv Hc Hpre) as (areas1 & s1 & E1 & Hinv1).
    rewrite E1. cbn [rbind]. intros Hrest Hs. eapply (IH (pre ++ [c])); [done|by rewrite <-app_assoc|done|].
    exact (cell_placed pre c areas s s1 Hinv Hc Hpre E1 Hs).
  Qed.

  Theorem features_placed su sa ru : analyze fp orc m = Ok (su, sa, ru) ->
    forall f, f ∈ su \/ f ∈ sa -> exists p, place_of_flat m p (ft_pos f).
  Proof.
    unfold analyze, analyze_all. destruct (foldM _ _ _) as [s|] eqn:E; [|done]. cbn [rbind].
    intros [= <- <- _] f Hf.
    apply (scan_placed (nditer_cells m) [] [] ([], ∅) s); try done.
    - split; cbn; try done.
      + intros p fs H. by apply elem_of_nil in H.
      + intros p. rewrite !elem_of_nil. tauto.
      + constructor.
      + intros q d H. by apply elem_of_nil in H.
    - intros g H. by apply elem_of_nil in H.
    - destruct Hf as [Hf|Hf]; by apply elem_of_list_filter in Hf as [_ ?].
    - destruct Hf as [Hf|Hf]; apply elem_of_list_filter in Hf as [Hk _]; congruence.
  Qed.
End anchor.

Lemma place_in m p q : place_of_flat m p q -> same_flat m p q.
Proof.
  intros [Hf [[H ->]|(b & a & _ & H & _)]]; [|done]. by apply same_flat_refl, Hf.
Qed.

Lemma first_unique m p q : first_of_flat m p -> first_of_flat m q -> same_flat m p q -> p = q.
Proof.
  intros [_ Hp] [_ Hq] H. destruct (rm_lt_total p q) as [Hl|[E|Hl]]; [|done|].
  - destruct (Hq p); [by apply same_flat_sym|done].
  - by destruct (Hp q).
Qed.

Lemma place_unique m p q p' q' : place_of_flat m p q -> place_of_flat m p' q' -> same_flat m q q' -> q = q'.
Proof.
  intros H1 H2 Hf. pose proof (place_in _ _ _ H1) as I1. pose proof (place_in _ _ _ H2) as I2.
  assert (p = p') as <-.
  { apply (first_unique m); [apply H1|apply H2|]. eapply same_flat_trans; [done|].
    eapply same_flat_trans; [done|]. by apply same_flat_sym. }
  destruct H1 as [F1 [[S1 ->]|(b1 & a1 & L1 & J1 & N1)]].
  { symmetry. by apply S1. }
  destruct H2 as [_ [[S2 ->]|(b2 & a2 & L2 & J2 & N2)]]; [by apply S2|].
  rewrite L1 in L2. apply app_eq_inv in L2 as [(k & E1 & E2)|(k & E1 & E2)].
  - destruct k as [|z k]; [by injection E2|]. injection E2 as <- E2. destruct (N1 q'); [|done].
    rewrite E1. apply elem_of_app. right. by left.
  - destruct k as [|z k]; [by injection E2|]. injection E2 as <- E2. destruct (N2 q); [|done].
    rewrite E1. apply elem_of_app. right. by left.
Qed.

(** The order of the sets and the path search do not influence the places. *)
Section order.
  Context (fp fp' : datamap -> list xy -> xy -> xy -> option Q) (orc orc' : xy -> nat -> nat -> nat).
  Context (m : datamap).

  Lemma sorted_nodup l : Sorted.StronglySorted rm_lt l -> NoDup l.
  Proof.
    induction 1 as [|a l Hl IH Ha]; constructor; [|done]. intros Hin. rewrite Forall_forall in Ha.
    by apply (rm_lt_irrefl a), Ha.
  Qed.
  Lemma sorted_same l l' : Sorted.StronglySorted rm_lt l -> Sorted.StronglySorted rm_lt l' ->
    (forall p, p ∈ l <-> p ∈ l') -> l = l'.
  Proof.
    intros Hl Hl' H. assert (HA : AntiSymm (=) rm_lt).
    { intros a b H1 H2. exfalso. eapply rm_lt_irrefl, rm_lt_trans; done. }
    apply (sorting.StronglySorted_unique rm_lt); [done..|]. apply NoDup_Permutation; try done; by apply sorted_nodup.
  Qed.

  Lemma area_same p fs fs' k : k <> KRunoff -> data_cell m p -> area_result m p fs -> area_result m p fs' ->
    (forall f, f ∈ fs -> ft_kind f = k -> exists r, place_of_flat m r (ft_pos f)) ->
    (forall f, f ∈ fs' -> ft_kind f = k -> exists r, place_of_flat m r (ft_pos f)) ->
    map place_ele (of_kind k fs) = map place_ele (of_kind k fs').
  Proof.
    intros Hk Hd H H' P P'.
    assert (Hone : forall f f', f ∈ of_kind k fs -> f' ∈ of_kind k fs' ->
      stands_for m p f -> stands_for m p f' -> place_ele f = place_ele f').
    { intros f f' Hf Hf' [_ S1 S2] [_ S1' S2']. apply elem_of_list_filter in Hf as [K Hf], Hf' as [K' Hf'].
      destruct (P f Hf K) as [r R], (P' f' Hf' K') as [r' R']. unfold place_ele. f_equal; [|congruence].
      eapply place_unique; [done..|]. eapply same_flat_trans; [by apply same_flat_sym|done]. }
    destruct k; [| |done].
    - assert (Hpk : peak m p \/ ~ peak m p).
      { destruct H; first [left; split; [done|]; by apply no_rim|right; intros [_ Hn];
          match goal with HC : components (rim m p) ?h, HN : ?h <> [] |- _ =>
            destruct (proj1 (components_nonnil _ _ _ HC) HN) as [q Hq]; by apply (Hn q) end]. }
      destruct (area_summit m p fs Hd H) as [Y N], (area_summit m p fs' Hd H') as [Y' N'].
      unfold of_kind in *. destruct Hpk as [Hpk|Hpk]; [|by rewrite N, N'].
      destruct (Y Hpk) as (f & E & X & _), (Y' Hpk) as (f' & E' & X' & _). rewrite E, E' in *. cbn.
      f_equal. apply Hone; [by left..|apply X|apply X'].
    - assert (Hts : two_sided m p \/ ~ two_sided m p).
      { destruct H; try (right; intros (a & _ & Ha & _); by eapply (proj1 (no_rim _ _)) in Ha);
          match goal with HC : components _ _ |- _ => rewrite <-(components_two _ _ _ HC) end; lia. }
      destruct (area_saddle m p fs H) as [Y N], (area_saddle m p fs' H') as [Y' N'].
      unfold of_kind in *. destruct Hts as [Hts|Hts]; [|by rewrite N, N'].
      destruct (Y Hts) as (f & E & X & _), (Y' Hts) as (f' & E' & X' & _). rewrite E, E' in *. cbn.
      f_equal. apply Hone; [by left..|apply X|apply X'].
  Qed.

  Lemma areas_same k : k <> KRunoff -> forall areas areas' : list (xy * list feature),
    map fst areas = map fst areas' ->
    (forall p fs, (p, fs) ∈ areas -> data_cell m p /\ area_result m p fs /\
       forall f, f ∈ fs -> ft_kind f = k -> exists r, place_of_flat m r (ft_pos f)) ->
    (forall p fs, (p, fs) ∈ areas' -> area_result m p fs /\
       forall f, f ∈ fs -> ft_kind f = k -> exists r, place_of_flat m r (ft_pos f)) ->
    map place_ele (of_kind k (concat (map snd areas))) = map place_ele (of_kind k (concat (map snd areas'))).
  Proof.
    intros Hk. induction areas as [|[p fs] areas IH]; intros [|[p' fs'] areas'] E H H'; try done.
    injection E as -> E. cbn [map snd concat]. unfold of_kind in *. rewrite !filter_app, !map_app. f_equal.
    - destruct (H p' fs) as (D & R & P); [by left|]. destruct (H' p' fs') as (R' & P'); [by left|].
      by apply (area_same p' fs fs' k).
    - apply IH; [done|..]; intros; [apply H|apply H']; by right.
  Qed.

  Theorem places_same : map_ok m -> paths_found fp m -> paths_found fp' m ->
    exists su sa ru su' sa' ru', analyze fp orc m = Ok (su, sa, ru) /\ analyze fp' orc' m = Ok (su', sa', ru') /\
      map place_ele su = map place_ele su' /\ map place_ele sa = map place_ele sa'.
  Proof.
    intros Hok F F'.
    destruct (analyze_all_spec fp orc m Hok F) as (areas & E & R & Fi & So).
    destruct (analyze_all_spec fp' orc' m Hok F') as (areas' & E' & R' & Fi' & So').
    assert (A : analyze fp orc m = Ok (of_kind KSummit (concat (map snd areas)),
      of_kind KSaddle (concat (map snd areas)), of_kind KRunoff (concat (map snd areas)))).
    { unfold analyze. by rewrite E. }
    assert (A' : analyze fp' orc' m = Ok (of_kind KSummit (concat (map snd areas')),
      of_kind KSaddle (concat (map snd areas')), of_kind KRunoff (concat (map snd areas')))).
    { unfold analyze. by rewrite E'. }
    pose proof (features_placed fp orc m Hok F _ _ _ A) as P.
    pose proof (features_placed fp' orc' m Hok F' _ _ _ A') as P'.
    assert (HF : map fst areas = map fst areas').
    { apply sorted_same; [done..|]. intros p. by rewrite Fi, Fi'. }
    assert (HK : forall k, k <> KRunoff ->
      map place_ele (of_kind k (concat (map snd areas))) = map place_ele (of_kind k (concat (map snd areas')))).
    { intros k Hk. apply areas_same; [done..| |].
      - intros p fs Hp. split; [|split; [by apply R|]].
        + apply (proj1 (Fi p)). apply elem_of_list_fmap. by exists (p, fs).
        + intros f Hf K. apply P. assert (f ∈ concat (map snd areas)).
          { apply elem_of_list_In, in_concat. exists fs. split; [|by apply elem_of_list_In].
            apply in_map_iff. exists (p, fs). split; [done|by apply elem_of_list_In]. }
          destruct k; [left|right|done]; by apply elem_of_list_filter.
      - intros p fs Hp. split; [by apply R'|].
        intros f Hf K. apply P'. assert (f ∈ concat (map snd areas')).
        { apply elem_of_list_In, in_concat. exists fs. split; [|by apply elem_of_list_In].
          apply in_map_iff. exists (p, fs). split; [done|by apply elem_of_list_In]. }
        destruct k; [left|right|done]; by apply elem_of_list_filter. }
    eexists _, _, _, _, _, _. split; [exact A|]. split; [exact A'|]. split; by apply HK.
  Qed.
End order.

Theorem features_placed_at fp orc m : map_ok m -> paths_found fp m ->
  exists su sa ru, analyze fp orc m = Ok (su, sa, ru) /\
    forall f, f ∈ su \/ f ∈ sa -> exists p, covers f p /\ place_of_flat m p (ft_pos f).
Proof.
  intros Hok F. destruct (summits_exact fp orc m Hok F) as (su & sa & ru & E & S & _).
  destruct (saddles_exact fp orc m Hok F) as (? & ? & ? & E2 & T & _).
  rewrite E in E2. injection E2 as <- <- <-. exists su, sa, ru. split; [done|]. intros f Hf.
  destruct (features_placed fp orc m Hok F su sa ru E f Hf) as [p Hp]. exists p. split; [|done].
  assert (Hs : exists q, stands_for m q f).
  { destruct Hf as [Hf|Hf].
    - destruct (S f Hf) as (q & _ & X). exists q. apply X.
    - destruct (T f Hf) as (q & _ & _ & X & _). by exists q. }
  destruct Hs as [q [Hc Hq _]]. apply Hc. eapply same_flat_trans; [done|]. by apply same_flat_sym, place_in.
Qed.
