(** The numeric value of the nodata marker does not influence discovery. *)
From Verif Require Import Analyze_model Raster_spec Feature_spec Raster_proof Contig_proof
  Touch_proof Blob_proof Analyze_proof Area_proof Scan_proof Feature_facts.
From Coq Require Import ZifyBool.
Local Open Scope Z_scope.

Lemma foldM_ext {A S} (f g : A -> S -> res S) l s :
  (forall a s, f a s = g a s) -> foldM f l s = foldM g l s.
Proof.
  intros H. revert s. induction l as [|a l IH]; intros s; [done|]. cbn. rewrite H.
  destruct (g a s); [|done]. cbn. apply IH.
Qed.
Lemma foldM_ext_in {A S} (f g : A -> S -> res S) l s :
  (forall a s, a ∈ l -> f a s = g a s) -> foldM f l s = foldM g l s.
Proof.
  intros H. revert s. induction l as [|a l IH]; intros s; [done|]. cbn. rewrite H by left.
  destruct (g a s); [|done]. cbn. apply IH. intros b s' Hb. apply H. by right.
Qed.

Section nodata.
  Context (fp : datamap -> list xy -> xy -> xy -> option Q) (orc : xy -> nat -> nat -> nat).
  Context (m1 m2 : datamap) (Hag : same_data m1 m2).
  Context (Hfp : forall pts a b, fp m1 pts a b = fp m2 pts a b).

  Lemma ag_in p : in_map m1 p <-> in_map m2 p.
  Proof. unfold in_map. destruct Hag as [-> -> _]. done. Qed.

  (** The value is ignored by both scans or read by both. *)
  Definition vrel (n1 n2 : xy * option Z) : Prop :=
    n1.1 = n2.1 /\
    ((n1.2 = dm_nodata m1 /\ n2.2 = dm_nodata m2) \/
     (exists e, n1.2 = Some e /\ n2.2 = Some e /\ dm_nodata m1 <> Some e /\ dm_nodata m2 <> Some e)).

  Lemma nb_val_rel q : vrel (q, nb_val m1 q) (q, nb_val m2 q).
  Proof.
    split; [done|]. cbn.
    pose proof (nb_val_reported m1 q) as H1. pose proof (nb_val_reported m2 q) as H2.
    pose proof (ag_in q) as Hin.
    destruct H1 as [[Hi1 ->]|[Hi1 ->]], H2 as [[Hi2 ->]|[Hi2 ->]]; try tauto.
    destruct (decide (data_cell m1 q)) as [Hd|Hd].
    - right. exists (elev m1 q). pose proof (sd_data _ _ Hag q) as H. apply H in Hd as Hd2.
      rewrite (sd_elev _ _ Hag q Hd) in *. split_and!; try done.
      + rewrite <-(sd_elev _ _ Hag q Hd). apply Hd.
      + apply Hd2.
    - left. assert (~ data_cell m2 q) as Hd2 by (by rewrite <-(sd_data _ _ Hag q)).
      unfold data_cell in *.
      destruct (decide (dm_nodata m1 = Some (elev m1 q))), (decide (dm_nodata m2 = Some (elev m2 q)));
        try done; tauto.
  Qed.
  Lemma full_rel x y : Forall2 vrel (full_nbrs m1 x y) (full_nbrs m2 x y).
  Proof. unfold full_nbrs. induction FULL_SHIFT_LIST; cbn; constructor; [apply nb_val_rel|done]. Qed.
  Lemma edge_same_map x y : is_map_edge m1 x y = is_map_edge m2 x y.
  Proof. unfold is_map_edge. destruct Hag as [-> -> _]. done. Qed.

  Lemma blob_visit_same e n1 n2 s : vrel n1 n2 -> blob_visit m1 e n1 s = blob_visit m2 e n2 s.
  Proof.
    intros [Hq Hv]. destruct n1 as [q v1], n2 as [q' v2]; cbn in *. subst q'.
    unfold blob_visit. cbn. rewrite !edge_same_map.
    destruct Hv as [[-> ->]|(v & -> & -> & H1 & H2)].
    - destruct (dm_nodata m1) as [a|]; [rewrite decide_True by done|];
        (destruct (dm_nodata m2) as [b|]; [rewrite decide_True by done|]); done.
    - by rewrite !decide_False by done.
  Qed.
  Lemma blob_loop_same fuel : forall e s, blob_loop fuel m1 e s = blob_loop fuel m2 e s.
  Proof.
    induction fuel as [|fuel IH]; intros e s; [done|]. cbn [blob_loop].
    destruct (bs_stack s) as [|g st]; [done|]. rewrite !iterateFull_eq. cbn [rbind].
    rewrite edge_same_map. rewrite IH. f_equal.
    generalize (BS (bs_explored s) (bs_members s) (bs_hash s) (bs_perim s) st (bs_map_edge s)
      (bs_mp_edges s) (bs_edge s || is_map_edge m2 (pt_x g) (pt_y g))).
    pose proof (full_rel (pt_x g) (pt_y g)) as H. clear -H Hag.
    induction H as [|n1 n2 l1 l2 Hn H IH]; intros b; [done|]. cbn.
    rewrite (blob_visit_same e n1 n2 b Hn). apply IH.
  Qed.
  Lemma blob_same x y e : equalHeightBlob m1 x y e = equalHeightBlob m2 x y e.
  Proof.
    unfold equalHeightBlob, blob_fuel. rewrite blob_loop_same, edge_same_map.
    by rewrite (sd_x _ _ Hag), (sd_y _ _ Hag).
  Qed.
  Lemma touching_same ls : touching_neighborhoods m1 ls = touching_neighborhoods m2 ls.
  Proof.
    unfold touching_neighborhoods. apply (f_equal (fun r => rbind r _)). apply foldM_ext. intros [i g] s. apply foldM_ext.
    intros p s'. rewrite !iterateFull_eq. cbn [rbind]. reflexivity.
  Qed.
  Lemma hp_search_same pts start ths best :
    hp_search fp m1 pts start ths best = hp_search fp m2 pts start ths best.
  Proof.
    revert best. induction ths as [|t ths IH]; intros best; [done|]. cbn. rewrite Hfp.
    destruct (fp m2 pts start (pt_xy t)); [|done]. apply IH.
  Qed.
  Lemma runoff_step_same e E hp kv s :
    runoff_step fp m1 e E hp kv s = runoff_step fp m2 e E hp kv s.
  Proof.
    unfold runoff_step, high_perimeter_neighborhood_shortest_path.
    destruct (_ <? _); [done|]. destruct (negb _); [done|].
    destruct (E !! _); [|done]. destruct (_ !! _); [|done]. by rewrite hp_search_same.
  Qed.
  Lemma consolidated_same cell x y e per me multi edge epts :
    consolidatedFeatureLogic fp orc m1 cell x y e per me multi edge epts =
    consolidatedFeatureLogic fp orc m2 cell x y e per me multi edge epts.
  Proof.
    unfold consolidatedFeatureLogic. destruct (contiguous_neighbors _ _) as [hp|]; [|done].
    cbn [rbind]. destruct edge; [|done]. apply (f_equal (fun r => rbind r _)). unfold edge_feature_analysis. cbn [negb].
    destruct hp as [|g hp]; [done|]. destruct (contiguous_neighbors _ me) as [ring|]; [|done].
    cbn [rbind]. destruct (lower_groups e ring) as [lower|]; [|done]. cbn [rbind].
    destruct (Nat.leb _ _); [done|]. destruct (contiguous_neighbors _ epts) as [E|]; [|done].
    cbn [rbind]. rewrite touching_same. destruct (touching_neighborhoods m2 _); [|done].
    cbn [rbind]. apply (f_equal (fun r => rbind r _)). apply foldM_ext. intros. apply runoff_step_same.
  Qed.
  Lemma scan_same e ns1 ns2 : Forall2 vrel ns1 ns2 -> forall p me,
    scan_neighbors m1 e ns1 p me = scan_neighbors m2 e ns2 p me.
  Proof.
    induction 1 as [|[q v1] [q' v2] l1 l2 [Hq Hv] H IH]; intros p me; [done|]. cbn in *. subst q'.
    destruct Hv as [[-> ->]|(v & -> & -> & H1 & H2)].
    - rewrite !decide_True by done. apply IH.
    - rewrite !decide_False by (intros E; by apply H1 || by apply H2). rewrite edge_same_map.
      destruct (v =? e); [done|]. apply IH.
  Qed.
  Lemma summit_and_saddle_same vis e x y :
    summit_and_saddle fp orc m1 vis e x y = summit_and_saddle fp orc m2 vis e x y.
  Proof.
    unfold summit_and_saddle. rewrite edge_same_map. destruct (decide _); [done|].
    rewrite !iterateFull_eq. cbn [rbind]. rewrite (scan_same _ _ _ (full_rel x y)).
    destruct (scan_neighbors _ _ _ _ _) as [[q v]|[p me]].
    - unfold analyze_multipoint. rewrite blob_same. destruct (equalHeightBlob _ _ _ _); [|done].
      cbn [rbind]. by rewrite consolidated_same.
    - by rewrite consolidated_same.
  Qed.
  Lemma nditer_same : nditer_cells m1 = nditer_cells m2.
  Proof. unfold nditer_cells. by rewrite (sd_x _ _ Hag), (sd_y _ _ Hag). Qed.

  Lemma analyze_all_same : analyze_all fp orc m1 = analyze_all fp orc m2.
  Proof.
    unfold analyze_all. rewrite nditer_same. apply (f_equal (fun r => rbind r _)).
    apply foldM_ext_in. intros c s Hc. unfold analyze_cell.
    assert (Hc2 : in_map m2 c).
    { by apply elem_of_nditer. }
    assert (Hc1 : in_map m1 c) by (by apply ag_in).
    rewrite !np_read_in by done. cbn [rbind].
    destruct (decide (data_cell m1 c)) as [Hd|Hd].
    - assert (Hd2 : data_cell m2 c) by (by apply (sd_data _ _ Hag)).
      rewrite (decide_False (P := dm_nodata m1 = _)) by apply Hd.
      rewrite (decide_False (P := dm_nodata m2 = _)) by apply Hd2.
      by rewrite (sd_elev _ _ Hag c Hd), summit_and_saddle_same.
    - assert (Hd2 : ~ data_cell m2 c) by (by rewrite <-(sd_data _ _ Hag c)).
      unfold data_cell in *. destruct (decide (dm_nodata m1 = _)); [|tauto].
      destruct (decide (dm_nodata m2 = _)); [done|tauto].
  Qed.
End nodata.

(** Every cell recorded in a discovered feature has data. *)
Lemma area_data m p fs f : data_cell m p -> area_result m p fs -> f ∈ fs ->
  data_cell m (ft_pos f) /\ (forall z, z ∈ ft_multi f -> data_cell m z.1) /\
  (forall z, z ∈ ft_edgepts f -> data_cell m (pt_xy z)) /\
  (forall z, z ∈ concat (ft_hpn f) -> data_cell m (pt_xy z)).
Proof.
  intros Hd H Hf.
  assert (Hcd : forall multi, area_cells m p multi -> forall z, z ∈ multi -> data_cell m z.1).
  { intros multi [[-> _]|[[_ H'] _]] z Hz; [noelem|]. apply H' in Hz as [_ Hz].
    by eapply same_flat_data_r. }
  assert (Hrd : forall hp, components (rim m p) hp -> forall z, z ∈ concat hp -> data_cell m (pt_xy z)).
  { intros hp Hc z Hz. apply (comp_all _ _ Hc) in Hz as [[Hz _] _]. done. }
  assert (Hmd : forall z, border_members m p z -> data_cell m (pt_xy z)).
  { intros z [Hz _]. by eapply same_flat_data_r. }
  split; [destruct (area_feature m p fs f H Hf) as (_ & Hp & _); by eapply same_flat_data_r|].
  destruct H as
    [pos multi Hpos Hcells Hr Hb
    |pos multi epts Hpos Hcells Hr Hb He
    |pos multi hp Hpos Hcells Hc Hhp Hb
    |pos multi epts hp ring lower Hpos Hcells Hc Hhp Hb He Hring Hlow Hlen
    |pos multi hp ring lower borders drained runoffs multi' rest Hpos Hcells Hc Hhp Hb Hring
       Hlow Hlen Hborders Hdr Hrun Hmulti Hrest].
  - apply elem_of_list_singleton in Hf as ->. cbn. split_and!; [by apply Hcd|intros; noelem..].
  - apply elem_of_cons in Hf as [->|Hf]; [|apply elem_of_list_singleton in Hf as ->];
      (cbn; split_and!; [by apply Hcd|intros z Hz; apply Hmd; by apply He|intros; noelem]).
  - destruct (decide _); [|noelem]. apply elem_of_list_singleton in Hf as ->. cbn.
    split_and!; [by apply Hcd|intros; noelem|by apply Hrd].
  - destruct (decide _); [|noelem]. apply elem_of_list_singleton in Hf as ->. cbn.
    split_and!; [by apply Hcd|intros z Hz; apply Hmd; by apply He|by apply Hrd].
  - apply elem_of_app in Hf as [Hf|Hf].
    + apply elem_of_list_lookup in Hf as [i Hi].
      destruct (Forall2_lookup_r _ _ _ _ _ Hrun Hi)
        as (g & Hg & mid & Hmid & Hk & Hp & Hele & Hm & Hed & Hep & Hh1 & Hh2).
      rewrite Hm, Hep. split_and!; [intros; noelem| |].
      * intros z Hz. apply Hmd, (comp_all _ _ Hborders). apply elem_of_list_In, in_concat. exists g.
        split; [|by apply elem_of_list_In]. apply elem_of_list_In.
        apply elem_of_list_lookup_2 in Hg. destruct Hdr as (sel & Hperm & Hsub & _).
        rewrite Hperm in Hg. by eapply sublist_elem.
      * destruct (decide (multi = [])) as [He|He].
        -- rewrite (Hh1 He). by apply Hrd.
        -- destruct (Hh2 He) as (z & Hz & ->). cbn. intros z' Hz'.
           apply elem_of_list_singleton in Hz' as ->. apply Hz.
    + destruct (decide _); [|noelem].
      assert (Hmd' : forall z, z ∈ multi' -> data_cell m z.1).
      { destruct Hmulti as (extra & -> & _ & Hex). intros z [Hz|Hz]%elem_of_app; [by eapply Hcd|].
        apply Hex in Hz as (q & Hq & ->). apply Hq. }
      destruct (decide _); apply elem_of_list_singleton in Hf as ->; cbn; split_and!; try done.
      * intros; noelem.
      * by apply Hrd.
      * intros z Hz. apply Hmd. by apply Hrest in Hz as [? _].
      * by apply Hrd.
Qed.

Lemma nodata_inert fp orc m : map_ok m -> paths_found fp m ->
  (exists fs, analyze_all fp orc m = Ok fs /\ forall f, f ∈ fs ->
     data_cell m (ft_pos f) /\ (forall z, z ∈ ft_multi f -> data_cell m z.1) /\
     (forall z, z ∈ ft_edgepts f -> data_cell m (pt_xy z)) /\
     (forall z, z ∈ concat (ft_hpn f) -> data_cell m (pt_xy z))) /\
  (forall m', same_data m m' -> (forall pts a b, fp m pts a b = fp m' pts a b) ->
     analyze fp orc m' = analyze fp orc m).
Proof.
  intros Hok Hfp. split.
  - destruct (analyze_all_spec fp orc m Hok Hfp) as (areas & Heq & Hres & Hfirst & Hsort).
    eexists. split; [done|]. intros f Hf.
    apply elem_of_list_In, in_concat in Hf as (l & Hl & Hf).
    apply in_map_iff in Hl as ([p fs] & <- & Hp). apply elem_of_list_In in Hp, Hf. cbn in Hf.
    eapply area_data; [|by apply Hres|done].
    apply (proj1 (Hfirst p)). apply elem_of_list_fmap. by exists (p, fs).
  - intros m' Hag Hsame. unfold analyze. by rewrite (analyze_all_same fp orc m m' Hag Hsame).
Qed.

Lemma corners_spec m : map_ok m ->
  make_corner_runoffs m = Ok (map (fun c : xy =>
    Feat KRunoff c (elev m c) [] true [(c, elev m c)] [])
    [(dm_max_x m, 0); (dm_max_x m, dm_max_y m); (0, 0); (0, dm_max_y m)]).
Proof.
  intros [Hx Hy]. unfold make_corner_runoffs, make_corner_runoff, dm_get.
  assert (H : forall x y, in_map m (x, y) -> np_read m x y = Ok (elev m (x, y))).
  { intros x y Hin. apply (np_read_in m (x, y) Hin). }
  rewrite !H by (unfold in_map; cbn; lia). done.
Qed.

Lemma run_corners fp orc m : map_ok m -> paths_found fp m ->
  exists su sa ru, analyze fp orc m = Ok (su, sa, ru) /\
    run_no_rebuild fp orc m = Ok (su, sa, ru ++ map (fun c : xy =>
      Feat KRunoff c (elev m c) [] true [(c, elev m c)] [])
      [(dm_max_x m, 0); (dm_max_x m, dm_max_y m); (0, 0); (0, dm_max_y m)]).
Proof.
  intros Hok Hfp. destruct (summits_exact fp orc m Hok Hfp) as (su & sa & ru & Heq & _).
  exists su, sa, ru. split; [done|]. unfold run_no_rebuild. rewrite Heq. cbn [rbind].
  by rewrite corners_spec.
Qed.

(** The start point handed to the shortest-path query has no influence. *)
Lemma hp_search_min fp m pts start ths z0 c0 :
  (forall t, t ∈ ths -> exists c, fp m pts start (pt_xy t) = Some c /\
      (pt_xy t = start -> (c == 0)%Q) /\ (pt_xy t <> start -> (0 < c)%Q)) ->
  (pt_xy z0 = start -> (c0 == 0)%Q) -> (pt_xy z0 <> start -> (0 < c0)%Q) ->
  exists z c, hp_search fp m pts start ths (Some (z0, c0)) = Ok (Some (z, c)) /\
    (pt_xy z0 = start \/ (exists t, t ∈ ths /\ pt_xy t = start) -> pt_xy z = start) /\
    (z = z0 \/ z ∈ ths).
Proof.
  revert z0 c0. induction ths as [|t ths IH]; intros z0 c0 H H0 H1; cbn.
  - exists z0, c0. split_and!; [done| |by left]. intros [?|(t & Ht & _)]; [done|noelem].
  - destruct (H t) as (c & -> & Hc0 & Hc1); [by left|].
    assert (H' : forall t, t ∈ ths -> exists c, fp m pts start (pt_xy t) = Some c /\
      (pt_xy t = start -> (c == 0)%Q) /\ (pt_xy t <> start -> (0 < c)%Q)).
    { intros t' Ht'. apply H. by right. }
    destruct (Qle_bool c0 c) eqn:Hle.
    + apply Qle_bool_iff in Hle.
      destruct (IH z0 c0 H' H0 H1) as (z & c' & -> & Hz & Hin). exists z, c'. split_and!; [done| |].
      * intros [?|(t' & Ht' & Hs)]; [apply Hz; by left|]. apply elem_of_cons in Ht' as [->|Ht'].
        -- destruct (decide (pt_xy z0 = start)) as [E|E]; [apply Hz; by left|].
           exfalso. apply (Qlt_not_le _ _ (H1 E)). rewrite <-(Hc0 Hs). done.
        -- apply Hz. right. eauto.
      * destruct Hin as [->|?]; [by left|right; by right].
    + assert (Hlt : (c < c0)%Q).
      { apply Qnot_le_lt. intros Hn. apply Qle_bool_iff in Hn. congruence. }
      destruct (IH t c H' Hc0 Hc1) as (z & c' & -> & Hz & Hin). exists z, c'. split_and!; [done| |].
      * intros [E|(t' & Ht' & Hs)].
        -- exfalso. specialize (H0 E).
           destruct (decide (pt_xy t = start)) as [E'|E'].
           ++ specialize (Hc0 E'). rewrite H0, Hc0 in Hlt. by apply Qlt_irrefl in Hlt.
           ++ specialize (Hc1 E'). rewrite H0 in Hlt. apply (Qlt_irrefl 0). by eapply Qlt_trans.
        -- apply elem_of_cons in Ht' as [->|Ht']; [apply Hz; by left|]. apply Hz. right. eauto.
      * destruct Hin as [->|?]; right; [by left|by right].
Qed.

Lemma hp_path_last fp m flat hpn init zl :
  concat hpn = init ++ [zl] ->
  (forall pts a b, a ∈ pts -> b ∈ pts -> a = b -> exists c, fp m pts a b = Some c /\ (c == 0)%Q) ->
  (forall t, t ∈ concat hpn -> pt_xy t <> pt_xy zl -> exists c, (0 < c)%Q /\
     fp m (map fst flat ++ map pt_xy (concat hpn)) (pt_xy zl) (pt_xy t) = Some c) ->
  (forall a b, a ∈ concat hpn -> b ∈ concat hpn -> pt_xy a = pt_xy b -> a = b) ->
  forall point, high_perimeter_neighborhood_shortest_path fp m point flat hpn =
    Ok (zl, flat ++ map (fun z : pte => (pt_xy z, Some (pt_e z))) (concat hpn)).
Proof.
  intros Hl H0 H1 Hfun point. unfold high_perimeter_neighborhood_shortest_path.
  set (pts := flat ++ _).
  assert (Hlast : last pts = Some (pt_xy zl, Some (pt_e zl))).
  { unfold pts. rewrite Hl, map_app, app_assoc. cbn [map]. by rewrite last_snoc. }
  rewrite Hlast. cbn [fst].
  assert (Hmap : map fst pts = map fst flat ++ map pt_xy (concat hpn)).
  { unfold pts. rewrite map_app, map_map. done. }
  rewrite Hmap.
  assert (Hzl : zl ∈ concat hpn) by (rewrite Hl; els).
  assert (Hcost : forall t, t ∈ concat hpn -> exists c,
    fp m (map fst flat ++ map pt_xy (concat hpn)) (pt_xy zl) (pt_xy t) = Some c /\
    (pt_xy t = pt_xy zl -> (c == 0)%Q) /\ (pt_xy t <> pt_xy zl -> (0 < c)%Q)).
  { intros t Ht. destruct (decide (pt_xy t = pt_xy zl)) as [E|E].
    - destruct (H0 (map fst flat ++ map pt_xy (concat hpn)) (pt_xy zl) (pt_xy t)) as (c & Hc & Hcz).
      + apply elem_of_app. right. apply elem_of_list_fmap. eauto.
      + apply elem_of_app. right. apply elem_of_list_fmap. eauto.
      + done.
      + exists c. split_and!; done.
    - destruct (H1 t Ht E) as (c & Hc & Hf). exists c. split_and!; done. }
  clearbody pts. revert Hcost. generalize (map fst flat ++ map pt_xy (concat hpn)). intros ps Hcost.
  destruct (concat hpn) as [|t ths] eqn:E; [noelem|]. cbn [hp_search].
  destruct (Hcost t) as (c & -> & Hc0 & Hc1); [by left|].
  destruct (hp_search_min fp m ps (pt_xy zl) ths t c) as (z & c' & -> & Hz & Hin); [|done|done|].
  { intros t' Ht'. apply Hcost. by right. }
  cbn. f_equal. f_equal. apply Hfun.
  - destruct Hin as [->|?]; [by left|by right].
  - done.
  - apply Hz. apply elem_of_cons in Hzl as [->|Hzl]; [by left|]. right. eauto.
Qed.
