(** Correctness of feature discovery: the scan over the raster. *)
From Verif Require Import Analyze_model Raster_spec Feature_spec Raster_proof Contig_proof
  Touch_proof Blob_proof Analyze_proof Area_proof.
From Coq Require Import ZifyBool Sorting.Sorted.
Local Open Scope Z_scope.

Lemma same_flat_iff m c q d : same_flat m c q -> same_flat m q d <-> same_flat m c d.
Proof.
  intros H. split; intros H'.
  - by eapply same_flat_trans.
  - eapply same_flat_trans; [by apply same_flat_sym|done].
Qed.

Lemma np_read_in m c : in_map m c -> np_read m c.1 c.2 = Ok (elev m c).
Proof.
  intros [Hx Hy]. unfold np_read, np_index.
  replace ((0 <=? c.1) && (c.1 <=? dm_max_x m)) with true by lia. cbn [rbind].
  by replace ((0 <=? c.2) && (c.2 <=? dm_max_y m)) with true by lia.
Qed.

Lemma rm_lt_irrefl a : ~ rm_lt a a.
Proof. unfold rm_lt. lia. Qed.
Lemma rm_lt_trans a b c : rm_lt a b -> rm_lt b c -> rm_lt a c.
Proof. unfold rm_lt. lia. Qed.
Lemma rm_lt_total (a b : xy) : rm_lt a b \/ a = b \/ rm_lt b a.
Proof.
  unfold rm_lt. destruct a as [a1 a2], b as [b1 b2]; cbn.
  assert ((a1 < b1 \/ a1 = b1 /\ a2 < b2) \/ (a1 = b1 /\ a2 = b2) \/ (b1 < a1 \/ b1 = a1 /\ b2 < a2)) as H by lia.
  destruct H as [?|[[-> ->]|?]]; tauto.
Qed.

Section scan.
  Context (fp : datamap -> list xy -> xy -> xy -> option Q) (orc : xy -> nat -> nat -> nat).
  Context (m : datamap).
  Hypothesis Hok : map_ok m.
  Hypothesis Hfp : paths_found fp m.

  (** One unvisited data cell. *)
  Lemma summit_and_saddle_spec visited x y :
    data_cell m (x, y) -> (x, y) ∉ visited ->
    exists fs visited', summit_and_saddle fp orc m visited (elev m (x, y)) x y = Ok (fs, visited') /\
      area_result m (x, y) fs /\
      ((visited' = visited /\ forall d, same_flat m (x, y) d <-> d = (x, y)) \/
       forall d, d ∈ visited' <-> d ∈ visited \/ same_flat m (x, y) d).
  Proof.
    intros Hd Hv. unfold summit_and_saddle. rewrite decide_False by done.
    rewrite iterateFull_eq. cbn [rbind].
    assert (Hnb : nb_ok m (x, y) (full_nbrs m x y)).
    { split.
      - destruct (iterateFull_spec m x y) as (l & Hl & Hnd & _). rewrite iterateFull_eq in Hl.
        injection Hl as <-. done.
      - intros q v Hq. by apply elem_of_full_nbrs in Hq. }
    assert (Hmem : forall q, adj8 (x, y) q -> exists v, (q, v) ∈ full_nbrs m x y).
    { intros q Hq. exists (nb_val m q). apply elem_of_full_nbrs. split; [done|apply nb_val_reported]. }
    pose proof (scan_spec m (x, y) (full_nbrs m x y) [] [] _ Hnb eq_refl) as Hscan.
    destruct (scan_neighbors m (elev m (x, y)) (full_nbrs m x y) [] []) as [[q e]|[perim medge]].
    - destruct Hscan as (v & Hq & Hqd & -> & Heq). apply Hnb in Hq as [Hadj _].
      assert (Hfq : same_flat m (x, y) q).
      { eapply same_flat_step; [by apply same_flat_refl|done..]. }
      unfold analyze_multipoint. destruct q as [qx qy]. cbn [fst snd].
      destruct (equalHeightBlob_spec m qx qy Hok Hqd)
        as (b & -> & Hbe & B1 & B2 & B3 & B4 & B5 & B6 & B7 & B8 & B9).
      cbn [rbind]. rewrite Hbe, Heq.
      assert (Hiff := fun d => same_flat_iff m (x, y) (qx, qy) d Hfq).
      destruct (consolidated_spec fp orc m (x, y) (x, y) qx qy (bl_perimeter b)
        (bl_map_edge_points b) (bl_edge_points b) (map (fun p => (p, None)) (bl_points b))
        (bl_map_edge b)) as (fs & -> & Hfs).
      + done.
      + done.
      + split; [done|]. intros [z e]. rewrite B4. unfold rim, higher_rim, pt_xy, pt_e. cbn.
        rewrite Heq. setoid_rewrite Hiff. done.
      + split; [done|]. intros [z e]. rewrite B9. unfold border_ring, pt_xy, pt_e. cbn.
        rewrite Heq. setoid_rewrite Hiff. tauto.
      + split; [done|]. intros [z e]. rewrite B7. unfold border_members, pt_xy, pt_e. cbn.
        rewrite Heq, Hiff. done.
      + right. split.
        * split; [by apply (NoDup_fmap_2 (fun p : xy => (p, None)))|].
          intros [c o]. rewrite elem_of_list_fmap. cbn. split.
          -- intros (c' & [= -> ->] & Hc'). split; [done|]. apply Hiff, B2. done.
          -- intros [-> Hc]. exists c. split; [done|]. by apply B2, Hiff.
        * exists (qx, qy). split; [done|]. destruct Hadj as [Hne _]. congruence.
      + rewrite B5. split.
        * intros (c & Hc & Hb). exists (c, elev m (x, y)). split_and!; [by apply Hiff|done|done].
        * intros ([c e] & Hc & Hb & _). exists c. split; [by apply Hiff|done].
      + cbn [rbind]. eexists _, _. split; [done|]. split; [done|]. right.
        intros d. rewrite elem_of_union, elem_of_list_to_set, B2, Hiff. tauto.
    - destruct Hscan as (S1 & S2 & S3 & S4 & S5).
      assert (Hflat : forall d, same_flat m (x, y) d <-> d = (x, y)).
      { apply single_flat; [done|]. intros q Hq Hqd. destruct (Hmem q Hq) as [v Hv']. eauto. }
      destruct (consolidated_spec fp orc m (x, y) (x, y) x y perim medge
        (if is_map_edge m x y then [((x, y), elev m (x, y))] else []) [] (is_map_edge m x y))
        as (fs & -> & Hfs).
      + done.
      + by apply same_flat_refl.
      + split.
        * apply S4; [constructor|]. intros z v Hz. by apply elem_of_nil in Hz.
        * intros z. rewrite S2. unfold rim, higher_rim. split.
          -- intros [H|(v & Hz & Hzd & Hlt & He)]; [by apply elem_of_nil in H|].
             split; [|done]. split_and!; [done..|]. exists (x, y). split; [by apply Hflat|].
             apply Hnb in Hz as [Hza _]. exact Hza.
          -- intros [(Hzd & Hlt & c & Hc & Ha) He]. apply Hflat in Hc as ->. right.
             destruct (Hmem _ Ha) as [v Hv']. eauto.
      + split.
        * apply S5. constructor.
        * intros z. rewrite S3. unfold border_ring. split.
          -- intros [H|(v & Hz & Hzd & Hb & He)]; [by apply elem_of_nil in H|].
             split_and!; [done|done|by eapply S1|done|]. exists (x, y).
             split; [by apply Hflat|]. apply Hnb in Hz as [Hza _]. exact Hza.
          -- intros (Hzd & Hb & _ & He & c & Hc & Ha). apply Hflat in Hc as ->. right.
             destruct (Hmem _ Ha) as [v Hv']. eauto.
      + pose proof (border_edge m (x, y) Hd) as Hb. cbn [fst snd] in Hb. split.
        * destruct (is_map_edge m x y); [apply NoDup_singleton|constructor].
        * intros [c e]. unfold border_members, pt_xy, pt_e. cbn. rewrite Hflat.
          destruct (is_map_edge m x y).
          -- rewrite elem_of_list_singleton. split.
             ++ intros [= -> ->]. split_and!; [done|by apply Hb|done].
             ++ intros (-> & _ & ->). done.
          -- rewrite elem_of_nil. split; [done|]. intros (-> & Hbo & _). by apply Hb in Hbo.
      + left. split; [done|]. done.
      + pose proof (border_edge m (x, y) Hd) as Hb. cbn [fst snd] in Hb. rewrite Hb. split.
        * intros Hbo. exists ((x, y), elev m (x, y)). split_and!; [by apply Hflat|done|done].
        * intros ([c e] & Hc & Hbo & _). apply Hflat in Hc. cbn in *. by subst.
      + cbn [rbind]. eexists _, _. split; [done|]. split; [done|]. left. done.
  Qed.

  (** Row-major order of the scan. *)
  Lemma sorted_app {A} (R : A -> A -> Prop) l k :
    StronglySorted R l -> StronglySorted R k -> (forall a b, a ∈ l -> b ∈ k -> R a b) ->
    StronglySorted R (l ++ k).
  Proof.
    induction 1 as [|a l Hl IH Ha]; intros Hk Hlk; cbn; [done|].
    constructor.
    - apply IH; [done|]. intros; apply Hlk; [by right|done].
    - rewrite Forall_forall in Ha |- *. intros b [Hb|Hb]%elem_of_app; [by apply Ha|].
      apply Hlk; [by left|done].
  Qed.

  Lemma seqZ_sorted a n : 0 <= n -> StronglySorted Z.lt (seqZ a n).
  Proof.
    intros Hn. revert a. pattern n. apply natlike_ind; [|clear n Hn|done].
    - intros a. constructor.
    - intros n Hn IH a. rewrite seqZ_cons by lia. constructor.
      + replace (Z.pred (Z.succ n)) with n by lia. apply IH.
      + apply Forall_forall. intros b Hb. apply elem_of_seqZ in Hb. lia.
  Qed.

  Lemma nditer_sorted : StronglySorted rm_lt (nditer_cells m).
  Proof.
    unfold nditer_cells. destruct Hok as [Hx Hy].
    generalize (seqZ_sorted 0 (dm_max_x m + 1) ltac:(lia)).
    generalize (seqZ 0 (dm_max_x m + 1)). intros xs Hxs.
    pose proof (seqZ_sorted 0 (dm_max_y m + 1) ltac:(lia)) as Hys.
    generalize dependent (seqZ 0 (dm_max_y m + 1)). intros ys Hys.
    induction Hxs as [|x xs Hxs IH Hx0]; [constructor|].
    rewrite bind_cons. apply sorted_app; [|done|].
    - clear -Hys. induction Hys as [|y ys Hys IH Hy]; [constructor|]. rewrite bind_cons. cbn.
      constructor; [done|]. apply Forall_forall. intros b Hb.
      apply elem_of_list_bind in Hb as (y' & Hb & Hy'). apply elem_of_list_singleton in Hb as ->.
      rewrite Forall_forall in Hy. right. cbn. split; [done|]. by apply Hy.
    - intros a b Ha Hb. apply elem_of_list_bind in Ha as (y1 & Ha & _).
      apply elem_of_list_singleton in Ha as ->.
      apply elem_of_list_bind in Hb as (x2 & Hb & Hx2).
      apply elem_of_list_bind in Hb as (y2 & Hb & _). apply elem_of_list_singleton in Hb as ->.
      left. cbn. rewrite Forall_forall in Hx0. by apply Hx0.
  Qed.

  Lemma elem_of_nditer p : p ∈ nditer_cells m <-> in_map m p.
  Proof. apply elem_of_all_cells. Qed.

  (** The state of the scan after the cells [pre]. *)
  Record sinv (pre : list xy) (areas : list (xy * list feature)) (s : list feature * gset xy) : Prop := {
    si_out : s.1 = concat (map snd areas);
    si_res : forall p fs, (p, fs) ∈ areas -> area_result m p fs;
    si_first : forall p, p ∈ map fst areas <-> p ∈ pre /\ first_of_flat m p;
    si_sorted : StronglySorted rm_lt (map fst areas);
    si_vis : forall d, d ∈ s.2 -> exists q, q ∈ pre /\ same_flat m q d;
    si_vis2 : forall q d, q ∈ pre -> same_flat m q d ->
      (exists e, same_flat m q e /\ e <> q) -> d ∈ s.2 }.

  Lemma analyze_cell_spec pre c areas s :
    sinv pre areas s -> in_map m c ->
    (forall q, in_map m q -> (q ∈ pre <-> rm_lt q c)) ->
    exists areas' s', analyze_cell fp orc m c s = Ok s' /\ sinv (pre ++ [c]) areas' s'.
  Proof.
    intros Hinv Hc Hpre. unfold analyze_cell. rewrite np_read_in by done. cbn [rbind].
    assert (Hcpre : c ∉ pre) by (rewrite (Hpre c Hc); apply rm_lt_irrefl).
    destruct (decide (dm_nodata m = Some (elev m c))) as [Hnd|Hnd].
    { exists areas, s. split; [done|]. destruct Hinv. split; try done.
      - intros p. rewrite si_first0. rewrite elem_of_app, elem_of_list_singleton. split; [tauto|].
        intros [[?| ->] Hf]; [done|]. by destruct Hf as [[_ ?] _].
      - intros d Hd. destruct (si_vis0 d Hd) as (q & ? & ?). exists q. split; [els|done].
      - intros q d [?|Hq]%elem_of_app Hqd; [by eauto|].
        apply elem_of_list_singleton in Hq as ->. by apply same_flat_data_l in Hqd as [_ ?]. }
    assert (Hcd : data_cell m c) by done.
    destruct (decide (c ∈ s.2)) as [Hv|Hv].
    { (* already visited: some earlier cell has the same flat area *)
      unfold summit_and_saddle. destruct c as [x y]. cbn [fst snd]. rewrite decide_True by done.
      cbn [rbind]. eexists areas, _. split; [done|].
      assert (Hnf : ~ first_of_flat m (x, y)).
      { intros [_ Hf]. destruct (si_vis _ _ _ Hinv _ Hv) as (q & Hq & Hs).
        apply (Hf q); [by apply same_flat_sym|]. apply Hpre; [|done].
        apply same_flat_data_l in Hs. apply Hs. }
      destruct Hinv. split; cbn; try done.
      - by rewrite app_nil_r.
      - intros p. rewrite si_first0. rewrite elem_of_app, elem_of_list_singleton. split; [tauto|].
        intros [[?| ->] Hf]; done.
      - intros d Hd. destruct (si_vis0 d Hd) as (q & ? & ?). exists q. split; [els|done].
      - intros q d [?|Hq]%elem_of_app Hqf Hne; [by eauto|].
        apply elem_of_list_singleton in Hq as ->.
        destruct (si_vis0 _ Hv) as (q & Hq & Hs).
        eapply (si_vis3 q); [done| |].
        + eapply same_flat_trans; done.
        + exists (x, y). split; [done|]. intros E. rewrite <-E in Hq. done. }
    destruct c as [x y]. cbn [fst snd].
    destruct (summit_and_saddle_spec s.2 x y Hcd Hv) as (fs & vis & -> & Hres & Hvis).
    cbn [rbind]. exists (areas ++ [((x, y), fs)]), (s.1 ++ fs, vis). split; [done|].
    assert (Hfirst : first_of_flat m (x, y)).
    { split; [done|]. intros q Hq Hlt.
      apply Hv. eapply (si_vis2 _ _ _ Hinv q).
      - apply Hpre; [|done]. apply same_flat_data_r in Hq. apply Hq.
      - by apply same_flat_sym.
      - exists (x, y). split; [by apply same_flat_sym|]. intros E. rewrite E in Hlt.
        by apply rm_lt_irrefl in Hlt. }
    destruct Hinv. split; cbn.
    - rewrite map_app, concat_app, si_out0. cbn. by rewrite app_nil_r.
    - intros p fs' [?|Hp]%elem_of_app; [by eauto|]. apply elem_of_list_singleton in Hp.
      by injection Hp as -> ->.
    - intros p. rewrite map_app, elem_of_app, si_first0. cbn.
      rewrite elem_of_app, !elem_of_list_singleton. split.
      + intros [[? ?]| ->]; [tauto|]. split; [by right|done].
      + intros [[?| ->] ?]; [by left|by right].
    - rewrite map_app. apply sorted_app; [done| |].
      + cbn. repeat constructor.
      + intros a b Ha Hb. cbn in Hb. apply elem_of_list_singleton in Hb as ->.
        apply si_first0 in Ha as [Ha [[Hain _] _]]. by apply Hpre.
    - intros d Hd. destruct Hvis as [[-> _]|Hvis].
      + destruct (si_vis0 d Hd) as (q & ? & ?). exists q. split; [els|done].
      + apply Hvis in Hd as [Hd|Hd].
        * destruct (si_vis0 d Hd) as (q & ? & ?). exists q. split; [els|done].
        * exists (x, y). split; [els|done].
    - intros q d [Hq|Hq]%elem_of_app Hqd Hne.
      + destruct Hvis as [[-> _]|Hvis]; [by eauto|]. apply Hvis. left. by eauto.
      + apply elem_of_list_singleton in Hq as ->. destruct Hvis as [[-> Hs]|Hvis].
        * destruct Hne as (e & He & Hne). by apply Hs in He.
        * apply Hvis. by right.
  Qed.

  Lemma scan_all post : forall pre areas s,
    sinv pre areas s -> pre ++ post = nditer_cells m ->
    exists areas' s', foldM (analyze_cell fp orc m) post s = Ok s' /\ sinv (nditer_cells m) areas' s'.
  Proof.
    induction post as [|c post IH]; intros pre areas s Hinv Heq; cbn [foldM].
    - exists areas, s. rewrite app_nil_r in Heq. by subst.
    - assert (Hc : in_map m c) by (apply elem_of_nditer; rewrite <-Heq; els).
      destruct (analyze_cell_spec pre c areas s) as (areas1 & s1 & -> & Hinv1); [done..| |].
      { intros q Hq. pose proof nditer_sorted as Hs. rewrite <-Heq in Hs.
        assert (Hq' : q ∈ pre ++ c :: post) by (rewrite Heq; by apply elem_of_nditer).
        clear -Hs Hq'. induction pre as [|a pre IH]; cbn in *.
        - apply StronglySorted_inv in Hs as [_ Hs]. rewrite Forall_forall in Hs.
          split; [intros H; by apply elem_of_nil in H|]. intros Hlt.
          apply elem_of_cons in Hq' as [->|Hq'].
          + by apply rm_lt_irrefl in Hlt.
          + exfalso. eapply rm_lt_irrefl, rm_lt_trans; [exact Hlt|]. by apply Hs.
        - apply StronglySorted_inv in Hs as [Hs Ha]. rewrite Forall_forall in Ha.
          apply elem_of_cons in Hq' as [->|Hq'].
          + split; [intros _|by left]. apply Ha. els.
          + rewrite elem_of_cons, <-(IH Hs Hq'). split; [|by right]. intros [->|?]; [|done].
            exfalso. eapply rm_lt_irrefl. by apply Ha. }
      cbn [rbind]. eapply (IH (pre ++ [c])); [done|]. by rewrite <-app_assoc.
  Qed.

  Lemma analyze_all_spec :
    exists areas, analyze_all fp orc m = Ok (concat (map snd areas)) /\
      (forall p fs, (p, fs) ∈ areas -> area_result m p fs) /\
      (forall p, p ∈ map fst areas <-> first_of_flat m p) /\
      StronglySorted rm_lt (map fst areas).
  Proof.
    unfold analyze_all.
    destruct (scan_all (nditer_cells m) [] [] ([], ∅)) as (areas & s & -> & []).
    { split; cbn; try done.
      - intros p fs H. by apply elem_of_nil in H.
      - intros p. rewrite !elem_of_nil. tauto.
      - constructor.
      - intros q d H. by apply elem_of_nil in H. }
    { done. }
    cbn [rbind]. exists areas. rewrite si_out0. split_and!; try done.
    intros p. rewrite si_first0, elem_of_nditer. split; [tauto|]. intros H. split; [|done].
    apply H.
  Qed.
End scan.
