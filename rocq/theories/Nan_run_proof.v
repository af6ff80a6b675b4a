(** Runs of feature discovery on rasters whose marker for missing cells is NaN. *)
From Verif Require Import Base_model Raster_model Analyze_model Nan_model Nan_spec Feature_spec Climb_spec Raster_proof Contig_proof
  Touch_proof Blob_proof Analyze_proof Area_proof Scan_proof Feature_facts Nan_group_proof Nan_proof Raster_spec.
From Coq Require Import ZifyBool.
Local Open Scope Z_scope.

Lemma beside_iff m p c q : same_flat m p c -> beside m c q <-> beside m p q.
Proof. intros H. unfold beside. rewrite (same_flat_iff m p c q H). by setoid_rewrite (fun d => same_flat_iff m p c d H). Qed.
Lemma on_edge_iff m p c : same_flat m p c -> on_edge m c <-> on_edge m p.
Proof. intros H. unfold on_edge. by setoid_rewrite (fun d => same_flat_iff m p c d H). Qed.
Lemma peak_iff m p c : same_flat m p c -> peak m c <-> peak m p.
Proof.
  intros H. unfold peak, higher_rim. rewrite <- (same_flat_elev m _ _ H).
  setoid_rewrite (fun d => same_flat_iff m p c d H).
  pose proof (same_flat_data_l m _ _ H). pose proof (same_flat_data_r m _ _ H). tauto.
Qed.

(** A NaN beside the area of [p] that the grouping of border cells cannot reach. *)
Definition stuck (m : datamap) (nan : xy -> bool) (p q : xy) : Prop :=
  border_line m q /\ ~ data_cell m q /\ (exists g, same_flat m p g /\ adj8 g q) /\
  (q.1 < 0 \/ q.2 < 0 \/ forall r, beside m p r -> border_line m r -> ~ adj8 r q).

Section run.
  Context (m : datamap) (nan : xy -> bool).
  Hypothesis Hok : map_ok m.
  Hypothesis Hmarks : nan_marks nan m.
  Context (fp : datamap -> list xy -> xy -> xy -> option Q) (orc : xy -> nat -> nat -> nat)
    (enum : xy -> list npt -> list npt)
    (rest : xy -> xy -> Z -> list (list npt) -> list mpoint -> list npt -> list (list pte) -> res (list nfeature)).
  Hypothesis Henum : forall c l, enum c l ≡ₚ remove_dups l.
  Notation ncons := (n_consolidatedFeatureLogic enum orc rest).
  Notation nss := (n_summit_and_saddle m nan (NaN None) enum orc rest).
  Notation ncell := (n_analyze_cell m nan (NaN None) enum orc rest).

  Lemma high_same l e : filter (fun p => n_lt (Num e) (Num (pt_e p)) = true) l = findHighPerimeter l e.
  Proof. unfold findHighPerimeter. apply list_filter_iff. intros p. cbn. lia. Qed.

  Lemma hp_groups c perim : enumerates (rim m c) perim ->
    exists hp, contiguous_neighbors (orc c 0%nat) (findHighPerimeter perim (elev m c)) = Ok hp /\ components (rim m c) hp.
  Proof.
    intros H. assert (findHighPerimeter perim (elev m c) = perim) as ->.
    { destruct H as [_ H]. assert (H' : forall z, z ∈ perim -> elev m c < pt_e z).
      { intros z Hz. apply H in Hz as [[_ [Hlt _]] He]. lia. }
      clear -H'. unfold findHighPerimeter. induction perim as [|a l IH]; [done|].
      rewrite filter_cons_True by (apply H'; by left). f_equal. apply IH. intros; apply H'; by right. }
    apply components_of; [apply rim_nonneg|apply rim_fun|done].
  Qed.

  Lemma cons_pair c pos perim medge nmedge multi edge epts fs gs :
    data_cell m c -> enumerates (rim m c) perim -> (edge = true <-> on_edge m c) -> (edge = false -> epts = []) ->
    consolidatedFeatureLogic fp orc m c pos.1 pos.2 (elev m c) perim medge multi edge epts = Ok fs ->
    ncons c pos (Num (elev m c)) perim nmedge multi edge (map up epts) = Ok gs ->
    ~ on_edge m c \/ peak m c -> gs = map plain fs.
  Proof.
    intros Hd Hp He Hep. unfold consolidatedFeatureLogic, n_consolidatedFeatureLogic. rewrite high_same.
    destruct (hp_groups c perim Hp) as (hp & -> & Hc). cbn [rbind].
    intros Hf Hg Hor. destruct hp as [|h hp].
    - injection Hg as <-. destruct edge.
      + cbn in Hf. injection Hf as <-. by destruct pos.
      + cbn in Hf. injection Hf as <-. rewrite (Hep eq_refl). by destruct pos.
    - destruct Hor as [Hor|[_ Hor]].
      + destruct edge; [by destruct Hor; apply He|]. injection Hf as <-. injection Hg as <-. rewrite (Hep eq_refl).
        destruct hp as [|h2 hp]; [done|]. cbn. by destruct pos.
      + exfalso. destruct (proj1 (components_nonnil m c (h :: hp) Hc) ltac:(done)) as [q Hq]. exact (Hor q Hq).
  Qed.

  (** ** One step of the scan *)
  Lemma nan_step c visited : in_map m c -> nan c = true -> c ∉ visited ->
    nss visited (NaN (Some c)) c = Ok (nan_summit m c, visited).
  Proof.
    intros Hm Hn Hv. unfold n_summit_and_saddle. rewrite decide_False by done.
    destruct (scan_nan m (Some c) (n_iterateFull m nan (NaN None) c) [] []) as (medge & ->).
    unfold n_consolidatedFeatureLogic. cbn [filter list_filter rbind].
    assert (contiguous_neighbors (orc c 0%nat) [] = Ok []) as -> by done. cbn [rbind].
    unfold nan_summit. pose proof (is_map_edge_spec m c Hm) as Hb.
    destruct (is_map_edge m c.1 c.2).
    - rewrite decide_True by (by apply Hb). done.
    - rewrite decide_False by (by intros H; apply Hb in H). done.
  Qed.

  Lemma data_step c : in_map m c -> nan c = false <-> data_cell m c.
  Proof using Hmarks.
    clear fp orc enum rest Henum. intros Hm. unfold data_cell. split.
    - intros H. split; [done|]. intros E. apply Hmarks in E; [|done]. congruence.
    - intros [_ H]. destruct (nan c) eqn:E; [|done]. apply Hmarks in E; [|done]. done.
  Qed.

  Lemma cell_pair c acc acc' visited s1 s2 : in_map m c -> (forall d, d ∈ visited -> data_cell m d) ->
    analyze_cell fp orc m c (acc, visited) = Ok s1 -> ncell c (acc', visited) = Ok s2 ->
    s1.2 = s2.2 /\ (forall d, d ∈ s1.2 -> data_cell m d) /\
    exists fs gs, s1.1 = acc ++ fs /\ s2.1 = acc' ++ gs /\ same_but_nan m nan c gs fs.
  Proof.
    intros Hm Hv. unfold analyze_cell, n_analyze_cell. rewrite (np_read_in m c Hm). cbn [rbind fst snd].
    unfold n_read. destruct (nan c) eqn:En.
    - cbn [n_eq]. assert (dm_nodata m = Some (elev m c)) as Hnd by (by apply Hmarks). rewrite decide_True by done.
      intros [= <-]. cbn [fst snd]. rewrite nan_step; [|done|done|].
      2:{ intros Hc. apply Hv in Hc as [_ Hc]. done. }
      cbn [rbind]. intros [= <-]. split; [done|]. split; [done|]. exists [], (nan_summit m c). cbn. rewrite app_nil_r.
      split; [done|]. split; [done|]. split; [done|congruence].
    - pose proof (proj1 (data_step c Hm) En) as Hd. rewrite decide_False by apply Hd. cbn [n_eq].
      change (dm_cell m c.1 c.2) with (elev m c).
      destruct (decide (c ∈ visited)) as [Hc|Hc].
      { unfold summit_and_saddle, n_summit_and_saddle. rewrite (decide_True (P := c ∈ visited)) by done.
        rewrite decide_True by (by destruct c). cbn [rbind]. intros [= <-] [= <-]. split; [done|]. split; [done|].
        exists [], []. split; [done|]. split; [done|]. split; [congruence|done]. }
      destruct (area_pair m nan Hok Hmarks fp orc enum rest visited c Hd Hc)
        as (pos & perim & medge & nmedge & multi & edge & epts & vis' & -> & -> & A1 & A2 & A3 & A4 & A5 & A6).
      destruct (consolidatedFeatureLogic _ _ _ _ _ _ _ _ _ _ _ _) as [fs|] eqn:Ef; [|done]. cbn [rbind].
      destruct (ncons _ _ _ _ _ _ _ _) as [gs|] eqn:Eg; [|done]. cbn [rbind].
      intros [= <-] [= <-]. cbn [fst snd]. split; [done|]. split.
      { intros d Hd'. apply A6 in Hd' as [Hd'|Hd']; [by apply Hv|by eapply same_flat_data_r]. }
      exists fs, gs. split; [done|]. split; [done|]. split; [congruence|]. intros _ Hor.
      eapply cons_pair; eauto.
  Qed.

  Lemma cells_pair l : forall acc acc' visited s1 s2, (forall c, c ∈ l -> in_map m c) -> (forall d, d ∈ visited -> data_cell m d) ->
    foldM (analyze_cell fp orc m) l (acc, visited) = Ok s1 -> foldM ncell l (acc', visited) = Ok s2 ->
    exists rows : list (xy * list nfeature * list feature), map (fun r => r.1.1) rows = l /\
      s1.1 = acc ++ concat (map snd rows) /\ s2.1 = acc' ++ concat (map (fun r => r.1.2) rows) /\
      forall c gs fs, (c, gs, fs) ∈ rows -> same_but_nan m nan c gs fs.
  Proof.
    induction l as [|c l IH]; intros acc acc' visited s1 s2 Hl Hv; cbn [foldM].
    { intros [= <-] [= <-]. exists []. cbn. rewrite !app_nil_r. split; [done|]. split; [done|]. split; [done|].
      intros c gs fs H. by apply elem_of_nil in H. }
    destruct (analyze_cell fp orc m c (acc, visited)) as [[acc1 vis1]|] eqn:E1; [|done].
    destruct (ncell c (acc', visited)) as [[acc2 vis2]|] eqn:E2; [|done]. cbn [rbind].
    destruct (cell_pair c acc acc' visited _ _ ltac:(apply Hl; by left) Hv E1 E2) as (Ev & Hv' & fs & gs & Ea & Eb & Hs).
    cbn [fst snd] in *. subst vis2 acc1 acc2. intros H1 H2.
    destruct (IH (acc ++ fs) (acc' ++ gs) vis1 s1 s2 ltac:(intros; apply Hl; by right) Hv' H1 H2) as (rows & R1 & R2 & R3 & R4).
    exists ((c, gs, fs) :: rows). cbn. rewrite R1, R2, R3, <- !app_assoc. split; [done|]. split; [done|]. split; [done|].
    intros c' gs' fs' [H|H]%elem_of_cons; [|by apply R4]. injection H as -> -> ->. done.
  Qed.

  (** The two runs, cell by cell. *)
  Lemma run_pair gs : paths_found fp m -> n_analyze_all m nan (NaN None) enum orc rest = Ok gs ->
    exists rows : list (xy * list nfeature * list feature), map (fun r => r.1.1) rows = nditer_cells m /\
      analyze_all fp orc m = Ok (concat (map snd rows)) /\ gs = concat (map (fun r => r.1.2) rows) /\
      forall c gs fs, (c, gs, fs) ∈ rows -> same_but_nan m nan c gs fs.
  Proof.
    intros Hfp. destruct (analyze_all_spec fp orc m Hok Hfp) as (areas & Ha & _). unfold analyze_all in *. unfold n_analyze_all.
    destruct (foldM (analyze_cell fp orc m) (nditer_cells m) ([], ∅)) as [s1|] eqn:E1; [|done].
    destruct (foldM ncell (nditer_cells m) ([], ∅)) as [s2|] eqn:E2; [|done]. cbn [rbind].
    intros [= <-].
    destruct (cells_pair (nditer_cells m) [] [] ∅ s1 s2) as (rows & R1 & R2 & R3 & R4); [|set_solver|done|done|].
    - intros c Hc. by apply elem_of_nditer.
    - exists rows. rewrite R2, R3. done.
  Qed.

  (** ** Runs that fail *)
  Lemma stuck_step p q c visited : data_cell m c -> c ∉ visited -> same_flat m p c -> on_edge m p -> ~ peak m p ->
    stuck m nan p q -> nss visited (Num (elev m c)) c = Err IndexError.
  Proof.
    intros Hd Hc Hpc Hoe Hnp (Hbl & Hnd & (g & Hg & Hgq) & Hun).
    destruct (area_pair m nan Hok Hmarks fp orc enum rest visited c Hd Hc)
      as (pos & perim & medge & nmedge & multi & edge & epts & vis' & _ & -> & A1 & A2 & A3 & A4 & A5 & A6).
    assert (edge = true) as -> by (apply A2, (on_edge_iff m p c Hpc); done).
    unfold n_consolidatedFeatureLogic. rewrite high_same. destruct (hp_groups c perim A1) as (hp & -> & Hcomp). cbn [rbind].
    destruct hp as [|h hp].
    { exfalso. apply Hnp, (peak_iff m p c Hpc). split; [done|]. intros r Hr.
      assert (([] : list (list pte)) <> []); [|done]. apply (components_nonnil m c [] Hcomp). by exists r. }
    set (v := if coord_inbounds m q.1 q.2 then n_read m nan g q else NaN None).
    assert ((q, v) ∈ n_iterateFull m nan (NaN None) g) as Hv by (by apply elem_iter).
    pose proof (iter_val m nan Hmarks g q v Hv) as [_ [(k & Ek & _)|(z & _ & _ & _ & Hdq & _)]]; [|done]. cbn in Ek. rewrite Ek in Hv.
    assert (same_flat m c g) as Hcg by (by apply (same_flat_iff m p c g Hpc)).
    pose proof (A4 g q k Hcg Hv Hbl) as Hin.
    assert (Hmem : forall z, z ∈ enum c nmedge <-> z ∈ nmedge) by (intros z; rewrite (Henum c nmedge); apply elem_of_remove_dups).
    destruct (unreached_nan (orc c 1%nat) (enum c nmedge) (Num (elev m c)) q k) as (gs & -> & Hlow).
    - by apply Hmem.
    - intros (H1 & H2 & s & Hs & Hadj). cbn [fst snd] in *. apply Hmem in Hs. destruct (A5 s Hs) as [B1 B2].
      destruct Hun as [Hun|[Hun|Hun]]; [lia|lia|]. apply (Hun s.1); [by apply (beside_iff m p c)|done|done].
    - cbn [rbind]. rewrite Hlow. done.
  Qed.

  Lemma stuck_cells p q l : on_edge m p -> ~ peak m p -> stuck m nan p q ->
    forall acc visited s, (forall c, c ∈ l -> in_map m c) -> (forall d, d ∈ visited -> data_cell m d /\ ~ same_flat m p d) ->
    foldM ncell l (acc, visited) = Ok s -> forall c, c ∈ l -> ~ same_flat m p c.
  Proof.
    intros Hoe Hnp Hst. induction l as [|c l IH]; intros acc visited s Hl Hv H c' Hc' Hsf; [by apply elem_of_nil in Hc'|].
    cbn [foldM] in H. destruct (ncell c (acc, visited)) as [[acc1 vis1]|] eqn:E; [|done]. cbn [rbind] in H.
    assert (Hm : in_map m c) by (apply Hl; by left).
    unfold n_analyze_cell in E. cbn [fst snd] in E.
    assert (n_eq (n_read m nan c c) (NaN None) = false) as E0 by (by destruct (n_read m nan c c)). rewrite E0 in E.
    assert (~ same_flat m p c /\ forall d, d ∈ vis1 -> data_cell m d /\ ~ same_flat m p d) as [Hnc Hv1].
    { unfold n_read in E. destruct (nan c) eqn:En.
      - rewrite nan_step in E; [|done|done|].
        2:{ intros Hc. apply Hv in Hc as [Hc _]. apply data_step in Hc; [congruence|done]. }
        injection E as <- <-. split; [|done]. intros Hpc. apply same_flat_data_r, data_step in Hpc; [congruence|done].
      - pose proof (proj1 (data_step c Hm) En) as Hd. change (dm_cell m c.1 c.2) with (elev m c) in E.
        destruct (decide (c ∈ visited)) as [Hc|Hc].
        { unfold n_summit_and_saddle in E. rewrite decide_True in E by done. injection E as <- <-.
          split; [by apply Hv|done]. }
        assert (Hnc : ~ same_flat m p c).
        { intros Hpc. rewrite (stuck_step p q c visited Hd Hc Hpc Hoe Hnp Hst) in E. done. }
        split; [done|].
        destruct (area_pair m nan Hok Hmarks fp orc enum rest visited c Hd Hc)
          as (pos & perim & medge & nmedge & multi & edge & epts & vis' & _ & Es & _ & _ & _ & _ & _ & A6).
        rewrite Es in E. destruct (ncons _ _ _ _ _ _ _ _) as [gs|]; [|done]. injection E as <- <-.
        intros d Hdv. apply A6 in Hdv as [Hdv|Hdv]; [by apply Hv|]. split; [by eapply same_flat_data_r|].
        intros Hpd. apply Hnc. eapply same_flat_trans; [done|by apply same_flat_sym]. }
    apply elem_of_cons in Hc' as [->|Hc']; [done|].
    eapply (IH acc1 vis1 s); eauto. intros; apply Hl; by right.
  Qed.

  (** A run with such a NaN does not finish. *)
  Lemma stuck_run p q gs : data_cell m p -> on_edge m p -> ~ peak m p -> stuck m nan p q ->
    n_analyze_all m nan (NaN None) enum orc rest <> Ok gs.
  Proof.
    intros Hd Hoe Hnp Hst. unfold n_analyze_all. destruct (foldM ncell (nditer_cells m) ([], ∅)) as [s|] eqn:E; [|done].
    exfalso. apply (stuck_cells p q (nditer_cells m) Hoe Hnp Hst [] ∅ s) with p; [|set_solver|done| |].
    - intros c Hc. by apply elem_of_nditer.
    - apply elem_of_nditer. apply Hd.
    - by apply same_flat_refl.
  Qed.

  Lemma first_cell : exists l, nditer_cells m = (0, 0) :: l.
  Proof using Hok. clear fp orc enum rest Henum.
    pose proof (nditer_sorted m Hok) as Hs. assert ((0, 0) ∈ nditer_cells m) as H0.
    { apply elem_of_nditer. destruct Hok. unfold in_map; cbn; lia. }
    destruct (nditer_cells m) as [|c l] eqn:E; [by apply elem_of_nil in H0|]. exists l.
    apply elem_of_cons in H0 as [->|H0]; [done|]. exfalso.
    assert (in_map m c) as Hc by (apply elem_of_nditer; rewrite E; by left).
    inversion Hs as [|? ? _ Hs']; subst; clear Hs; rename Hs' into Hs. rewrite Forall_forall in Hs. apply Hs in H0.
    unfold rm_lt, in_map in *. destruct c; cbn in *; lia.
  Qed.

  Lemma stuck_first p q : data_cell m p -> on_edge m p -> ~ peak m p -> stuck m nan p q -> p = (0, 0) ->
    n_analyze_all m nan (NaN None) enum orc rest = Err IndexError.
  Proof.
    intros Hd Hoe Hnp Hst ->. unfold n_analyze_all. destruct first_cell as [l ->]. cbn [foldM].
    unfold n_analyze_cell. cbn [fst snd]. unfold n_read. rewrite (proj2 (data_step (0, 0) (proj1 Hd)) Hd). cbn [n_eq].
    change (dm_cell m (0, 0).1 (0, 0).2) with (elev m (0, 0)).
    rewrite (stuck_step (0, 0) q (0, 0) ∅); [done|done|set_solver|by apply same_flat_refl|done..].
  Qed.

  Definition blind_corner (p : xy) : Prop := p = (0, 0) \/ p = (0, dm_max_y m) \/ p = (dm_max_x m, 0).

  Lemma corner_stuck p c : blind_corner c -> same_flat m p c -> on_edge m p /\ exists q, stuck m nan p q.
  Proof using Hok.
    clear fp orc enum rest Henum. intros Hb Hpc. pose proof (same_flat_data_r m _ _ Hpc) as Hd. destruct Hok as [Hx Hy]. split.
    - exists c. split; [done|]. split; [apply Hd|]. destruct Hb as [->|[->| ->]]; cbn; lia.
    - assert (exists q, border_line m q /\ ~ in_map m q /\ adj8 c q /\ (q.1 < 0 \/ q.2 < 0)) as (q & H1 & H2 & H3 & H4).
      { destruct Hb as [->|[->| ->]]; [exists (-1, 0)|exists (-1, dm_max_y m)|exists (dm_max_x m, -1)];
          unfold border_line, in_map, adj8; cbn; repeat split; try lia. all: injection; lia. }
      exists q. split; [done|]. split; [by intros [? _]|]. split; [by exists c|]. tauto.
  Qed.

  Lemma lone_stuck p q : lone_nan m nan p q -> stuck m nan p q.
  Proof using Hmarks. clear fp orc enum rest Henum.
    intros ([Hm Hb] & Hn & [_ Hg] & Hr). split; [exact Hb|]. split; [|tauto].
    intros Hd. apply data_step in Hd; [congruence|done].
  Qed.

  (** ** Steepest neighbours *)
  Lemma steepest_nan c k ns best : n_steepest_loop m c (NaN k) ns best = Ok best.
  Proof using m. clear fp orc enum rest Henum. induction ns as [|[q e] ns IH]; [done|]. cbn. by destruct e. Qed.

  Lemma steepest_pair c pe : (forall v, dm_nodata m = Some v -> v < pe) -> forall os ns best, Forall2 (vrel m) os ns ->
    n_steepest_loop m c (Num pe) ns ((fun b : pte * Q => (up b.1, b.2)) <$> best) =
    (let* r := steepest_loop m c.1 c.2 pe os best in Ok ((fun b : pte * Q => (up b.1, b.2)) <$> r)).
  Proof using Hmarks. clear fp orc enum rest Henum.
    intros Hlow os ns best H. revert best. induction H as [|[[x y] o] [q e] os ns [Hq Hv] H IH]; intros best; [done|].
    cbn in Hq. subst q. cbn [fst snd] in Hv. cbn [n_steepest_loop steepest_loop].
    destruct Hv as [(k & -> & -> & _)|(z & -> & -> & _)].
    - cbn [n_lt]. rewrite IH. destruct (dm_nodata m) as [v|]; [|done]. pose proof (Hlow v eq_refl).
      replace (v <? pe) with true by lia. done.
    - cbn [n_lt]. destruct (z <? pe) eqn:E; [apply IH|]. cbn [fst snd].
      destruct (dm_slope m (c.1 - x) (c.2 - y) pe z) as [s|]; [|done]. cbn [rbind].
      destruct best as [[b s0]|]; cbn.
      + destruct (negb (Qle_bool s s0)); [exact (IH (Some ((x, y, z), s)))|exact (IH (Some (b, s0)))].
      + destruct (Qle_bool 0 s); [exact (IH (Some ((x, y, z), s)))|exact (IH None)].
  Qed.

  Lemma steepest_same c : nodata_low m -> data_cell m c ->
    n_steepestNeighbor m nan (NaN None) c = (let* r := steepestNeighbor m c.1 c.2 in Ok (up <$> r)).
  Proof using Hmarks. clear fp orc enum rest Henum.
    intros Hlow Hd. unfold n_steepestNeighbor, steepestNeighbor. unfold n_read at 1.
    rewrite (proj2 (data_step c (proj1 Hd)) Hd). unfold dm_get. rewrite (np_read_in m c (proj1 Hd)), iterateFull_eq. cbn [rbind].
    pose proof (steepest_pair c (dm_cell m c.1 c.2) ltac:(intros v Hv; exact (Hlow v c Hv Hd)) _ _ None (iter_rel m nan Hmarks c)) as E.
    cbn [option_fmap option_map fmap] in E. rewrite E.
    destruct (steepest_loop _ _ _ _ _ _) as [[[b s]|]|]; done.
  Qed.

  Lemma steepest_at_nan c : nan c = true -> n_steepestNeighbor m nan (NaN None) c = Ok None.
  Proof using nan. clear fp orc enum rest Henum. intros H. unfold n_steepestNeighbor. unfold n_read at 1. by rewrite H, steepest_nan. Qed.
End run.

(** ** Consequences, without the path search of border saddles *)
Section consequences.
  Context (m : datamap) (nan : xy -> bool) (Hok : map_ok m) (Hmarks : nan_marks nan m)
    (orc : xy -> nat -> nat -> nat) (enum : xy -> list npt -> list npt)
    (rest : xy -> xy -> Z -> list (list npt) -> list mpoint -> list npt -> list (list pte) -> res (list nfeature)).
  Hypothesis Henum : forall c l, enum c l ≡ₚ remove_dups l.
  Let fp0 (_ : datamap) (_ : list xy) (_ _ : xy) : option Q := Some 0%Q.
  Notation run := (n_analyze_all m nan (NaN None) enum orc rest).

  Lemma nan_found gs c : run = Ok gs -> in_map m c -> nan c = true ->
    exists edge edgepts, NFeat KSummit c (NaN (Some c)) [] edge edgepts [] ∈ gs /\ (edge = true <-> on_border m c).
  Proof.
    intros Hr Hm Hn. destruct (run_pair m nan Hok Hmarks fp0 orc enum rest Henum gs) as (rows & R1 & _ & -> & R4); [|done|].
    { intros. by eexists. }
    assert (c ∈ map (fun r : xy * list nfeature * list feature => r.1.1) rows) as Hc by (rewrite R1; by apply elem_of_nditer).
    apply elem_of_list_fmap in Hc as ([[c' gs] fs] & Ec & Hin). cbn in Ec. subst c'.
    destruct (R4 _ _ _ Hin) as [H _]. destruct (H Hn) as [_ Hg].
    assert (Hsub : forall f, f ∈ gs -> f ∈ concat (map (fun r : xy * list nfeature * list feature => r.1.2) rows)).
    { intros f Hf. apply elem_of_concat. exists gs. split; [done|]. apply elem_of_list_fmap. by exists (c, gs, fs). }
    unfold nan_summit in Hg. case_decide as Hb.
    - exists true, [(c, NaN (Some c))]. split; [apply Hsub; rewrite Hg; by left|done].
    - exists false, []. split; [apply Hsub; rewrite Hg; by left|done].
  Qed.

  Lemma corner_first : data_cell m (0, 0) -> ~ peak m (0, 0) -> run = Err IndexError.
  Proof.
    intros Hd Hp. destruct (corner_stuck m nan Hok (0, 0) (0, 0)) as [He [q Hq]]; [by left|by apply same_flat_refl|].
    by apply (stuck_first m nan Hok Hmarks fp0 orc enum rest Henum (0, 0) q).
  Qed.

  Lemma corner_fails p c gs : c = (0, 0) \/ c = (0, dm_max_y m) \/ c = (dm_max_x m, 0) -> same_flat m p c -> ~ peak m p -> run <> Ok gs.
  Proof.
    intros Hc Hpc Hp. destruct (corner_stuck m nan Hok p c Hc Hpc) as [He [q Hq]].
    apply (stuck_run m nan Hok Hmarks fp0 orc enum rest Henum p q); [by eapply same_flat_data_l|done..].
  Qed.

  Lemma lone_fails p q gs : data_cell m p -> on_edge m p -> ~ peak m p -> lone_nan m nan p q -> run <> Ok gs.
  Proof.
    intros Hd He Hp Hl. apply (stuck_run m nan Hok Hmarks fp0 orc enum rest Henum p q); [done..|].
    by apply lone_stuck.
  Qed.
End consequences.
