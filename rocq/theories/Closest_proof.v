(** Proofs about the closest-point queries. *)
From Verif Require Import Closest_model Raster_spec Closest_spec Contig_proof.
From Coq Require Import ZifyBool Lqa.
Local Open Scope Z_scope.

Lemma Qlt_bool_iff a b : Qlt_bool a b = true <-> (a < b)%Q.
Proof.
  unfold Qlt_bool. destruct (Qle_bool b a) eqn:E; cbn.
  - apply Qle_bool_iff in E. split; [done|]. intros H. by apply Qlt_not_le in H.
  - split; [intros _|done]. apply Qnot_le_lt. intros H. apply Qle_bool_iff in H. congruence.
Qed.
Lemma Qlt_bool_false a b : Qlt_bool a b = false <-> (b <= a)%Q.
Proof.
  unfold Qlt_bool. destruct (Qle_bool b a) eqn:E; cbn.
  - apply Qle_bool_iff in E. done.
  - split; [done|]. intros H. apply Qle_bool_iff in H. congruence.
Qed.

(** One step of a minimum search. *)
Definition min_step {A} (d : A -> Q) (s : option A * Q) (a : A) : option A * Q :=
  if Qlt_bool (d a) s.2 then (Some a, d a) else s.

Lemma min_fold {A} (d : A -> Q) (l : list A) : forall best bd,
  (foldl (min_step d) (best, bd) l = (best, bd) /\ forall a, a ∈ l -> (bd <= d a)%Q) \/
  (exists a, first_least d l a /\ (d a < bd)%Q /\ foldl (min_step d) (best, bd) l = (Some a, d a)).
Proof.
  induction l as [|a l IH]; intros best bd.
  - left. split; [done|]. intros a Ha. by apply elem_of_nil in Ha.
  - cbn. unfold min_step at 2 4. cbn. destruct (Qlt_bool (d a) bd) eqn:E.
    + apply Qlt_bool_iff in E. right.
      destruct (IH (Some a) (d a)) as [[-> H]|(b & (l1 & l2 & -> & H1 & H2) & Hlt & ->)].
      * exists a. split; [|done]. exists [], l. split_and!; [done| |done].
        intros b Hb. by apply elem_of_nil in Hb.
      * exists b. split; [|split; [by eapply Qlt_trans|done]].
        exists (a :: l1), l2. split_and!; [done| |done].
        intros c [->|Hc]%elem_of_cons; auto.
    + apply Qlt_bool_false in E.
      destruct (IH best bd) as [[-> H]|(b & (l1 & l2 & -> & H1 & H2) & Hlt & ->)].
      * left. split; [done|]. intros b [->|Hb]%elem_of_cons; auto.
      * right. exists b. split; [|done]. exists (a :: l1), l2. split_and!; [done| |done].
        intros c [->|Hc]%elem_of_cons; auto. by eapply Qlt_le_trans.
Qed.

Lemma first_least_min {A} (d : A -> Q) l a : first_least d l a ->
  a ∈ l /\ forall b, b ∈ l -> (d a <= d b)%Q.
Proof.
  intros (l1 & l2 & -> & H1 & H2). split; [els|].
  intros b [Hb|[->|Hb]%elem_of_cons]%elem_of_app; [by apply Qlt_le_weak, H1|apply Qle_refl|auto].
Qed.

(** All pairs in the order of the nested loops. *)
Definition all_pairs (us them : list pte) : list (pte * pte) := p ← us; t ← them; [(p, t)].
Lemma elem_of_all_pairs us them p t : (p, t) ∈ all_pairs us them <-> p ∈ us /\ t ∈ them.
Proof.
  unfold all_pairs. rewrite elem_of_list_bind. split.
  - intros (p' & Ht & Hp). apply elem_of_list_bind in Ht as (t' & H & Ht).
    apply elem_of_list_singleton in H. by injection H as -> ->.
  - intros [Hp Ht]. exists p. split; [|done]. apply elem_of_list_bind. exists t. split; [|done].
    by apply elem_of_list_singleton.
Qed.

Definition pair_d2 (m : datamap) (c : pte * pte) : Q := distance2 m (pt_xy c.1) (pt_xy c.2).
Definition cp_of (s : option (pte * pte) * Q) : closest :=
  CP (fst <$> s.1) (snd <$> s.1) s.2.

Lemma brute_fold m us them :
  closest_points_between_sets_brute_force m us them =
  cp_of (foldl (min_step (pair_d2 m)) (None, maxsize2) (all_pairs us them)).
Proof.
  unfold closest_points_between_sets_brute_force.
  change (CP None None maxsize2) with (cp_of (None, maxsize2)).
  generalize (@None (pte * pte), maxsize2). induction us as [|p us IH]; intros s; [done|].
  unfold all_pairs. rewrite bind_cons, foldl_app. cbn [foldl].
  match goal with |- foldl ?f ?a us = _ =>
    assert (Ha : a = cp_of (foldl (min_step (pair_d2 m)) s (t ← them; [(p, t)]))) end.
  { clear IH. revert s. induction them as [|t them IH]; intros s; [done|].
    rewrite bind_cons. cbn [foldl app]. rewrite <-IH. f_equal.
    unfold min_step, pair_d2, cp_of. cbn. by destruct (Qlt_bool _ _). }
  rewrite Ha. apply IH.
Qed.

Lemma brute_spec m us them :
  ((forall p t, p ∈ us -> t ∈ them -> (maxsize2 <= distance2 m (pt_xy p) (pt_xy t))%Q) /\
   closest_points_between_sets_brute_force m us them = CP None None maxsize2) \/
  exists p t, first_least (pair_d2 m) (all_pairs us them) (p, t) /\
    (distance2 m (pt_xy p) (pt_xy t) < maxsize2)%Q /\
    closest_points_between_sets_brute_force m us them =
      CP (Some p) (Some t) (distance2 m (pt_xy p) (pt_xy t)).
Proof.
  rewrite brute_fold.
  destruct (min_fold (pair_d2 m) (all_pairs us them) None maxsize2) as [[-> H]|([p t] & H & Hlt & ->)].
  - left. split; [|done]. intros p t Hp Ht. apply (H (p, t)). by apply elem_of_all_pairs.
  - right. exists p, t. done.
Qed.

(** C14, first part. *)
Lemma brute_closest m us them p0 t0 :
  p0 ∈ us -> t0 ∈ them -> (distance2 m (pt_xy p0) (pt_xy t0) < maxsize2)%Q ->
  exists p t, closest_points_between_sets_brute_force m us them =
      CP (Some p) (Some t) (distance2 m (pt_xy p) (pt_xy t)) /\
    p ∈ us /\ t ∈ them /\
    (forall p' t', p' ∈ us -> t' ∈ them ->
       (distance2 m (pt_xy p) (pt_xy t) <= distance2 m (pt_xy p') (pt_xy t'))%Q).
Proof.
  intros Hp Ht Hlt. destruct (brute_spec m us them) as [[H _]|(p & t & Hf & _ & Heq)].
  - exfalso. apply (Qlt_not_le _ _ Hlt). auto.
  - apply first_least_min in Hf as [Hin Hmin]. apply elem_of_all_pairs in Hin as [Hpin Htin].
    exists p, t. split_and!; try done. intros p' t' Hp' Ht'.
    apply (Hmin (p', t')). by apply elem_of_all_pairs.
Qed.

(** argmin *)
Lemma argmin_from_spec l : forall pre b q,
  pre !! b = Some q ->
  (forall i r, pre !! i = Some r -> (q <= r)%Q) ->
  exists i r, argmin_from (length pre) l (b, q) = i /\ (pre ++ l) !! i = Some r /\
    forall j r', (pre ++ l) !! j = Some r' -> (r <= r')%Q.
Proof.
  induction l as [|a l IH]; intros pre b q Hb Hmin; cbn.
  - exists b, q. rewrite app_nil_r. split_and!; auto.
  - replace (pre ++ a :: l) with ((pre ++ [a]) ++ l) by (by rewrite <-app_assoc).
    replace (S (length pre)) with (length (pre ++ [a])) by (rewrite app_length; cbn; lia).
    destruct (Qlt_bool a q) eqn:E.
    + apply Qlt_bool_iff in E. apply IH.
      * rewrite lookup_app_r by lia. by rewrite Nat.sub_diag.
      * intros i r Hi. apply lookup_app_Some in Hi as [Hi|[_ Hi]].
        -- apply Qlt_le_weak. eapply Qlt_le_trans; [done|]. by eapply Hmin.
        -- destruct (i - length pre)%nat; [|done]. injection Hi as ->. apply Qle_refl.
    + apply Qlt_bool_false in E. apply IH.
      * by apply lookup_app_l_Some.
      * intros i r Hi. apply lookup_app_Some in Hi as [Hi|[_ Hi]]; [by eapply Hmin|].
        destruct (i - length pre)%nat; [|done]. injection Hi as ->. done.
Qed.
Lemma argmin_spec l : l <> [] -> exists i r, argmin l = Some i /\ l !! i = Some r /\
  forall j r', l !! j = Some r' -> (r <= r')%Q.
Proof.
  destruct l as [|q l]; [done|]. intros _. cbn.
  destruct (argmin_from_spec l [q] 0%nat q) as (i & r & Hi & Hr & Hmin); [done| |].
  - intros [|i] r Hr; [|done]. injection Hr as ->. apply Qle_refl.
  - exists i, r. cbn in Hi. split_and!; [by f_equal|done|done].
Qed.

Lemma pixel2_sym a b : (pixel2 a b == pixel2 b a)%Q.
Proof. unfold pixel2. apply inject_Z_injective. ring. Qed.

(** The k-d-tree variant minimises the pixel distance. *)
Lemma kdtree_closest near m us them :
  nearest_query near -> us <> [] -> them <> [] ->
  exists p t, closest_points_between_sets_kdtree near m us them =
      Ok (CP (Some p) (Some t) (distance2 m (pt_xy p) (pt_xy t))) /\
    p ∈ us /\ t ∈ them /\
    (forall p' t', p' ∈ us -> t' ∈ them -> (pixel2 (pt_xy p) (pt_xy t) <= pixel2 (pt_xy p') (pt_xy t'))%Q).
Proof.
  intros Hn Hus Hth. unfold closest_points_between_sets_kdtree.
  destruct us as [|u0 us0] eqn:Eus; [done|]. rewrite <-Eus in *. clear u0 us0 Eus.
  assert (Hus2 : map pt_xy us <> []) by (by destruct us).
  set (dists := map _ them).
  destruct (argmin_spec dists) as (i & r & -> & Hi & Hmin); [by destruct them|].
  unfold dists in Hi. rewrite list_lookup_fmap in Hi.
  destruct (them !! i) as [t|] eqn:Et; [|done]. cbn in Hi.
  destruct (Hn _ (pt_xy t) Hus2) as (q & Hq & Hqmin). rewrite Hq in Hi. injection Hi as <-.
  rewrite list_lookup_fmap in Hq. destruct (us !! near (map pt_xy us) (pt_xy t)) as [p|] eqn:Ep; [|done].
  cbn in Hq. injection Hq as <-.
  exists p, t. split_and!; [done|by eapply elem_of_list_lookup_2|by eapply elem_of_list_lookup_2|].
  intros p' t' Hp' Ht'. apply elem_of_list_lookup in Ht' as [j Hj].
  destruct (Hn _ (pt_xy t') Hus2) as (q' & Hq' & Hq'min).
  eapply Qle_trans; [|apply (Hq'min (pt_xy p')); apply elem_of_list_fmap; eauto].
  apply (Hmin j). unfold dists. rewrite list_lookup_fmap, Hj. cbn. by rewrite Hq'.
Qed.

(** For square pixels the two distances agree up to a positive factor. *)
Lemma square_distance m a b : square_pixels m ->
  (distance2 m a b == gt1 (dm_gt m) * gt1 (dm_gt m) * pixel2 a b)%Q.
Proof.
  intros [He _]. unfold distance2, hypot2, pixel2. rewrite inject_Z_plus, !inject_Z_mult.
  transitivity (inject_Z (a.1 - b.1) * inject_Z (a.1 - b.1) * (gt1 (dm_gt m) * gt1 (dm_gt m)) +
    inject_Z (a.2 - b.2) * inject_Z (a.2 - b.2) * (gt5 (dm_gt m) * gt5 (dm_gt m)))%Q; [ring|].
  rewrite <-He. ring.
Qed.

Lemma kdtree_square near m us them :
  nearest_query near -> square_pixels m -> us <> [] -> them <> [] ->
  exists p t, closest_points_between_sets_kdtree near m us them =
      Ok (CP (Some p) (Some t) (distance2 m (pt_xy p) (pt_xy t))) /\
    p ∈ us /\ t ∈ them /\
    (forall p' t', p' ∈ us -> t' ∈ them ->
       (distance2 m (pt_xy p) (pt_xy t) <= distance2 m (pt_xy p') (pt_xy t'))%Q).
Proof.
  intros Hn Hsq Hus Hth. destruct (kdtree_closest near m us them Hn Hus Hth) as (p & t & Heq & Hp & Ht & Hmin).
  exists p, t. split_and!; try done. intros p' t' Hp' Ht'.
  rewrite !(square_distance m _ _ Hsq). apply Qmult_le_l; [apply Hsq|]. auto.
Qed.

(** The switch between the two. *)
Lemma find_closest_spec near m us them p0 t0 :
  nearest_query near -> p0 ∈ us -> t0 ∈ them ->
  (distance2 m (pt_xy p0) (pt_xy t0) < maxsize2)%Q ->
  (length us + length them < 100)%nat \/ square_pixels m ->
  exists p t, find_closest_points near m us them =
      Ok (CP (Some p) (Some t) (distance2 m (pt_xy p) (pt_xy t))) /\
    p ∈ us /\ t ∈ them /\
    (forall p' t', p' ∈ us -> t' ∈ them ->
       (distance2 m (pt_xy p) (pt_xy t) <= distance2 m (pt_xy p') (pt_xy t'))%Q).
Proof.
  intros Hn Hp Ht Hlt Hor. unfold find_closest_points.
  destruct (Nat.ltb (length us + length them) 100) eqn:E.
  - destruct (brute_closest m us them p0 t0 Hp Ht Hlt) as (p & t & -> & H). by exists p, t.
  - destruct Hor as [Hl|Hsq]; [lia|]. apply kdtree_square; try done.
    + intros ->. by apply elem_of_nil in Hp.
    + intros ->. by apply elem_of_nil in Ht.
Qed.

(** C15 *)
Lemma brute_map_inner p them : forall (d : gmap pte pte) bd,
  (foldl (fun (s : gmap pte pte * Q) t =>
      let dist := pixel2 (pt_xy p) (pt_xy t) in
      if Qlt_bool dist s.2 then (<[p := t]> s.1, dist) else s) (d, bd) them) =
  match foldl (min_step (fun t => pixel2 (pt_xy p) (pt_xy t))) (None, bd) them with
  | (None, q) => (d, q)
  | (Some t, q) => (<[p := t]> d, q)
  end.
Proof.
  enough (H : forall (d : gmap pte pte) o bd,
    foldl (fun (s : gmap pte pte * Q) t =>
      let dist := pixel2 (pt_xy p) (pt_xy t) in
      if Qlt_bool dist s.2 then (<[p := t]> s.1, dist) else s)
      (match o with Some t => <[p := t]> d | None => d end, bd) them =
    match foldl (min_step (fun t => pixel2 (pt_xy p) (pt_xy t))) (o, bd) them with
    | (None, q) => (d, q)
    | (Some t, q) => (<[p := t]> d, q)
    end).
  { intros d bd. apply (H d None bd). }
  induction them as [|t them IH]; intros d o bd; cbn.
  - by destruct o.
  - unfold min_step at 2. cbn. destruct (Qlt_bool _ bd); [|apply IH].
    rewrite <-IH. f_equal. f_equal. destruct o; [|done]. by rewrite insert_insert.
Qed.

Lemma brute_map us them :
  (forall p, p ∈ us -> exists t, t ∈ them /\ (pixel2 (pt_xy p) (pt_xy t) < maxsize2)%Q) ->
  (forall p, p ∈ us -> exists t, closest_point_by_distance_brute_force us them !! p = Some t /\
     first_least (fun t => pixel2 (pt_xy p) (pt_xy t)) them t) /\
  (forall p, p ∉ us -> closest_point_by_distance_brute_force us them !! p = None).
Proof.
  intros Hreach. unfold closest_point_by_distance_brute_force.
  enough (H : forall d : gmap pte pte,
    (forall p, p ∈ us -> exists t, foldl (fun (d : gmap pte pte) p =>
    (foldl (fun (s : gmap pte pte * Q) t =>
      let dist := pixel2 (pt_xy p) (pt_xy t) in
      if Qlt_bool dist s.2 then (<[p := t]> s.1, dist) else s) (d, maxsize2) them).1) d us !! p = Some t /\
     first_least (fun t => pixel2 (pt_xy p) (pt_xy t)) them t) /\
    (forall p, p ∉ us -> foldl (fun (d : gmap pte pte) p =>
    (foldl (fun (s : gmap pte pte * Q) t =>
      let dist := pixel2 (pt_xy p) (pt_xy t) in
      if Qlt_bool dist s.2 then (<[p := t]> s.1, dist) else s) (d, maxsize2) them).1) d us !! p = d !! p)).
  { destruct (H ∅) as [H1 H2]. split; [done|]. intros p Hp. by rewrite H2. }
  induction us as [|p us IH]; intros d; cbn [foldl].
  - split; [intros p Hp; by apply elem_of_nil in Hp|done].
  - destruct (Hreach p) as (t0 & Ht0 & Hlt0); [by left|].
    rewrite brute_map_inner.
    destruct (min_fold (fun t => pixel2 (pt_xy p) (pt_xy t)) them None maxsize2)
      as [[-> H]|(t & Hf & Hlt & ->)].
    { exfalso. apply (Qlt_not_le _ _ Hlt0). by apply H. }
    cbn [fst]. destruct (IH ltac:(intros q Hq; apply Hreach; by right) (<[p := t]> d)) as [H1 H2].
    split.
    + intros q Hq. destruct (decide (q ∈ us)) as [Hqu|Hqu]; [by apply H1|].
      apply elem_of_cons in Hq as [->|Hq]; [|done].
      exists t. split; [|done]. by rewrite H2, lookup_insert.
    + intros q Hq. apply not_elem_of_cons in Hq as [Hqp Hqu]. by rewrite H2, lookup_insert_ne.
Qed.

Lemma kdtree_map near us them : nearest_query near -> them <> [] ->
  exists d, closest_point_by_distance_kdtree near us them = Ok d /\
  (forall p, p ∈ us -> exists t, d !! p = Some t /\ t ∈ them /\
     forall t', t' ∈ them -> (pixel2 (pt_xy p) (pt_xy t) <= pixel2 (pt_xy p) (pt_xy t'))%Q) /\
  (forall p, p ∉ us -> d !! p = None).
Proof.
  intros Hn Hth. unfold closest_point_by_distance_kdtree.
  destruct them as [|u0 us0] eqn:Eus; [done|]. rewrite <-Eus in *. clear u0 us0 Eus.
  assert (H2 : map pt_xy them <> []) by (by destruct them).
  enough (H : forall d0 : gmap pte pte, exists d, foldM (fun p (d : gmap pte pte) =>
    match them !! near (map pt_xy them) (pt_xy p) with
      | Some t => Ok (<[p:=t]> d) | None => Err IndexError end) us d0 = Ok d /\
    (forall p, p ∈ us -> exists t, d !! p = Some t /\ t ∈ them /\
     forall t', t' ∈ them -> (pixel2 (pt_xy p) (pt_xy t) <= pixel2 (pt_xy p) (pt_xy t'))%Q) /\
    (forall p, p ∉ us -> d !! p = d0 !! p)).
  { destruct (H ∅) as (d & Hd & H3 & H4). exists d. split_and!; [done|done|].
    intros p Hp. by rewrite H4. }
  induction us as [|p us IH]; intros d0; cbn [foldM].
  - exists d0. split_and!; [done| |done]. intros p Hp. by apply elem_of_nil in Hp.
  - destruct (Hn _ (pt_xy p) H2) as (q & Hq & Hmin). rewrite list_lookup_fmap in Hq.
    destruct (them !! near (map pt_xy them) (pt_xy p)) as [t|] eqn:Et; [|done].
    cbn in Hq. injection Hq as <-. cbn [rbind].
    destruct (IH (<[p := t]> d0)) as (d & Hd & H3 & H4). exists d. split_and!; [done| |].
    + intros q Hq. destruct (decide (q ∈ us)) as [Hqu|Hqu]; [by apply H3|].
      apply elem_of_cons in Hq as [->|Hq]; [|done].
      exists t. split_and!; [by rewrite H4, lookup_insert|by eapply elem_of_list_lookup_2|].
      intros t' Ht'. rewrite (pixel2_sym _ (pt_xy t)), (pixel2_sym _ (pt_xy t')).
      apply Hmin. apply elem_of_list_fmap. eauto.
    + intros q Hq. apply not_elem_of_cons in Hq as [Hqp Hqu]. by rewrite H4, lookup_insert_ne.
Qed.

(** C17 *)
Lemma dist2_nonneg tx ty p : (0 <= dist2_to tx ty p)%Q.
Proof.
  unfold dist2_to. set (a := (tx - inject_Z p.1)%Q). set (b := (ty - inject_Z p.2)%Q).
  clearbody a b. nra.
Qed.

Lemma closestPoint_loop_spec tx ty pts : forall best,
  exists p, closestPoint_loop tx ty pts best (dist2_to tx ty best.1) = p /\
    p ∈ best :: pts /\ forall q, q ∈ best :: pts -> (dist2_to tx ty p.1 <= dist2_to tx ty q.1)%Q.
Proof.
  induction pts as [|a pts IH]; intros best; cbn [closestPoint_loop].
  - exists best. split_and!; [done|by left|]. intros q Hq. apply elem_of_list_singleton in Hq as ->.
    apply Qle_refl.
  - destruct (Qeq_bool _ 0) eqn:E0.
    { apply Qeq_bool_iff in E0. exists a. split_and!; [done|by right; left|]. intros q _.
      rewrite E0. apply dist2_nonneg. }
    destruct (Qlt_bool _ _) eqn:E.
    + apply Qlt_bool_iff in E. destruct (IH a) as (p & -> & Hp & Hmin). exists p.
      split_and!; [done|by right|]. intros q [->|Hq]%elem_of_cons; [|auto].
      apply Qlt_le_weak. eapply Qle_lt_trans; [|done]. apply Hmin. by left.
    + apply Qlt_bool_false in E. destruct (IH best) as (p & -> & Hp & Hmin). exists p.
      split_and!; [done|apply elem_of_cons in Hp as [->|Hp]; [by left|by right; right]|]. intros q [->|[->|Hq]%elem_of_cons]%elem_of_cons.
      * apply Hmin. by left.
      * eapply Qle_trans; [|done]. apply Hmin. by left.
      * apply Hmin. by right.
Qed.

Lemma closestPoint_spec tx ty p0 pts : p0.2 = None ->
  exists p, closestPoint tx ty (p0 :: pts) = Ok p /\ p ∈ map fst (p0 :: pts) /\
    forall q, q ∈ map fst (p0 :: pts) -> (dist2_to tx ty p <= dist2_to tx ty q)%Q.
Proof.
  intros H0. unfold closestPoint. rewrite H0.
  destruct (closestPoint_loop_spec tx ty pts p0) as (p & -> & Hp & Hmin).
  exists p.1. split_and!; [done|apply elem_of_list_fmap; eauto|].
  intros q Hq. apply elem_of_list_fmap in Hq as (q' & -> & Hq'). auto.
Qed.

Lemma distance_map_spec near us them :
  nearest_query near -> them <> [] ->
  (forall p, p ∈ us -> exists t, t ∈ them /\ (pixel2 (pt_xy p) (pt_xy t) < maxsize2)%Q) ->
  exists d, find_closest_point_by_distance_map near us them = Ok d /\
  (forall p, p ∈ us -> exists t, d !! p = Some t /\ t ∈ them /\
     forall t', t' ∈ them -> (pixel2 (pt_xy p) (pt_xy t) <= pixel2 (pt_xy p) (pt_xy t'))%Q) /\
  (forall p, p ∉ us -> d !! p = None).
Proof.
  intros Hn Hth Hr. unfold find_closest_point_by_distance_map.
  destruct (Nat.ltb _ _).
  - eexists. split; [done|]. destruct (brute_map us them Hr) as [H1 H2]. split; [|done].
    intros p Hp. destruct (H1 p Hp) as (t & Ht & Hf). apply first_least_min in Hf as [Hin Hmin].
    exists t. split_and!; auto.
  - by apply kdtree_map.
Qed.

(** A nearest-neighbour query. *)
Definition near0 (pts : list xy) (q : xy) : nat :=
  default O (argmin (map (fun p => pixel2 p q) pts)).
Lemma near0_ok : nearest_query near0.
Proof.
  intros pts q Hp. unfold near0.
  destruct (argmin_spec (map (fun p => pixel2 p q) pts)) as (i & r & -> & Hi & Hmin); [by destruct pts|].
  cbn. rewrite list_lookup_fmap in Hi. destruct (pts !! i) as [p|] eqn:E; [|done]. cbn in Hi.
  injection Hi as <-. exists p. split; [done|]. intros p' Hp'.
  apply elem_of_list_lookup in Hp' as [j Hj]. apply (Hmin j). rewrite list_lookup_fmap, Hj. done.
Qed.

Lemma brute_first m us them p0 t0 :
  p0 ∈ us -> t0 ∈ them -> (distance2 m (pt_xy p0) (pt_xy t0) < maxsize2)%Q ->
  exists p t, closest_points_between_sets_brute_force m us them =
      CP (Some p) (Some t) (distance2 m (pt_xy p) (pt_xy t)) /\
    first_least (pair_d2 m) (all_pairs us them) (p, t).
Proof.
  intros Hp Ht Hlt. destruct (brute_spec m us them) as [[H _]|(p & t & Hf & _ & Heq)].
  - exfalso. apply (Qlt_not_le _ _ Hlt). auto.
  - by exists p, t.
Qed.

Lemma kdtree_wrong :
  exists near m us them p t, nearest_query near /\ us <> [] /\ them <> [] /\ p ∈ us /\ t ∈ them /\
    match find_closest_points near m us them with
    | Ok c => (distance2 m (pt_xy p) (pt_xy t) < cp_d2 c)%Q
    | Err _ => False
    end.
Proof.
  exists near0, (DM 0 0 (fun _ _ => 0%Z) None (GT 0 1 0 0 0 (-10)) (exact_slope (GT 0 1 0 0 0 (-10)))),
    ((3, 0, 5) :: (0, 2, 5) :: replicate 98 (99, 99, 5)), [(0, 0, 5)], (3, 0, 5), (0, 0, 5).
  split; [apply near0_ok|]. split_and!; [done|done|by left|by left|]. by vm_compute.
Qed.

(** The searches in exact arithmetic. *)
Lemma exact_sound near m : nearest_query near -> sound_searches (exact_searches near) m.
Proof.
  intros Hn. split; cbn [s_map s_pair s_member exact_searches].
  - intros us them _ _ Hne Hr. destruct (distance_map_spec near us them Hn Hne) as (d & E & H1 & H2).
    + intros p Hp. destruct them as [|t them]; [done|]. exists t. split; [by left|]. apply Hr; [done|by left].
    + exists d. split; [done|]. split; [|done]. intros p Hp. destruct (H1 p Hp) as (t & Ht & Hin & _). eauto.
  - intros us. unfold find_closest_point_by_distance_map. destruct (Nat.ltb _ _); [left|by right].
    unfold closest_point_by_distance_brute_force. cbn [foldl]. f_equal. induction us; [done|]. by cbn.
  - intros us them _ _ Hus Hth Hr. unfold find_closest_points. destruct us as [|p us]; [done|]. destruct them as [|t them]; [done|].
    destruct (Nat.ltb _ _).
    + destruct (brute_closest m (p :: us) (t :: them) p t) as (p' & t' & -> & H1 & H2 & _); [by left|by left|apply Hr; by left|].
      eexists p', t', _. split; [done|]. split; [done|]. split; [done|]. by apply Hr.
    + destruct (kdtree_closest near m (p :: us) (t :: them) Hn) as (p' & t' & -> & H1 & H2 & _); [done|done|].
      eexists p', t', _. split; [done|]. split; [done|]. split; [done|]. by apply Hr.
  - intros tx ty p0 pts H0 _. destruct (closestPoint_spec tx ty p0 pts H0) as (c & -> & Hc & _). eauto.
Qed.
Definition search0 : searches := exact_searches near0.
Lemma search0_ok m : sound_searches search0 m.
Proof. apply exact_sound, near0_ok. Qed.
