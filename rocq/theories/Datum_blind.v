(** The searches in exact arithmetic do not look at elevations, and linear
    changes of elevation keep the order of slopes. *)
From Verif Require Import Closest_model Climb_spec Raster_proof Relief_spec Relief_proof Datum_spec Raster_spec.
From Coq Require Import ZifyBool.
Local Open Scope Z_scope.

Section blind.
  Context (near : list xy -> xy -> nat) (m1 m2 : datamap) (Hgt : dm_gt m1 = dm_gt m2).
  Local Notation r := (releveled m2).
  Lemma flat_r l : map pt_xy (map r l) = map pt_xy l.
  Proof. rewrite map_map. by apply map_ext. Qed.
  Lemma r_inj p q : true_pt m1 p -> true_pt m1 q -> r p = r q -> p = q.
  Proof.
    destruct p as [p e], q as [q f]. unfold true_pt, releveled, pt_xy, pt_e. cbn. intros [_ ->] [_ ->] [= -> _]. done.
  Qed.

  (** *** Closest pairs *)
  Definition cpr (us them : list pte) (c c' : closest) : Prop :=
    c' = CP (r <$> cp_mine c) (r <$> cp_theirs c) (cp_d2 c) /\
    (forall p, cp_mine c = Some p -> p ∈ us) /\ (forall p, cp_theirs c = Some p -> p ∈ them).
  Lemma dist_eq a b : distance2 m1 a b = distance2 m2 a b.
  Proof. unfold distance2. by rewrite Hgt. Qed.
  Lemma brute_pair us them :
    cpr us them (closest_points_between_sets_brute_force m1 us them) (closest_points_between_sets_brute_force m2 (map r us) (map r them)).
  Proof.
    unfold closest_points_between_sets_brute_force.
    assert (forall l c c', (forall x, x ∈ l -> x ∈ us) -> cpr us them c c' -> cpr us them
      (foldl (fun c p => foldl (fun c t => let d := distance2 m1 (pt_xy p) (pt_xy t) in
         if Qlt_bool d (cp_d2 c) then CP (Some p) (Some t) d else c) c them) c l)
      (foldl (fun c p => foldl (fun c t => let d := distance2 m2 (pt_xy p) (pt_xy t) in
         if Qlt_bool d (cp_d2 c) then CP (Some p) (Some t) d else c) c (map r them)) c' (map r l))) as K; [|apply K; done].
    induction l as [|p l IH]; intros c c' Hl Hc; [done|]. cbn [map foldl]. apply IH; [intros x Hx; apply Hl; by right|].
    assert (p ∈ us) as Hp by (apply Hl; left). clear IH Hl.
    assert (forall k c c', (forall x, x ∈ k -> x ∈ them) -> cpr us them c c' -> cpr us them
      (foldl (fun c t => let d := distance2 m1 (pt_xy p) (pt_xy t) in
         if Qlt_bool d (cp_d2 c) then CP (Some p) (Some t) d else c) c k)
      (foldl (fun c t => let d := distance2 m2 (pt_xy (r p)) (pt_xy t) in
         if Qlt_bool d (cp_d2 c) then CP (Some (r p)) (Some t) d else c) c' (map r k))) as K; [|by apply K].
    clear c c' Hc. induction k as [|t k IH]; intros c c' Hk Hc; [done|]. cbn [map foldl]. apply IH; [intros x Hx; apply Hk; by right|].
    cbv zeta. destruct Hc as (-> & H1 & H2). cbn [cp_d2]. change (pt_xy (r p)) with (pt_xy p). change (pt_xy (r t)) with (pt_xy t).
    rewrite dist_eq. destruct (Qlt_bool _ _); [|done]. split; [done|]. cbn. split; [by intros ? [= <-]|]. intros ? [= <-]. apply Hk. left.
  Qed.
  Lemma tree_pair us them :
    alike (cpr us them) (closest_points_between_sets_kdtree near m1 us them) (closest_points_between_sets_kdtree near m2 (map r us) (map r them)).
  Proof.
    unfold closest_points_between_sets_kdtree. cbv zeta. destruct us as [|u us]; [done|]. remember (u :: us) as l.
    destruct (map r l) as [|u' us'] eqn:E; [by subst|]. rewrite <-E. clear u us Heql u' us' E. rewrite flat_r.
    rewrite map_map. cbn [releveled pt_xy fst].
    destruct (argmin _) as [i|]; [|done]. rewrite list_lookup_fmap. destruct (them !! i) as [t|] eqn:Et; [|done]. cbn [fmap option_fmap option_map].
    change (pt_xy (r t)) with (pt_xy t). rewrite list_lookup_fmap. destruct (l !! _) as [p|] eqn:Ep; [|done].
    cbn [fmap option_fmap option_map alike]. change (pt_xy (r p)) with (pt_xy p). rewrite dist_eq. split; [done|]. cbn. split; intros ? [= <-]; by eapply elem_of_list_lookup_2.
  Qed.

  (** *** Closest points of a set *)
  Record dic (us them : list pte) (d d' : gmap pte pte) : Prop := {
    dc_same : forall p, true_pt m1 p -> d' !! r p = r <$> d !! p;
    dc_dom : forall p t, d !! p = Some t -> p ∈ us /\ t ∈ them;
    dc_dom' : forall p t, d' !! p = Some t -> p ∈ map r us }.
  Lemma dic_set us them d d' p t : Forall (true_pt m1) us -> p ∈ us -> t ∈ them -> dic us them d d' ->
    dic us them (<[p := t]> d) (<[r p := r t]> d').
  Proof.
    intros Hu Hp Ht [D1 D2 D3]. rewrite Forall_forall in Hu. split.
    - intros q Hq. destruct (decide (q = p)) as [->|Ne]; [by rewrite !lookup_insert|].
      rewrite !lookup_insert_ne; [by apply D1|done|]. intros E. apply Ne. symmetry. apply r_inj; [by apply Hu|done|done].
    - intros q s. rewrite lookup_insert_Some. intros [[<- <-]|[_ H]]; [done|by eapply D2].
    - intros q s. rewrite lookup_insert_Some. intros [[<- _]|[_ H]]; [|by eapply D3]. by apply elem_of_list_fmap_1.
  Qed.
  Lemma dic_ok us them d d' : Forall (true_pt m1) us -> dic us them d d' ->
    (forall p, p ∈ us -> d' !! r p = r <$> d !! p) /\
    (forall p, p ∉ us -> d !! p = None) /\ (forall p, p ∉ map r us -> d' !! p = None) /\
    (forall p t, d !! p = Some t -> t ∈ them).
  Proof.
    intros Hu [D1 D2 D3]. rewrite Forall_forall in Hu. split_and!.
    - intros p Hp. apply D1. by apply Hu.
    - intros p Hp. destruct (d !! p) eqn:E; [|done]. by apply D2 in E as [? _].
    - intros p Hp. destruct (d' !! p) eqn:E; [|done]. by apply D3 in E.
    - intros p t E. by apply D2 in E as [_ ?].
  Qed.
  Lemma brute_map us them : Forall (true_pt m1) us ->
    dic us them (closest_point_by_distance_brute_force us them) (closest_point_by_distance_brute_force (map r us) (map r them)).
  Proof.
    intros Hu. unfold closest_point_by_distance_brute_force.
    assert (forall l d d', (forall x, x ∈ l -> x ∈ us) -> dic us them d d' -> dic us them
      (foldl (fun (d : gmap pte pte) p => (foldl (fun (s : gmap pte pte * Q) t =>
        let dist := pixel2 (pt_xy p) (pt_xy t) in if Qlt_bool dist s.2 then (<[p := t]> s.1, dist) else s) (d, maxsize2) them).1) d l)
      (foldl (fun (d : gmap pte pte) p => (foldl (fun (s : gmap pte pte * Q) t =>
        let dist := pixel2 (pt_xy p) (pt_xy t) in if Qlt_bool dist s.2 then (<[p := t]> s.1, dist) else s) (d, maxsize2) (map r them)).1) d' (map r l)))
      as K; [|by apply K].
    induction l as [|p l IH]; intros d d' Hl Hd; [done|]. cbn [map foldl]. apply IH; [intros x Hx; apply Hl; by right|].
    assert (p ∈ us) as Hp by (apply Hl; left). clear IH Hl.
    assert (forall k (s s' : gmap pte pte * Q), (forall x, x ∈ k -> x ∈ them) -> dic us them s.1 s'.1 /\ s.2 = s'.2 -> dic us them
      (foldl (fun (s : gmap pte pte * Q) t =>
        let dist := pixel2 (pt_xy p) (pt_xy t) in if Qlt_bool dist s.2 then (<[p := t]> s.1, dist) else s) s k).1
      (foldl (fun (s : gmap pte pte * Q) t =>
        let dist := pixel2 (pt_xy (r p)) (pt_xy t) in if Qlt_bool dist s.2 then (<[r p := t]> s.1, dist) else s) s' (map r k)).1) as K; [|by apply K].
    clear d d' Hd. induction k as [|t k IH]; intros s s' Hk [Hd E]; [done|]. cbn [map foldl]. apply IH; [intros x Hx; apply Hk; by right|].
    cbv zeta. change (pt_xy (r p)) with (pt_xy p). change (pt_xy (r t)) with (pt_xy t). rewrite <-E.
    destruct (Qlt_bool _ _); [|done]. cbn. split; [|done]. apply dic_set; try done. apply Hk. left.
  Qed.
  Lemma tree_map us them : Forall (true_pt m1) us ->
    alike (dic us them) (closest_point_by_distance_kdtree near us them) (closest_point_by_distance_kdtree near (map r us) (map r them)).
  Proof.
    intros Hu. unfold closest_point_by_distance_kdtree. cbv zeta. destruct them as [|u ts]; [done|]. remember (u :: ts) as them.
    destruct (map r them) as [|u' ts'] eqn:E; [by subst|]. rewrite <-E. clear u ts Heqthem u' ts' E. rewrite flat_r.
    apply (alike_fold (fun p p' => p ∈ us /\ p' = r p) (dic us them)).
    - assert (forall l, (forall x, x ∈ l -> x ∈ us) -> Forall2 (fun p p' => p ∈ us /\ p' = r p) l (map r l)) as K; [|by apply K].
      induction l as [|p l IH]; intros Hl; constructor; [split; [apply Hl; left|done]|]. apply IH. intros x Hx. apply Hl. by right.
    - intros p ? d d' [Hp ->] Hd. change (pt_xy (r p)) with (pt_xy p). rewrite list_lookup_fmap.
      destruct (them !! _) as [t|] eqn:Et; [|done]. cbn. apply dic_set; try done. by eapply elem_of_list_lookup_2.
    - split; [intros p _; by rewrite !lookup_empty|intros p t; by rewrite lookup_empty|intros p t; by rewrite lookup_empty].
  Qed.

  (** *** Closest member *)
  Lemma member_loop tx ty l b bd : (closestPoint_loop tx ty (map (mlevel m2) l) (mlevel m2 b) bd).1 = (closestPoint_loop tx ty l b bd).1.
  Proof.
    revert b bd. induction l as [|z l IH]; intros b bd; [done|]. cbn [map closestPoint_loop]. cbv zeta. change (mlevel m2 z).1 with z.1.
    destruct (Qeq_bool _ _); [done|]. destruct (Qlt_bool _ _); apply IH.
  Qed.
  Lemma member tx ty l : closestPoint tx ty (map (mlevel m2) l) = closestPoint tx ty l.
  Proof.
    destruct l as [|[c o] l]; [done|]. cbn [map closestPoint mlevel fst snd]. destruct o; [done|].
    exact (f_equal Ok (member_loop tx ty l (c, None) _)).
  Qed.

  Lemma exact_blind : blind_searches (exact_searches near) m1 m2.
  Proof.
    split.
    - intros us them Hu _. cbn [s_map exact_searches]. unfold find_closest_point_by_distance_map. rewrite !map_length.
      destruct (Nat.ltb _ _); [by apply dic_ok, brute_map|]. pose proof (tree_map us them Hu) as H.
      destruct (closest_point_by_distance_kdtree near us them), (closest_point_by_distance_kdtree near (map r us) (map r them)); try done.
      by apply dic_ok.
    - intros us them _ _. cbn [s_pair exact_searches]. unfold find_closest_points. rewrite !map_length.
      destruct (Nat.ltb _ _); [apply brute_pair|]. pose proof (tree_pair us them) as H.
      by destruct (closest_points_between_sets_kdtree near m1 us them), (closest_points_between_sets_kdtree near m2 (map r us) (map r them)).
    - intros tx ty l _. apply member.
  Qed.
End blind.

(** *** Another unit and another datum *)
Lemma linear_slopes k c m : 0 < k -> slopes_exact m -> same_slopes m (regrade (fun e => k * e + c) m).
Proof.
  intros Hk He. pose (m' := regrade (fun e => k * e + c) m).
  assert (forall p q, slope_up m' p q =
    (let* s := slope_up m p q in Ok (inject_Z ((k * (elev m q - elev m p)) * (k * (elev m q - elev m p))) /
      hypot2 (inject_Z (p.1 - q.1) * gt5 (dm_gt m)) (inject_Z (p.2 - q.2) * gt1 (dm_gt m)))%Q)) as E.
  { intros p q. unfold slope_up. change (dm_slope m') with (dm_slope m). rewrite !He. unfold exact_slope. cbv zeta.
    destruct (Qeq_bool _ _); [done|]. cbn [rbind]. unfold elev. cbn [m' regrade dm_cell].
    assert (forall x y, k * x + c - (k * y + c) = k * (x - y)) as -> by (intros; ring). done. }
  assert (forall p q s, slope_up m p q = Ok s -> (0 <= s)%Q /\ exists s', slope_up m' p q = Ok s' /\ (s' == inject_Z (k * k) * s)%Q) as L.
  { intros p q s Hs. rewrite E, Hs. cbn [rbind]. unfold slope_up in Hs. rewrite He in Hs. unfold exact_slope in Hs. cbv zeta in Hs.
    destruct (Qeq_bool _ _) eqn:Z0; [done|]. injection Hs as <-. apply Qeq_bool_neq in Z0.
    remember (hypot2 (inject_Z (p.1 - q.1) * gt5 (dm_gt m)) (inject_Z (p.2 - q.2) * gt1 (dm_gt m))) as d eqn:Ed. split.
    - apply Qle_shift_div_l.
      + assert (0 <= d)%Q; [|destruct (Qle_lt_or_eq _ _ H); [done|]; by destruct Z0; symmetry].
        subst d. apply hypot2_nonneg.
      + rewrite Qmult_0_l. change 0%Q with (inject_Z 0). rewrite <-Zle_Qle. apply Z.square_nonneg.
    - eexists. split; [done|]. rewrite !inject_Z_mult. field. done. }
  split; [done| |].
  - intros p q _ _ _. fold m'. rewrite E. destruct (slope_up m p q) as [s|] eqn:Es; [|done]. cbn [rbind].
    destruct (L p q s Es) as (H0 & s' & Hs' & Eq). rewrite E, Es in Hs'. cbn [rbind] in Hs'. injection Hs' as ->. rewrite Eq.
    split; [|done]. intros _. apply Qmult_le_0_compat; [|done]. change 0%Q with (inject_Z 0). rewrite <-Zle_Qle. nia.
  - intros p q r s t s' t' _ _ _ _ _ H1 H2 H3 H4. fold m' in H3, H4.
    destruct (L p q s H1) as (_ & s2 & E1 & Q1), (L p r t H2) as (_ & t2 & E2 & Q2). rewrite E1 in H3. rewrite E2 in H4.
    injection H3 as <-. injection H4 as <-. rewrite Q1, Q2. symmetry. apply Qmult_le_l. change 0%Q with (inject_Z 0). rewrite <-Zlt_Qlt. nia.
Qed.
Lemma linear_low k c m : 0 < k -> nodata_low m -> nodata_low (regrade (fun e => k * e + c) m).
Proof.
  intros Hk L v p Hv Hp. assert (forall a b, a < b -> k * a + c < k * b + c) as Hg by nia.
  apply (sr_data _ _ (regrade_same _ m Hg)) in Hp. cbn in Hv. destruct (dm_nodata m) as [v0|] eqn:E; [|done]. injection Hv as <-.
  apply Hg. by apply (L v0 p).
Qed.
