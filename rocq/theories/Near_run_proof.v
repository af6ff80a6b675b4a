From Verif Require Import Base_model Raster_model Raster_spec Analyze_model Closest_model Closest_spec Float_model Float_spec Float_proof
  Slope_model Slope_spec Slope_proof Near_model Near_spec Near_proof.
From Flocq Require Import Core BinarySingleNaN Relative.
From Coq Require Import Reals Lra Psatz Qreals.
Local Open Scope R_scope.

Definition pz (p q : xy) : Z := ((p.1 - q.1) * (p.1 - q.1) + (p.2 - q.2) * (p.2 - q.2))%Z.
Lemma pz_value p q : Q2R (pixel2 p q) = IZR (pz p q).
Proof. rewrite Q2R_pixel. unfold pz. by rewrite plus_IZR, !mult_IZR. Qed.
Lemma pz_le p q p' q' : (pz p q <= pz p' q')%Z <-> (pixel2 p q <= pixel2 p' q')%Q.
Proof. unfold pixel2. rewrite <- Zle_Qle. done. Qed.
Lemma pz_range p q : usual_cell p -> usual_cell q -> (0 <= pz p q <= 2 ^ 45)%Z.
Proof.
  intros Hp Hq. destruct (diff_ok p q Hp Hq) as [Hx Hy]. unfold pz. change (2 ^ 45)%Z with (2 ^ 22 * 2 ^ 22 + 2 ^ 22 * 2 ^ 22)%Z. nia.
Qed.

Lemma pixel_exact d d' p q p' q' : usual_cell p -> usual_cell q -> usual_cell p' -> usual_cell q' ->
  near d (sqrt (Q2R (pixel2 p q))) -> near d' (sqrt (Q2R (pixel2 p' q'))) -> B2R d <= B2R d' -> (pixel2 p q <= pixel2 p' q')%Q.
Proof.
  intros Hp Hq Hp' Hq' N N' Hle. rewrite pz_value in N, N'. apply pz_le.
  apply (near_exact d d' 1); [lra|pose proof (pz_range p q Hp Hq); lia|pose proof (pz_range p' q' Hp' Hq'); lia| | |done];
    by rewrite Rmult_1_l.
Qed.

Lemma pixel_small d p q : usual_cell p -> usual_cell q -> near d (sqrt (Q2R (pixel2 p q))) -> B2R d < bpow radix2 63.
Proof.
  intros Hp Hq [_ [_ H]]. rewrite pz_value in H. pose proof (pz_range p q Hp Hq) as HR.
  assert (S : sqrt (IZR (pz p q)) <= bpow radix2 23).
  { rewrite <- (sqrt_square (bpow radix2 23)) by apply bpow_ge_0. apply sqrt_le_1; [apply IZR_le; lia| |].
    - pose proof (bpow_ge_0 radix2 23). nra.
    - rewrite <- bpow_plus, bp by lia. apply IZR_le. change (2 ^ (23 + 23))%Z with (2 * 2 ^ 45)%Z. lia. }
  pose proof u_small. pose proof (sqrt_pos (IZR (pz p q))).
  apply Rle_lt_trans with (bpow radix2 23 * 2); [nra|]. replace 2 with (bpow radix2 1) by (simpl; lra). rewrite <- bpow_plus. apply bpow_lt. lia.
Qed.

Lemma cells_of (l : list pte) : usual_cells l -> forall p, p ∈ map pt_xy l -> usual_cell p.
Proof. intros H p Hp. apply elem_of_list_fmap in Hp as (t & -> & Ht). by apply H. Qed.
Lemma map_pt_xy l (i : nat) (q : xy) : map pt_xy l !! i = Some q -> exists p, l !! i = Some p /\ q = pt_xy p.
Proof. intros H. apply list_lookup_fmap_inv in H as (p & -> & H). eauto. Qed.

Section near.
  Context (hyp : b64 -> b64 -> b64).
  Hypothesis Hh : good_hypot hyp.
  Hypothesis Hz : exact_at_zero hyp.
  Context (kd : list xy -> xy -> nat * b64).
  Hypothesis Hkd : good_tree kd.

  Lemma distance_map us them : usual_cells us -> usual_cells them -> them <> [] ->
    exists d, f_find_closest_point_by_distance_map hyp kd us them = Ok d /\
    (forall p, p ∈ us -> exists t, d !! p = Some t /\ t ∈ them /\
       forall t', t' ∈ them -> (pixel2 (pt_xy p) (pt_xy t) <= pixel2 (pt_xy p) (pt_xy t'))%Q) /\
    (forall p, p ∉ us -> d !! p = None).
  Proof.
    intros Hus Hth Hne. unfold f_find_closest_point_by_distance_map. destruct (Nat.ltb _ _).
    - unfold f_closest_point_by_distance_brute_force.
      destruct (map_all (f_pixel hyp) us them) with (l := us) (d0 := (∅ : gmap pte pte)) as (d & -> & H1 & H2); [|done|done|].
      { intros p t Hp Ht. destruct (pixel_near hyp Hh Hz (pt_xy p) (pt_xy t) (Hus p Hp) (Hth t Ht)) as (d & E & N).
        exists d. split; [done|]. split; [apply N|]. exact (pixel_small d _ _ (Hus p Hp) (Hth t Ht) N). }
      exists d. split; [done|]. split.
      + intros p Hp. destruct (H1 p Hp) as (t & e & E & Ht & Ee & Hmin). exists t. split; [done|]. split; [done|]. intros t' Ht'.
        destruct (pixel_near hyp Hh Hz (pt_xy p) (pt_xy t) (Hus p Hp) (Hth t Ht)) as (d1 & E1 & N1).
        destruct (pixel_near hyp Hh Hz (pt_xy p) (pt_xy t') (Hus p Hp) (Hth t' Ht')) as (d2 & E2 & N2).
        assert (d1 = e) as -> by congruence. pose proof (Hmin t' d2 Ht' E2) as Hle.
        exact (pixel_exact e d2 _ _ _ _ (Hus p Hp) (Hth t Ht) (Hus p Hp) (Hth t' Ht') N1 N2 Hle).
      + intros p Hp. by rewrite (H2 p Hp).
    - assert (Ek : f_closest_point_by_distance_kdtree kd us them = foldM (fun p (d : gmap pte pte) =>
          match them !! (kd (map pt_xy them) (pt_xy p)).1 with None => Err IndexError | Some t => Ok (<[p := t]> d) end) us ∅).
      { unfold f_closest_point_by_distance_kdtree. by destruct them. }
      rewrite Ek. clear Ek.
      assert (Hq : forall p, p ∈ us -> exists t, them !! (kd (map pt_xy them) (pt_xy p)).1 = Some t /\ t ∈ them /\
        forall t', t' ∈ them -> (pixel2 (pt_xy p) (pt_xy t) <= pixel2 (pt_xy p) (pt_xy t'))%Q).
      { intros p Hp. destruct (Hkd (map pt_xy them) (pt_xy p)) as (q & Eq & Hmin & _).
        { destruct them; [done|]. by intros [=]. }
        { by apply cells_of. }
        { by apply Hus. }
        apply map_pt_xy in Eq as (t & Et & ->). exists t. split; [done|]. split; [by eapply elem_of_list_lookup_2|].
        assert (S : forall a b, pixel2 a b = pixel2 b a) by (intros a b; unfold pixel2; f_equal; ring).
        intros t' Ht'. rewrite (S (pt_xy p) (pt_xy t)), (S (pt_xy p) (pt_xy t')). apply Hmin. apply elem_of_list_fmap. eauto. }
      assert (Hall : forall l (d0 : gmap pte pte), (forall p, p ∈ l -> p ∈ us) -> exists d, foldM (fun p (d : gmap pte pte) => match them !! (kd (map pt_xy them) (pt_xy p)).1 with
          | None => Err IndexError | Some t => Ok (<[p := t]> d) end) l d0 = Ok d /\
        (forall p, p ∈ l -> exists t, d !! p = Some t /\ t ∈ them /\
           forall t', t' ∈ them -> (pixel2 (pt_xy p) (pt_xy t) <= pixel2 (pt_xy p) (pt_xy t'))%Q) /\
        (forall p, p ∉ l -> d !! p = d0 !! p)).
      { clear Hus. induction l as [|p l IH]; intros d0 Hl; cbn [foldM].
        { exists d0. split; [done|]. split; [|done]. intros p H. by apply elem_of_nil in H. }
        destruct (Hq p) as (t & Et & Ht & Hmin); [apply Hl; by left|]. rewrite Et. cbn [rbind].
        destruct (IH (<[p := t]> d0) ltac:(intros; apply Hl; by right)) as (d & -> & H1 & H2). exists d. split; [done|]. split.
        - intros q Hq'. destruct (decide (q ∈ l)) as [Hql|Hql]; [by apply H1|].
          apply elem_of_cons in Hq' as [->|Hq']; [|done]. exists t. rewrite (H2 p Hql), lookup_insert. done.
        - intros q Hq'. apply not_elem_of_cons in Hq' as [Hn Hq']. by rewrite (H2 q Hq'), lookup_insert_ne. }
      destruct (Hall us ∅ ltac:(done)) as (d & E & H1 & H2). exists d.
      split; [done|]. split; [done|]. intros p Hp. by rewrite (H2 p Hp).
  Qed.

  (** ** Pairs *)
  Context (m : datamap) (g1 g5 : b64).
  Hypothesis E1 : Q2R (gt1 (dm_gt m)) = B2R g1.
  Hypothesis E5 : Q2R (gt5 (dm_gt m)) = B2R g5.
  Hypothesis S1 : usual_size g1.
  Hypothesis S5 : usual_size g5.
  Notation root p t := (sqrt (Q2R (distance2 m (pt_xy p) (pt_xy t)))).

  Lemma dist_pos p t : 0 <= Q2R (distance2 m p t).
  Proof. rewrite (Q2R_distance m p t g1 g5 E1 E5). nra. Qed.
  Lemma root_sq (p t : pte) : root p t * root p t = Q2R (distance2 m (pt_xy p) (pt_xy t)).
  Proof. apply sqrt_sqrt, dist_pos. Qed.
  Definition slack : Q := 1 + (1 # 2 ^ 48).
  Lemma slack_value : Q2R slack = 1 + bpow radix2 (-48).
  Proof. unfold slack. rewrite Q2R_plus. unfold Q2R at 2. change (-48)%Z with (- (48))%Z. rewrite bpn by lia. cbn [Qnum Qden].
    change (Z.pos (2 ^ 48)) with (2 ^ 48)%Z. unfold Q2R. cbn [Qnum Qden]. lra. Qed.

  Opaque slack distance2.

  Lemma loose_pair d d' (p t p' t' : pte) : near d (root p t) -> near d' (root p' t') -> B2R d <= B2R d' ->
    (distance2 m (pt_xy p) (pt_xy t) <= slack * distance2 m (pt_xy p') (pt_xy t'))%Q.
  Proof.
    intros N N' Hle. apply Rle_Qle. rewrite (Q2R_mult slack (distance2 m (pt_xy p') (pt_xy t'))), slack_value, <- (root_sq p t), <- (root_sq p' t').
    apply (near_loose d d'); [apply sqrt_pos|apply sqrt_pos|done..].
  Qed.

  Lemma square_value p t : square_pixels m -> Q2R (distance2 m p t) = (Rabs (B2R g1) * Rabs (B2R g1)) * IZR (pz p t).
  Proof.
    intros [Hs _]. apply Qeq_eqR in Hs. rewrite !Q2R_mult, E1, E5 in Hs. rewrite (Q2R_distance m p t g1 g5 E1 E5).
    rewrite <- Rabs_mult, Rabs_pos_eq by nra. unfold pz. rewrite plus_IZR, !mult_IZR.
    transitivity (IZR (p.1 - t.1) * IZR (p.1 - t.1) * (B2R g1 * B2R g1) + IZR (p.2 - t.2) * IZR (p.2 - t.2) * (B2R g5 * B2R g5)); [ring|].
    rewrite <- Hs. ring.
  Qed.
  Lemma size_pos : 0 < Rabs (B2R g1).
  Proof. destruct S1 as [_ [H _]]. eapply Rlt_le_trans; [apply bpow_gt_0|done]. Qed.

  Lemma square_le p t p' t' : square_pixels m -> (pixel2 p t <= pixel2 p' t')%Q -> (distance2 m p t <= distance2 m p' t')%Q.
  Proof.
    intros Hs Hle. apply Rle_Qle. rewrite !square_value by done. apply pz_le, IZR_le in Hle. pose proof size_pos.
    apply Rmult_le_compat_l; [nra|done].
  Qed.

  Lemma square_pair d d' (p t p' t' : pte) : square_pixels m -> usual_cell (pt_xy p) -> usual_cell (pt_xy t) ->
    usual_cell (pt_xy p') -> usual_cell (pt_xy t') ->
    near d (root p t) -> near d' (root p' t') -> B2R d <= B2R d' ->
    (distance2 m (pt_xy p) (pt_xy t) <= distance2 m (pt_xy p') (pt_xy t'))%Q.
  Proof.
    intros Hs Up Ut Up' Ut' N N' Hle. apply square_le; [done|]. apply pz_le.
    assert (R : forall p t : pte, root p t = Rabs (B2R g1) * sqrt (IZR (pz (pt_xy p) (pt_xy t)))).
    { intros. rewrite square_value, sqrt_mult_alt by (try done; pose proof size_pos; nra). by rewrite sqrt_square by apply Rabs_pos. }
    rewrite R in N, N'. apply (near_exact d d' (Rabs (B2R g1))); [apply size_pos| | |done..].
    - pose proof (pz_range _ _ Up Ut). lia.
    - pose proof (pz_range _ _ Up' Ut'). lia.
  Qed.

  (** The pair of the search: least computed length. *)
  Lemma brute_pair us them p0 t0 : usual_cells us -> usual_cells them -> p0 ∈ us -> t0 ∈ them ->
    (distance2 m (pt_xy p0) (pt_xy t0) < inject_Z (2 ^ 124))%Q ->
    exists p t d, f_closest_points_between_sets_brute_force hyp g1 g5 us them = Ok (Some (p, t), Some d) /\ p ∈ us /\ t ∈ them /\
      near d (root p t) /\
      forall p' t', p' ∈ us -> t' ∈ them -> exists d', near d' (root p' t') /\ B2R d <= B2R d'.
  Proof.
    intros Hus Hth Hp0 Ht0 H0. unfold f_closest_points_between_sets_brute_force.
    pose proof (fun (p t : pte) Hp Ht => distance_near hyp Hh Hz m (pt_xy p) (pt_xy t) g1 g5 E1 E5 S1 S5 (Hus p Hp) (Hth t Ht)) as HD.
    destruct (pairs_least (f_distance hyp g1 g5) us them) with (p0 := p0) (t0 := t0) as (p & t & d & -> & Hp & Ht & Ed & Hmin); [|done|done| |].
    - intros p t Hp Ht. destruct (HD p t Hp Ht) as (d & E & N). exists d. split; [done|apply N].
    - intros d Ed. destruct (HD p0 t0 Hp0 Ht0) as (d1 & E & [_ [_ N]]). assert (d1 = d) as -> by congruence.
      assert (root p0 t0 <= bpow radix2 62).
      { rewrite <- (sqrt_square (bpow radix2 62)) by apply bpow_ge_0. apply sqrt_le_1; [apply dist_pos|pose proof (bpow_ge_0 radix2 62); nra|].
        apply Qlt_Rlt in H0. unfold Q2R in H0 at 2. cbn [Qnum Qden inject_Z] in H0. rewrite <- bpow_plus, bp by lia.
        change (2 ^ (62 + 62))%Z with (2 ^ 124)%Z. lra. }
      pose proof u_small. pose proof (sqrt_pos (Q2R (distance2 m (pt_xy p0) (pt_xy t0)))).
      pose proof (bpow_gt_0 radix2 62). change 63%Z with (1 + 62)%Z. rewrite bpow_plus. simpl (bpow radix2 1). nra.
    - exists p, t, d. split; [done|]. split; [done|]. split; [done|]. split.
      + destruct (HD p t Hp Ht) as (d1 & E & N). by assert (d1 = d) as -> by congruence.
      + intros p' t' Hp' Ht'. destruct (HD p' t' Hp' Ht') as (d' & E' & N'). exists d'. split; [done|]. by eapply Hmin.
  Qed.

  Lemma tree_pair us them : usual_cells us -> usual_cells them -> us <> [] -> them <> [] ->
    exists p t d, f_closest_points_between_sets_kdtree hyp g1 g5 kd us them = Ok (Some (p, t), Some d) /\ p ∈ us /\ t ∈ them /\
      near d (root p t) /\ forall p' t', p' ∈ us -> t' ∈ them -> (pixel2 (pt_xy p) (pt_xy t) <= pixel2 (pt_xy p') (pt_xy t'))%Q.
  Proof.
    intros Hus Hth Nu Nt.
    assert (Ek : f_closest_points_between_sets_kdtree hyp g1 g5 kd us them =
      match f_argmin (map (fun t => (kd (map pt_xy us) (pt_xy t)).2) them) with
       | None => Err ValueError
       | Some idx => match them !! idx with
          | None => Err IndexError
          | Some theirs => match us !! (kd (map pt_xy us) (pt_xy theirs)).1 with
             | None => Err IndexError
             | Some ours => let* distance := f_distance hyp g1 g5 (pt_xy ours) (pt_xy theirs) in Ok (Some (ours, theirs), Some distance)
             end end end).
    { unfold f_closest_points_between_sets_kdtree. by destruct us. }
    rewrite Ek. clear Ek.
    set (us2d := map pt_xy us). assert (N2 : us2d <> []) by (unfold us2d; destruct us; [done|]; by intros [=]).
    assert (HT : forall t, t ∈ them -> exists p, us !! (kd us2d (pt_xy t)).1 = Some p /\ p ∈ us /\
      (forall p', p' ∈ us -> (pixel2 (pt_xy p) (pt_xy t) <= pixel2 (pt_xy p') (pt_xy t))%Q) /\
      near (kd us2d (pt_xy t)).2 (sqrt (Q2R (pixel2 (pt_xy p) (pt_xy t))))).
    { intros t Ht. destruct (Hkd us2d (pt_xy t) N2 (cells_of us Hus) (Hth t Ht)) as (q & Eq & Hmin & Fd & Hd). apply map_pt_xy in Eq as (p & Ep & ->).
      exists p. split; [done|]. split; [by eapply elem_of_list_lookup_2|]. split.
      - intros p' Hp'. apply Hmin. apply elem_of_list_fmap. eauto.
      - split; [done|]. replace (bpow radix2 (-51)) with (4 * u) in Hd.
        2:{ change (-51)%Z with (2 + -53)%Z. rewrite bpow_plus. simpl (bpow radix2 2). lra. }
        pose proof u_small. pose proof (sqrt_pos (Q2R (pixel2 (pt_xy p) (pt_xy t)))). apply Rabs_le_inv in Hd. nra. }
    destruct (argmin_spec (map (fun t => (kd us2d (pt_xy t)).2) them)) as (i & e & Ei & Hi & Hmin).
    { destruct them; [done|]. by intros [=]. }
    { intros d Hd. apply elem_of_list_fmap in Hd as (t & -> & Ht). destruct (HT t Ht) as (p & _ & _ & _ & [F _]). done. }
    rewrite Ei. apply list_lookup_fmap_inv in Hi as (t & -> & Hi). rewrite Hi.
    pose proof (elem_of_list_lookup_2 _ _ _ Hi) as Ht. destruct (HT t Ht) as (p & Ep & Hp & Hpm & Np). rewrite Ep.
    destruct (distance_near hyp Hh Hz m (pt_xy p) (pt_xy t) g1 g5 E1 E5 S1 S5 (Hus p Hp) (Hth t Ht)) as (d & -> & Nd). cbn [rbind].
    exists p, t, d. split; [done|]. split; [done|]. split; [done|]. split; [done|]. intros p' t' Hp' Ht'.
    destruct (HT t' Ht') as (p2 & _ & Hp2 & Hpm2 & N2').
    eapply Qle_trans; [|by apply Hpm2].
    apply (pixel_exact (kd us2d (pt_xy t)).2 (kd us2d (pt_xy t')).2); [by apply Hus|by apply Hth|by apply Hus|by apply Hth|done|done|].
    apply Hmin. apply elem_of_list_fmap. eauto.
  Qed.

  Lemma closest_pair us them p0 t0 : usual_cells us -> usual_cells them -> p0 ∈ us -> t0 ∈ them ->
    (distance2 m (pt_xy p0) (pt_xy t0) < inject_Z (2 ^ 124))%Q ->
    (length us + length them < 100)%nat \/ square_pixels m ->
    exists p t d, f_find_closest_points hyp g1 g5 kd us them = Ok (Some (p, t), Some d) /\ p ∈ us /\ t ∈ them /\
      length_of d (root p t) /\
      forall p' t', p' ∈ us -> t' ∈ them ->
        (distance2 m (pt_xy p) (pt_xy t) <= slack * distance2 m (pt_xy p') (pt_xy t'))%Q /\
        (square_pixels m -> (distance2 m (pt_xy p) (pt_xy t) <= distance2 m (pt_xy p') (pt_xy t'))%Q).
  Proof.
    intros Hus Hth Hp0 Ht0 H0 Hor. unfold f_find_closest_points. destruct (Nat.ltb_spec (length us + length them) 100) as [Hl|Hl].
    - destruct (brute_pair us them p0 t0 Hus Hth Hp0 Ht0 H0) as (p & t & d & -> & Hp & Ht & N & Hmin).
      exists p, t, d. split; [done|]. split; [done|]. split; [done|]. split; [apply near_length; [apply sqrt_pos|done]|].
      intros p' t' Hp' Ht'. destruct (Hmin p' t' Hp' Ht') as (d' & N' & Hle). split; [by eapply loose_pair|]. intros Hs.
      eapply square_pair; [done|by apply Hus|by apply Hth|by apply Hus|by apply Hth|done|done|done].
    - destruct Hor as [Hor|Hs]; [lia|].
      destruct (tree_pair us them Hus Hth) as (p & t & d & -> & Hp & Ht & N & Hmin); [by intros ->; apply elem_of_nil in Hp0|by intros ->; apply elem_of_nil in Ht0|].
      exists p, t, d. split; [done|]. split; [done|]. split; [done|]. split; [apply near_length; [apply sqrt_pos|done]|].
      intros p' t' Hp' Ht'. pose proof (square_le _ _ _ _ Hs (Hmin p' t' Hp' Ht')) as Hle. split; [|done].
      apply Rle_Qle. apply Qle_Rle in Hle. rewrite (Q2R_mult slack (distance2 m (pt_xy p') (pt_xy t'))), slack_value. pose proof (dist_pos (pt_xy p') (pt_xy t')).
      pose proof (bpow_gt_0 radix2 (-48)). nra.
  Qed.
End near.

(** ** The member nearest to a position *)
Section member.
  Context (hyp : b64 -> b64 -> b64).
  Hypothesis Hh : good_hypot hyp.
  Hypothesis Hz : exact_at_zero hyp.
  Context (tx ty : b64) (k l : Z).
  Hypothesis Hx : half_way tx k.
  Hypothesis Hy : half_way ty l.
  Definition quad (p : xy) : Z := ((k - 2 * p.1) * (k - 2 * p.1) + (l - 2 * p.2) * (l - 2 * p.2))%Z.

  Lemma quad_dist p : (dist2_to (k # 2) (l # 2) p == quad p # 4)%Q.
  Proof.
    assert (H : forall j z : Z, ((j # 2) - inject_Z z == (j - 2 * z) # 2)%Q).
    { intros. unfold Qeq, Qminus, Qplus, Qopp, inject_Z. cbn [Qnum Qden Pos.mul]. lia. }
    unfold dist2_to. rewrite !H. unfold quad, Qeq, Qplus, Qmult. cbn [Qnum Qden Pos.mul Pos.add]. rewrite ?Pos2Z.inj_mul. lia.
  Qed.
  Lemma quad_le p q : (quad p <= quad q)%Z -> (dist2_to (k # 2) (l # 2) p <= dist2_to (k # 2) (l # 2) q)%Q.
  Proof. intros H. rewrite !quad_dist. unfold Qle. cbn [Qnum Qden]. lia. Qed.
  Lemma quad_range p : usual_cell p -> (0 <= quad p <= 2 ^ 47)%Z.
  Proof.
    destruct Hx as (_ & _ & Hk), Hy as (_ & _ & Hl). unfold usual_cell, quad. change (2 ^ 47)%Z with (2 ^ 23 * 2 ^ 23 + 2 ^ 23 * 2 ^ 23)%Z.
    intros [H1 H2]. assert (Z.abs (k - 2 * p.1) <= 2 ^ 23)%Z by lia. assert (Z.abs (l - 2 * p.2) <= 2 ^ 23)%Z by lia. nia.
  Qed.

  Lemma sub_near t j z : half_way t j -> (0 <= z < 2 ^ 22)%Z -> exists f, f_int z = Ok f /\ is_finite (f_sub t f) = true /\
    Rabs (B2R (f_sub t f) - IZR (j - 2 * z) * / 2) <= u * Rabs (IZR (j - 2 * z) * / 2).
  Proof.
    intros (Ft & Vt & Hj) Hzr. destruct (fint_diff z) as (f & E & Ff & Vf); [lia|]. exists f. split; [done|].
    assert (EV : B2R t - B2R f = IZR (j - 2 * z) * / 2) by (rewrite Vt, Vf, minus_IZR, mult_IZR; lra).
    destruct (fsub_ok t f) as [S1 S2]; [|done|done|].
    { rewrite EV, Rabs_mult, <- abs_IZR, (Rabs_pos_eq (/ 2)) by lra. apply Rle_trans with (bpow radix2 24).
      - rewrite bp by lia. assert (0 <= IZR (Z.abs (j - 2 * z)) <= IZR (2 ^ 24)) by (split; apply IZR_le; lia). lra.
      - apply bpow_le. lia. }
    split; [done|]. rewrite S1, EV. destruct (decide (j - 2 * z = 0)%Z) as [->|Nz].
    - rewrite Rmult_0_l, round_0 by apply valid_rnd_N. rewrite Rminus_0_r, Rabs_R0. lra.
    - apply rnd_rel. rewrite Rabs_mult, <- abs_IZR, (Rabs_pos_eq (/ 2)) by lra. assert (1 <= IZR (Z.abs (j - 2 * z))) by (apply IZR_le; lia).
      apply Rle_trans with (bpow radix2 (-1)); [apply bpow_le; lia|]. simpl (bpow radix2 (-1)). lra.
  Qed.

  Lemma member_near p : usual_cell p -> exists d, f_distanceCalc hyp tx ty p = Ok d /\ near d (/ 2 * sqrt (IZR (quad p))).
  Proof.
    intros Hp. destruct (sub_near tx k p.1 Hx (proj1 Hp)) as (fx & Ex & Fx & Vx). destruct (sub_near ty l p.2 Hy (proj2 Hp)) as (fy & Ey & Fy & Vy).
    unfold f_distanceCalc. rewrite Ex, Ey. cbn [rbind]. eexists. split; [reflexivity|].
    assert (E : / 2 * sqrt (IZR (quad p)) = hyp_of (IZR (k - 2 * p.1) * / 2) (IZR (l - 2 * p.2) * / 2)).
    { unfold hyp_of. replace (IZR (k - 2 * p.1) * / 2 * (IZR (k - 2 * p.1) * / 2) + IZR (l - 2 * p.2) * / 2 * (IZR (l - 2 * p.2) * / 2))
        with (/ 2 * / 2 * IZR (quad p)) by (unfold quad; rewrite plus_IZR, !mult_IZR; field).
      rewrite sqrt_mult_alt by lra. by rewrite sqrt_square by lra. }
    rewrite E. apply hyp_near; [done..|]. destruct Hx as (_ & _ & Hk), Hy as (_ & _ & Hl), Hp as [H1 H2].
    assert (bpow radix2 (-300) <= Rabs (/ 2) <= bpow radix2 300).
    { rewrite Rabs_pos_eq by lra. replace (/ 2) with (bpow radix2 (-1)) by (simpl; lra). split; apply bpow_le; lia. }
    apply hyp_range; [lia|lia|done|done].
  Qed.

  Lemma member_le p q d d' : usual_cell p -> usual_cell q -> f_distanceCalc hyp tx ty p = Ok d -> f_distanceCalc hyp tx ty q = Ok d' ->
    B2R d <= B2R d' -> (quad p <= quad q)%Z.
  Proof.
    intros Hp Hq E E' Hle. destruct (member_near p Hp) as (e & Ee & N). destruct (member_near q Hq) as (e' & Ee' & N').
    assert (e = d) as -> by congruence. assert (e' = d') as -> by congruence.
    apply (near_exact d d' (/ 2)); [lra|by apply quad_range|by apply quad_range|done..].
  Qed.

  Lemma member_loop pts : (forall p, p ∈ pts -> usual_cell p.1) -> forall best bd, usual_cell best.1 -> f_distanceCalc hyp tx ty best.1 = Ok bd ->
    exists p, f_closestPoint_loop hyp tx ty pts best bd = Ok p /\ p ∈ best :: pts /\ forall q, q ∈ best :: pts -> (quad p.1 <= quad q.1)%Z.
  Proof.
    induction pts as [|a pts IH]; intros Hpts best bd Ub Eb; cbn [f_closestPoint_loop].
    { exists best. split; [done|]. split; [by left|]. intros q Hq. apply elem_of_list_singleton in Hq as ->. lia. }
    assert (Ua : usual_cell a.1) by (apply Hpts; by left). destruct (member_near a.1 Ua) as (d & Ed & Nd). rewrite Ed. cbn [rbind].
    destruct (member_near best.1 Ub) as (b & Eb' & Nb). assert (b = bd) as -> by congruence. clear Eb'.
    pose proof (Beqb_correct 53 1024 d (B754_zero false) (proj1 Nd) eq_refl) as Hq. rewrite Hq.
    destruct (Req_bool_spec (B2R d) (B2R (B754_zero (prec:=53) (emax:=1024) false))) as [H0|H0].
    - exists a. split; [done|]. split; [right; by left|]. intros q _. simpl in H0. destruct Nd as [_ [Nd _]]. rewrite H0 in Nd.
      pose proof u_small. pose proof (sqrt_pos (IZR (quad a.1))). assert (sqrt (IZR (quad a.1)) = 0) as S0 by nra.
      pose proof (quad_range a.1 Ua). apply sqrt_eq_0 in S0; [|apply IZR_le; lia]. apply eq_IZR in S0. rewrite S0.
      unfold quad. apply Z.add_nonneg_nonneg; apply Z.square_nonneg.
    - rewrite ltb_finite by (apply Nd || apply Nb). destruct (Rlt_bool_spec (B2R d) (B2R bd)) as [Hlt|Hlt].
      + destruct (IH ltac:(intros; apply Hpts; by right) a d Ua Ed) as (p & -> & Hp & Hmin). exists p. split; [done|]. split; [by right|].
        intros q [->|Hq']%elem_of_cons; [|by apply Hmin].
        pose proof (Hmin a ltac:(by left)). pose proof (member_le a.1 best.1 d bd Ua Ub Ed Eb ltac:(lra)). lia.
      + destruct (IH ltac:(intros; apply Hpts; by right) best bd Ub Eb) as (p & -> & Hp & Hmin). exists p. split; [done|]. split.
        { apply elem_of_cons in Hp as [->|Hp]; [by left|right; by right]. }
        intros q [->|[->|Hq']%elem_of_cons]%elem_of_cons; [apply Hmin; by left| |apply Hmin; by right].
        pose proof (Hmin best ltac:(by left)). pose proof (member_le best.1 a.1 bd d Ub Ua Eb Ed ltac:(lra)). lia.
  Qed.

  Lemma closest_member p0 pts : p0.2 = None -> (forall p, p ∈ p0 :: pts -> usual_cell p.1) ->
    exists p, f_closestPoint hyp tx ty (p0 :: pts) = Ok p /\ p ∈ map fst (p0 :: pts) /\
      forall q, q ∈ map fst (p0 :: pts) -> (dist2_to (k # 2) (l # 2) p <= dist2_to (k # 2) (l # 2) q)%Q.
  Proof.
    intros H0 Hu. unfold f_closestPoint. rewrite H0. assert (U0 : usual_cell p0.1) by (apply Hu; by left).
    destruct (member_near p0.1 U0) as (d & Ed & _). rewrite Ed. cbn [rbind].
    destruct (member_loop pts ltac:(intros; apply Hu; by right) p0 d U0 Ed) as (p & -> & Hp & Hmin). cbn [rbind]. exists p.1. split; [done|]. split.
    - apply elem_of_list_fmap. eauto.
    - intros q Hq. apply elem_of_list_fmap in Hq as (a & -> & Ha). apply quad_le. by apply Hmin.
  Qed.
End member.
