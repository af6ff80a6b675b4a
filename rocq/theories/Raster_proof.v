(** Lemmas about the raster layer. *)
From Verif Require Import Raster_model Raster_spec.
From Coq Require Import Lqa Qfield Qabs.
From Coq Require Import ZifyBool.
Local Open Scope Z_scope.

Lemma coord_inbounds_spec m x y : coord_inbounds m x y = true <-> in_map m (x, y).
Proof. unfold coord_inbounds, in_map; simpl. lia. Qed.

Lemma np_read_inb m x y : in_map m (x, y) -> np_read m x y = Ok (dm_cell m x y).
Proof.
  unfold in_map, np_read, np_index; simpl. intros [[??][??]].
  replace ((0 <=? x) && (x <=? dm_max_x m)) with true by lia.
  replace ((0 <=? y) && (y <=? dm_max_y m)) with true by lia. done.
Qed.

(** Value reported for a neighbour. *)
Definition nb_val (m : datamap) (q : xy) : option Z :=
  if coord_inbounds m q.1 q.2 then Some (dm_cell m q.1 q.2) else dm_nodata m.
Definition shift_of (x y : Z) (d : Z * Z) : xy := (x + d.1, y + d.2).

Lemma iterate_shifts_eq m x y l :
  iterate_shifts m x y l = Ok (map (fun d => (shift_of x y d, nb_val m (shift_of x y d))) l).
Proof.
  induction l as [|[dx dy] l IH]; [done|]. cbn [iterate_shifts map].
  unfold nb_val at 1, shift_of at 1 2 3 4 5; cbn [fst snd].
  destruct (coord_inbounds m (x + dx) (y + dy)) eqn:Hb.
  - rewrite np_read_inb by (by apply coord_inbounds_spec). cbn. by rewrite IH.
  - cbn. by rewrite IH.
Qed.

Definition full_nbrs (m : datamap) (x y : Z) : list (xy * option Z) :=
  map (fun d => (shift_of x y d, nb_val m (shift_of x y d))) FULL_SHIFT_LIST.

Lemma iterateFull_eq m x y : iterateFull m x y = Ok (full_nbrs m x y).
Proof. apply iterate_shifts_eq. Qed.

Lemma nb_val_reported m q : reported m q (nb_val m q).
Proof.
  unfold reported, nb_val. destruct q as [x y]; cbn.
  destruct (coord_inbounds m x y) eqn:Hb.
  - left. split; [by apply coord_inbounds_spec|done].
  - right. split; [|done]. intros Hm%coord_inbounds_spec. congruence.
Qed.

Lemma reported_det m q v : reported m q v <-> v = nb_val m q.
Proof.
  split; [|intros ->; apply nb_val_reported].
  pose proof (nb_val_reported m q) as H. unfold reported in *.
  intuition congruence.
Qed.

Lemma full_shift_adj x y q :
  (exists d, d ∈ FULL_SHIFT_LIST /\ q = shift_of x y d) <-> adj8 (x, y) q.
Proof.
  unfold adj8, FULL_SHIFT_LIST, shift_of. destruct q as [a b]; cbn. split.
  - intros ([dx dy] & Hd & [= -> ->]). cbn.
    rewrite !elem_of_cons, elem_of_nil in Hd.
    destruct_or! Hd; try done; injection Hd as -> ->; (split; [intros [=]; lia|lia]).
  - intros (Hne & H1 & H2). exists (a - x, b - y). cbn. split; [|f_equal; lia].
    assert (x <> a \/ y <> b) as Hne'
      by (destruct (decide (x = a)); [right; intros ->; apply Hne; congruence|by left]).
    assert (a - x = -1 \/ a - x = 0 \/ a - x = 1) as [E|[E|E]] by lia;
    assert (b - y = -1 \/ b - y = 0 \/ b - y = 1) as [F|[F|F]] by lia;
    rewrite E, F; try (exfalso; lia);
    repeat first [by apply elem_of_list_here | apply elem_of_list_further].
Qed.

Lemma orth_shift_adj x y q :
  (exists d, d ∈ ORTHOGONAL_SHIFT_LIST /\ q = shift_of x y d) <-> adj4 (x, y) q.
Proof.
  unfold adj4, ORTHOGONAL_SHIFT_LIST, shift_of. destruct q as [a b]; cbn. split.
  - intros ([dx dy] & Hd & [= -> ->]). cbn.
    rewrite !elem_of_cons, elem_of_nil in Hd. destruct_or! Hd; try done; injection Hd as -> ->; lia.
  - intros H. exists (a - x, b - y). cbn. split; [|f_equal; lia].
    assert (a - x = -1 \/ a - x = 0 \/ a - x = 1) as [E|[E|E]] by lia;
    assert (b - y = -1 \/ b - y = 0 \/ b - y = 1) as [F|[F|F]] by lia;
    rewrite E, F; try (exfalso; lia);
    repeat first [by apply elem_of_list_here | apply elem_of_list_further].
Qed.

Lemma diag_shift_adj x y q :
  (exists d, d ∈ DIAGONAL_SHIFT_LIST /\ q = shift_of x y d) <-> adjD (x, y) q.
Proof.
  unfold adjD, DIAGONAL_SHIFT_LIST, shift_of. destruct q as [a b]; cbn. split.
  - intros ([dx dy] & Hd & [= -> ->]). cbn.
    rewrite !elem_of_cons, elem_of_nil in Hd. destruct_or! Hd; try done; injection Hd as -> ->; lia.
  - intros H. exists (a - x, b - y). cbn. split; [|f_equal; lia].
    assert (a - x = -1 \/ a - x = 1) as [E|E] by lia;
    assert (b - y = -1 \/ b - y = 1) as [F|F] by lia;
    rewrite E, F; try (exfalso; lia);
    repeat first [by apply elem_of_list_here | apply elem_of_list_further].
Qed.

Lemma shift_map_nodup x y (m : datamap) l :
  NoDup l -> NoDup (map fst (map (fun d => (shift_of x y d, nb_val m (shift_of x y d))) l)).
Proof.
  intros Hl. rewrite map_map. cbn. apply NoDup_fmap_2; [|done].
  intros [a b] [c d] [= ? ?]. f_equal; lia.
Qed.

Lemma elem_of_shift_map m x y l q v :
  (q, v) ∈ map (fun d => (shift_of x y d, nb_val m (shift_of x y d))) l <->
  (exists d, d ∈ l /\ q = shift_of x y d) /\ reported m q v.
Proof.
  rewrite reported_det. rewrite elem_of_list_fmap. split.
  - intros (d & [= -> ->] & Hd). eauto.
  - intros [(d & Hd & ->) ->]. eauto.
Qed.

Lemma elem_of_full_nbrs m x y q v :
  (q, v) ∈ full_nbrs m x y <-> adj8 (x, y) q /\ reported m q v.
Proof. unfold full_nbrs. by rewrite elem_of_shift_map, full_shift_adj. Qed.

Lemma iterateFull_spec m x y :
  exists l, iterateFull m x y = Ok l /\ NoDup (map fst l) /\ length l = 8%nat /\
    forall q v, (q, v) ∈ l <-> adj8 (x, y) q /\ reported m q v.
Proof.
  exists (full_nbrs m x y). split; [apply iterateFull_eq|]. split.
  - apply shift_map_nodup. compute_done.
  - split; [done|]. intros q v. apply elem_of_full_nbrs.
Qed.

Lemma iterateOrthogonal_spec m x y :
  exists l, iterateOrthogonal m x y = Ok l /\ NoDup (map fst l) /\ length l = 4%nat /\
    forall q v, (q, v) ∈ l <-> adj4 (x, y) q /\ reported m q v.
Proof.
  eexists. split; [apply iterate_shifts_eq|]. split.
  - apply shift_map_nodup. compute_done.
  - split; [done|]. intros q v. by rewrite elem_of_shift_map, orth_shift_adj.
Qed.

Lemma iterateDiagonal_spec m x y :
  exists l, iterateDiagonal m x y = Ok l /\ NoDup (map fst l) /\ length l = 4%nat /\
    forall q v, (q, v) ∈ l <-> adjD (x, y) q /\ reported m q v.
Proof.
  eexists. split; [apply iterate_shifts_eq|]. split.
  - apply shift_map_nodup. compute_done.
  - split; [done|]. intros q v. by rewrite elem_of_shift_map, diag_shift_adj.
Qed.

(** The eight neighbours are yielded clockwise starting at the one above. *)
Lemma iterateFull_clockwise m x y :
  exists l, iterateFull m x y = Ok l /\
    (exists v, head l = Some ((x - 1, y), v)) /\
    forall i p q v w, l !! i = Some (p, v) -> l !! S i = Some (q, w) ->
      adj4 p q /\
      (* turning clockwise: cross product of the two offsets is negative in
         (row, column) axes with rows growing downwards *)
      (p.1 - x) * (q.2 - y) - (p.2 - y) * (q.1 - x) < 0.
Proof.
  exists (full_nbrs m x y). split; [apply iterateFull_eq|]. split.
  - cbn. unfold shift_of; cbn. eexists. do 3 f_equal; lia.
  - intros i p q v w H1 H2.
    do 7 (destruct i as [|i]; [
      injection H1 as <- <-; injection H2 as <- <-; unfold adj4, shift_of; cbn; lia|]).
    destruct i; cbn in H2; [done|]. destruct i; done.
Qed.

Lemma is_map_edge_spec m q : in_map m q -> is_map_edge m q.1 q.2 = true <-> on_border m q.
Proof.
  unfold on_border, is_map_edge. intros Hm. rewrite !orb_true_iff, !Z.eqb_eq. tauto.
Qed.

(** Symmetry of adjacency. *)
Lemma adj8_sym p q : adj8 p q -> adj8 q p.
Proof. unfold adj8. intros (?&?&?). split; [congruence|]. lia. Qed.

(** ** Coordinates *)
Lemma Qfloor_inject (z : Z) : Qfloor (inject_Z z) = z.
Proof. apply Qfloor_Z. Qed.

Lemma py_round_proper q r : (q == r)%Q -> py_round q = py_round r.
Proof.
  intros H. unfold py_round.
  rewrite (Qfloor_comp _ _ H).
  assert (q - inject_Z (Qfloor r) == r - inject_Z (Qfloor r))%Q as E by (rewrite H; reflexivity).
  assert (Qle_bool (1#2) (q - inject_Z (Qfloor r)) = Qle_bool (1#2) (r - inject_Z (Qfloor r))) as ->.
  { apply eq_true_iff_eq. rewrite !Qle_bool_iff. by rewrite E. }
  assert (Qeq_bool (q - inject_Z (Qfloor r)) (1#2) = Qeq_bool (r - inject_Z (Qfloor r)) (1#2)) as ->.
  { apply eq_true_iff_eq. rewrite !Qeq_bool_iff. by rewrite E. }
  done.
Qed.

Lemma py_round_Z z : py_round (inject_Z z) = z.
Proof.
  unfold py_round. rewrite Qfloor_Z.
  assert (inject_Z z - inject_Z z == 0)%Q as E by ring.
  destruct (Qle_bool (1#2) (inject_Z z - inject_Z z)) eqn:H; [|done].
  apply Qle_bool_iff in H. rewrite E in H. exfalso. by compute in H.
Qed.

(** [py_round] returns a nearest integer. *)
Lemma py_round_nearest q : (Qabs (q - inject_Z (py_round q)) <= 1 # 2)%Q.
Proof.
  pose proof (Qfloor_le q) as H1. pose proof (Qlt_floor q) as H2.
  rewrite inject_Z_plus in H2. unfold py_round.
  destruct (Qle_bool (1#2) (q - inject_Z (Qfloor q))) eqn:E1.
  - apply Qle_bool_iff in E1.
    destruct (Qeq_bool (q - inject_Z (Qfloor q)) (1#2)) eqn:E2.
    + apply Qeq_bool_iff in E2. destruct (Z.even _).
      * apply Qabs_Qle_condition. split; lra.
      * rewrite inject_Z_plus. apply Qabs_Qle_condition.
        change (inject_Z 1) with 1%Q in *. split; lra.
    + rewrite inject_Z_plus. apply Qabs_Qle_condition.
      change (inject_Z 1) with 1%Q in *. split; lra.
  - assert (~ (1#2 <= q - inject_Z (Qfloor q)))%Q as E3.
    { intros E%Qle_bool_iff. congruence. }
    apply Qabs_Qle_condition. split; lra.
Qed.

Lemma latlon_round_trip m x y :
  (gt2 (dm_gt m) == 0)%Q -> (gt4 (dm_gt m) == 0)%Q ->
  ~ (gt1 (dm_gt m) == 0)%Q -> ~ (gt5 (dm_gt m) == 0)%Q ->
  latlong_to_xy m (xy_to_latlon m x y).1 (xy_to_latlon m x y).2 = Ok (x, y).
Proof.
  intros H2 H4 H1 H5. unfold latlong_to_xy, xy_to_latlon. cbn.
  destruct (Qeq_bool (gt1 (dm_gt m)) 0) eqn:E1; [by apply Qeq_bool_iff in E1|].
  destruct (Qeq_bool (gt5 (dm_gt m)) 0) eqn:E5; [by apply Qeq_bool_iff in E5|].
  do 2 f_equal.
  - rewrite <-(py_round_Z x) at 2. apply py_round_proper. rewrite H4. field. done.
  - rewrite <-(py_round_Z y) at 2. apply py_round_proper. rewrite H2. field. done.
Qed.

(** ** Distances *)
Lemma Qsq_nonneg (a : Q) : (0 <= a * a)%Q.
Proof. destruct (Qlt_le_dec a 0); nra. Qed.

Lemma hypot2_nonneg a b : (0 <= hypot2 a b)%Q.
Proof. unfold hypot2. pose proof (Qsq_nonneg a). pose proof (Qsq_nonneg b). lra. Qed.

Lemma Qsq_zero (a : Q) : (a * a == 0)%Q -> (a == 0)%Q.
Proof. intros H. apply Qmult_integral in H. tauto. Qed.

Lemma hypot2_zero a b : (hypot2 a b == 0)%Q -> (a == 0)%Q /\ (b == 0)%Q.
Proof.
  unfold hypot2. pose proof (Qsq_nonneg a). pose proof (Qsq_nonneg b). intros.
  split; apply Qsq_zero; lra.
Qed.

Lemma inject_Z_zero z : (inject_Z z == 0)%Q -> z = 0.
Proof. unfold Qeq, inject_Z. cbn. lia. Qed.

Lemma distance2_sym m a b : (distance2 m a b == distance2 m b a)%Q.
Proof.
  unfold distance2, hypot2. 
  replace (a.1 - b.1) with (- (b.1 - a.1)) by lia.
  replace (a.2 - b.2) with (- (b.2 - a.2)) by lia.
  rewrite !inject_Z_opp. ring.
Qed.

Lemma distance2_nonneg m a b : (0 <= distance2 m a b)%Q.
Proof. apply hypot2_nonneg. Qed.

Lemma distance2_zero m a b :
  ~ (gt1 (dm_gt m) == 0)%Q -> ~ (gt5 (dm_gt m) == 0)%Q ->
  (distance2 m a b == 0)%Q <-> a = b.
Proof.
  intros H1 H5. unfold distance2. split.
  - intros [E1 E2]%hypot2_zero.
    apply Qmult_integral in E1 as [E1|]; [|done].
    apply Qmult_integral in E2 as [E2|]; [|done].
    apply inject_Z_zero in E1, E2. destruct a, b; cbn in *. f_equal; lia.
  - intros ->. rewrite !Z.sub_diag. unfold hypot2. change (inject_Z 0) with 0%Q. ring.
Qed.

Lemma distance2_square_pixels m a b :
  (gt2 (dm_gt m) == 0)%Q -> (gt4 (dm_gt m) == 0)%Q ->
  (gt1 (dm_gt m) * gt1 (dm_gt m) == gt5 (dm_gt m) * gt5 (dm_gt m))%Q ->
  (distance2 m a b == geo_dist2 (xy_to_latlon m a.1 a.2) (xy_to_latlon m b.1 b.2))%Q.
Proof.
  intros H2 H4 Hs. unfold distance2, geo_dist2, xy_to_latlon, hypot2. cbn.
  unfold Z.sub. rewrite !inject_Z_plus, !inject_Z_opp, H2, H4.
  set (dx := (inject_Z a.1 + - inject_Z b.1)%Q). set (dy := (inject_Z a.2 + - inject_Z b.2)%Q).
  transitivity (dx * dx * (gt1 (dm_gt m) * gt1 (dm_gt m)) + dy * dy * (gt5 (dm_gt m) * gt5 (dm_gt m)))%Q; [ring|].
  transitivity (dx * dx * (gt5 (dm_gt m) * gt5 (dm_gt m)) + dy * dy * (gt1 (dm_gt m) * gt1 (dm_gt m)))%Q.
  { rewrite Hs. ring. }
  unfold dx, dy. ring.
Qed.

(** ** Steepest neighbour *)
Section steepest.
  Context (m : datamap) (x y : Z).
  Hypothesis Hgt : ~ (gt1 (dm_gt m) == 0)%Q /\ ~ (gt5 (dm_gt m) == 0)%Q.

  Definition run2 (q : xy) : Q :=
    hypot2 (inject_Z (x - q.1) * gt5 (dm_gt m)) (inject_Z (y - q.2) * gt1 (dm_gt m)).

  Lemma run2_pos q : adj8 (x, y) q -> (0 < run2 q)%Q.
  Proof.
    intros (Hne & _). pose proof (hypot2_nonneg (inject_Z (x - q.1) * gt5 (dm_gt m))
                                   (inject_Z (y - q.2) * gt1 (dm_gt m))) as Hn.
    unfold run2. destruct (Qlt_le_dec 0 (hypot2 (inject_Z (x - q.1) * gt5 (dm_gt m))
                                   (inject_Z (y - q.2) * gt1 (dm_gt m)))) as [|Hle]; [done|].
    assert (hypot2 (inject_Z (x - q.1) * gt5 (dm_gt m))
              (inject_Z (y - q.2) * gt1 (dm_gt m)) == 0)%Q as E by lra.
    apply hypot2_zero in E as [E1 E2].
    apply Qmult_integral in E1 as [E1|]; [|tauto].
    apply Qmult_integral in E2 as [E2|]; [|tauto].
    apply inject_Z_zero in E1, E2. destruct q; cbn in *. destruct Hne. f_equal; lia.
  Qed.

  Definition sl (pe e : Z) (q : xy) : Q := (inject_Z ((e - pe) * (e - pe)) / run2 q)%Q.

  Lemma slope2_eq pe q e : slopes_exact m -> adj8 (x, y) q -> dm_slope m (x - q.1) (y - q.2) pe e = Ok (sl pe e q).
  Proof.
    intros Hs Ha. pose proof (run2_pos q Ha). rewrite Hs. unfold exact_slope, sl. fold (run2 q).
    destruct (Qeq_bool (run2 q) 0) eqn:E; [|done].
    apply Qeq_bool_iff in E. lra.
  Qed.
  Lemma sl_nonneg pe q e : adj8 (x, y) q -> (0 <= sl pe e q)%Q.
  Proof.
    intros Ha. pose proof (run2_pos q Ha). unfold sl. apply Qle_shift_div_l; [done|]. rewrite Qmult_0_l.
    change 0%Q with (inject_Z 0). rewrite <-Zle_Qle. apply Z.square_nonneg.
  Qed.
End steepest.

Section loop.
  Context (m : datamap) (x y : Z) (sl : Z -> Z -> xy -> Q).

  Definition st_inv (pe : Z) (pre : list (xy * option Z)) (best : option (pte * Q)) : Prop :=
    match best with
    | None => forall q e, (q, Some e) ∈ pre -> e < pe
    | Some ((q, e), s) =>
        exists i, pre !! i = Some (q, Some e) /\ pe <= e /\ s = sl pe e q /\
          forall j q' e', pre !! j = Some (q', Some e') -> pe <= e' ->
            (sl pe e' q' <= s)%Q /\ ((j < i)%nat -> (sl pe e' q' < s)%Q)
    end.

  Lemma steepest_loop_spec pe ns : forall pre best,
    (forall q e, (q, Some e) ∈ pre ++ ns -> pe <= e -> dm_slope m (x - q.1) (y - q.2) pe e = Ok (sl pe e q) /\ (0 <= sl pe e q)%Q) ->
    st_inv pe pre best ->
    exists r, steepest_loop m x y pe ns best = Ok r /\ st_inv pe (pre ++ ns) r.
  Proof.
    induction ns as [|[[_x _y] oe] ns IH]; intros pre best Hadj Hinv.
    - exists best. by rewrite app_nil_r.
    - assert (Hadj' : forall q e, (q, Some e) ∈ (pre ++ [((_x, _y), oe)]) ++ ns -> pe <= e ->
        dm_slope m (x - q.1) (y - q.2) pe e = Ok (sl pe e q) /\ (0 <= sl pe e q)%Q).
      { intros q v. rewrite <-app_assoc. apply Hadj. }
      replace (pre ++ ((_x, _y), oe) :: ns) with ((pre ++ [((_x, _y), oe)]) ++ ns)
        by (by rewrite <-app_assoc).
      assert (Hskip : (forall e, oe = Some e -> e < pe \/
                (exists q0 e0 s0, best = Some ((q0, e0), s0) /\ (sl pe e (_x,_y) <= s0)%Q)) ->
              st_inv pe (pre ++ [((_x, _y), oe)]) best).
      { intros Hs. unfold st_inv in *. destruct best as [[[q0 e0] s0]|].
        - destruct Hinv as (i & Hi & Hpe & Hs0 & Hall). exists i.
          split; [by apply lookup_app_l_Some|]. split_and!; [done..|].
          intros j q' e' Hj Hle. apply lookup_app_Some in Hj as [Hj|[Hlen Hj]].
          + by apply (Hall j q' e').
          + apply list_lookup_singleton_Some in Hj as [Hj0 Hj]. injection Hj as <- ->.
            destruct (Hs e' eq_refl) as [?|(?&?&?&[= -> -> ->]&?)]; [lia|].
            split; [done|]. intros. apply lookup_lt_Some in Hi. exfalso; lia.
        - intros q e [He|He]%elem_of_app; [by eapply Hinv|].
          apply elem_of_list_singleton in He. injection He as -> <-.
          destruct (Hs e eq_refl) as [?|(?&?&?&?&?)]; [lia|done]. }
      cbn [steepest_loop]. destruct oe as [e|].
      + destruct (e <? pe) eqn:He.
        { apply IH; [done|]. apply Hskip. intros ? [= ->]. left. lia. }
        destruct (Hadj (_x, _y) e) as [Hsl Hsl0]; [apply elem_of_app; right; left|lia|]. cbn in Hsl. rewrite Hsl. cbn [rbind].
        destruct best as [[[q0 e0] s0]|].
        * destruct (negb (Qle_bool (sl pe e (_x,_y)) s0)) eqn:Hb.
          -- apply IH; [done|]. apply negb_true_iff in Hb.
             assert (s0 < sl pe e (_x,_y))%Q as Hlt.
             { apply Qnot_le_lt. intros ?%Qle_bool_iff. congruence. }
             destruct Hinv as (i & Hi & Hpe & Hs0 & Hall).
             exists (length pre). split.
             { rewrite lookup_app_r, Nat.sub_diag by lia. done. }
             split; [lia|]. split; [done|]. intros j q' e' Hj Hle.
             apply lookup_app_Some in Hj as [Hj|[Hlen Hj]].
             ++ destruct (Hall j q' e' Hj Hle). split; lra.
             ++ apply list_lookup_singleton_Some in Hj as [Hj0 Hj]. injection Hj as <- <-.
                split; [lra|]. intros. exfalso; lia.
          -- apply IH; [done|]. apply Hskip. intros ? [= ->]. right.
             apply negb_false_iff, Qle_bool_iff in Hb. eauto 10.
        * apply Qle_bool_iff in Hsl0 as ->. apply IH; [done|]. exists (length pre). split.
          { rewrite lookup_app_r, Nat.sub_diag by lia. done. }
          split; [lia|]. split; [done|]. intros j q' e' Hj Hle.
          apply lookup_app_Some in Hj as [Hj|[Hlen Hj]].
          -- apply elem_of_list_lookup_2 in Hj. cbn in Hinv. apply Hinv in Hj. lia.
          -- apply list_lookup_singleton_Some in Hj as [Hj0 Hj]. injection Hj as <- <-.
             split; [lra|]. intros. exfalso; lia.
      + apply IH; [done|]. apply Hskip. intros ? [=].
  Qed.
End loop.

Lemma run2_ground2 m x y q : north_up m -> (run2 m x y q == ground2 m (x, y) q)%Q.
Proof.
  intros (H2 & H4 & _). unfold run2, ground2, geo_dist2, xy_to_latlon, hypot2. cbn.
  unfold Z.sub. rewrite !inject_Z_plus, !inject_Z_opp, H2, H4. ring.
Qed.

Lemma sl_le m x y pe e q e' q' :
  (0 < run2 m x y q)%Q -> (0 < run2 m x y q')%Q ->
  (sl m x y pe e q <= sl m x y pe e' q')%Q <->
  slope_le pe e (run2 m x y q) e' (run2 m x y q').
Proof.
  intros H1 H2. unfold sl, slope_le. split.
  - intros H.
    assert (inject_Z ((e - pe) * (e - pe)) ==
            (inject_Z ((e - pe) * (e - pe)) / run2 m x y q) * run2 m x y q)%Q as E1
      by (field; lra).
    assert (inject_Z ((e' - pe) * (e' - pe)) ==
            (inject_Z ((e' - pe) * (e' - pe)) / run2 m x y q') * run2 m x y q')%Q as E2
      by (field; lra).
    rewrite E1, E2.
    set (A := (inject_Z ((e - pe) * (e - pe)) / run2 m x y q)%Q) in *.
    set (B := (inject_Z ((e' - pe) * (e' - pe)) / run2 m x y q')%Q) in *.
    assert (0 < run2 m x y q * run2 m x y q')%Q as Hp by (by apply Qmult_lt_0_compat).
    apply (Qmult_le_compat_r _ _ (run2 m x y q * run2 m x y q')) in H; [|lra].
    eapply Qle_trans; [|eapply Qle_trans; [exact H|]]; apply Qle_lteq; right; ring.
  - intros H. apply Qle_shift_div_l; [done|].
    assert (inject_Z ((e - pe) * (e - pe)) / run2 m x y q * run2 m x y q' ==
            (inject_Z ((e - pe) * (e - pe)) * run2 m x y q') / run2 m x y q)%Q as -> by (field; lra).
    apply Qle_shift_div_r; done.
Qed.

Lemma sl_lt m x y pe e q e' q' :
  (0 < run2 m x y q)%Q -> (0 < run2 m x y q')%Q ->
  (sl m x y pe e q < sl m x y pe e' q')%Q <->
  slope_lt pe e (run2 m x y q) e' (run2 m x y q').
Proof.
  intros H1 H2. pose proof (sl_le m x y pe e' q' e q H2 H1) as H.
  unfold slope_le, slope_lt in *. split.
  - intros Hlt. apply Qnot_le_lt. intros Hle. apply H in Hle. lra.
  - intros Hlt. apply Qnot_le_lt. intros Hle. apply H in Hle. lra.
Qed.

Lemma slope_le_proper pe e e' ra ra' rb rb' :
  (ra == ra')%Q -> (rb == rb')%Q -> slope_le pe e ra e' rb -> slope_le pe e ra' e' rb'.
Proof. unfold slope_le. intros E1 E2. by rewrite E1, E2. Qed.
Lemma slope_lt_proper pe e e' ra ra' rb rb' :
  (ra == ra')%Q -> (rb == rb')%Q -> slope_lt pe e ra e' rb -> slope_lt pe e ra' e' rb'.
Proof. unfold slope_lt. intros E1 E2. by rewrite E1, E2. Qed.

Lemma steepest_spec m x y :
  north_up m -> slopes_exact m -> in_map m (x, y) ->
  exists r l, steepestNeighbor m x y = Ok r /\ iterateFull m x y = Ok l /\
    match r with
    | None => forall q e, adj8 (x, y) q -> reported m q (Some e) -> e < elev m (x, y)
    | Some (q, e) =>
        adj8 (x, y) q /\ reported m q (Some e) /\ elev m (x, y) <= e /\
        exists i, l !! i = Some (q, Some e) /\
        forall j q' e', l !! j = Some (q', Some e') -> elev m (x, y) <= e' ->
          slope_le (elev m (x, y)) e' (ground2 m (x, y) q') e (ground2 m (x, y) q) /\
          ((j < i)%nat ->
           slope_lt (elev m (x, y)) e' (ground2 m (x, y) q') e (ground2 m (x, y) q))
    end.
Proof.
  intros Hn Hex Hm. pose proof Hn as (_ & _ & Hgt).
  destruct (steepest_loop_spec m x y (sl m x y) (elev m (x, y)) (full_nbrs m x y) [] None)
    as (r & Hr & Hinv).
  { cbn [app]. intros q e Hq _. apply elem_of_full_nbrs in Hq as [Ha _].
    split; [by apply slope2_eq|by apply sl_nonneg]. }
  { intros q e He. by apply elem_of_nil in He. }
  exists (fst <$> r), (full_nbrs m x y).
  unfold steepestNeighbor, dm_get. rewrite np_read_inb, iterateFull_eq by done. cbn [rbind].
  change (dm_cell m x y) with (elev m (x, y)). rewrite Hr. cbn [rbind].
  split; [done|]. split; [done|]. cbn [app] in Hinv.
  destruct r as [[[q e] s]|]; cbn in *.
  - destruct Hinv as (i & Hi & Hle & -> & Hall).
    pose proof (elem_of_list_lookup_2 _ _ _ Hi) as Hel.
    apply elem_of_full_nbrs in Hel as [Ha Hrep].
    split_and!; [done..|]. exists i. split; [done|].
    intros j q' e' Hj Hle'. destruct (Hall j q' e' Hj Hle') as [Hs1 Hs2].
    pose proof (elem_of_list_lookup_2 _ _ _ Hj) as Hel'.
    apply elem_of_full_nbrs in Hel' as [Ha' _].
    split.
    + apply sl_le in Hs1; [|by apply run2_pos..].
      by eapply slope_le_proper; [| |exact Hs1]; apply run2_ground2.
    + intros Hij. specialize (Hs2 Hij). apply sl_lt in Hs2; [|by apply run2_pos..].
      by eapply slope_lt_proper; [| |exact Hs2]; apply run2_ground2.
  - intros q e Ha Hrep. apply (Hinv q e). by apply elem_of_full_nbrs.
Qed.

(** Whatever the rounding, the result is not lower, and there is none only if all
    are lower. *)
Lemma exact_ok m : north_up m -> slopes_exact m -> slopes_ok m.
Proof.
  intros (_ & _ & Hgt) Hs [x y] q e _ Ha _ _. exists (sl m x y (elev m (x, y)) e q).
  split; [by apply slope2_eq|by apply sl_nonneg].
Qed.
(** The slope that is compared. *)
Definition computed (m : datamap) (x y pe e : Z) (q : xy) : Q :=
  match dm_slope m (x - q.1) (y - q.2) pe e with Ok s => s | Err _ => 0 end.
Lemma steepest_any m x y :
  slopes_ok m -> in_map m (x, y) ->
  exists r l, steepestNeighbor m x y = Ok r /\ iterateFull m x y = Ok l /\
    match r with
    | None => forall q e, adj8 (x, y) q -> reported m q (Some e) -> e < elev m (x, y)
    | Some (q, e) =>
        adj8 (x, y) q /\ reported m q (Some e) /\ elev m (x, y) <= e /\
        exists i, l !! i = Some (q, Some e) /\
        forall j q' e', l !! j = Some (q', Some e') -> elev m (x, y) <= e' ->
          (computed m x y (elev m (x, y)) e' q' <= computed m x y (elev m (x, y)) e q)%Q /\
          ((j < i)%nat -> (computed m x y (elev m (x, y)) e' q' < computed m x y (elev m (x, y)) e q)%Q)
    end.
Proof.
  intros Hok Hm.
  destruct (steepest_loop_spec m x y (computed m x y) (elev m (x, y)) (full_nbrs m x y) [] None)
    as (r & Hr & Hinv).
  { cbn [app]. intros q e Hq Hle. apply elem_of_full_nbrs in Hq as [Ha Hrep].
    destruct (Hok (x, y) q e Hm Ha Hrep Hle) as (s & Hs & H0). cbn [fst snd] in Hs. unfold computed. by rewrite Hs. }
  { intros q e He. by apply elem_of_nil in He. }
  exists (fst <$> r), (full_nbrs m x y).
  unfold steepestNeighbor, dm_get. rewrite np_read_inb, iterateFull_eq by done. cbn [rbind].
  change (dm_cell m x y) with (elev m (x, y)). rewrite Hr. cbn [rbind].
  split; [done|]. split; [done|]. cbn [app] in Hinv.
  destruct r as [[[q e] s]|]; cbn in *.
  - destruct Hinv as (i & Hi & Hle & -> & Hall).
    pose proof (elem_of_list_lookup_2 _ _ _ Hi) as Hel.
    apply elem_of_full_nbrs in Hel as [Ha Hrep].
    split_and!; [done..|]. exists i. split; [done|]. exact Hall.
  - intros q e Ha Hrep. apply (Hinv q e). by apply elem_of_full_nbrs.
Qed.
