(** Consequences of the raster lemmas in the shape of the listed properties. *)
From Verif Require Import Raster_model Raster_spec Raster_proof Example_maps.
From Coq Require Import ZifyBool Lqa.
Local Open Scope Z_scope.

Lemma full_exact m x y :
  exists l, iterateFull m x y = Ok l /\ NoDup (map fst l) /\ length l = 8%nat /\
    (forall q v, (q, v) ∈ l <-> adj8 (x, y) q /\ reported m q v) /\
    map fst l = [(x - 1, y); (x - 1, y + 1); (x, y + 1); (x + 1, y + 1);
                 (x + 1, y); (x + 1, y - 1); (x, y - 1); (x - 1, y - 1)].
Proof.
  destruct (iterateFull_spec m x y) as (l & Hl & H1 & H2 & H3). exists l.
  split_and!; try done.
  rewrite iterateFull_eq in Hl. injection Hl as <-.
  unfold full_nbrs, shift_of. cbn. repeat f_equal; lia.
Qed.

Lemma orthogonal_exact m x y :
  exists l, iterateOrthogonal m x y = Ok l /\ NoDup (map fst l) /\ length l = 4%nat /\
    (forall q v, (q, v) ∈ l <-> adj4 (x, y) q /\ reported m q v).
Proof. apply iterateOrthogonal_spec. Qed.

Lemma diagonal_exact m x y :
  exists l, iterateDiagonal m x y = Ok l /\ NoDup (map fst l) /\ length l = 4%nat /\
    (forall q v, (q, v) ∈ l <-> adjD (x, y) q /\ reported m q v).
Proof. apply iterateDiagonal_spec. Qed.

Lemma latlon_elevation m x y :
  north_up m -> in_map m (x, y) ->
  dm_elevation m (xy_to_latlon m x y).1 (xy_to_latlon m x y).2 = Ok (elev m (x, y)).
Proof.
  intros (H2 & H4 & H1 & H5) [Hx Hy]. unfold dm_elevation.
  rewrite latlon_round_trip by done. cbn [rbind fst snd].
  unfold dm_get, np_read, np_index. cbn in Hx, Hy.
  replace ((0 <=? x) && (x <=? dm_max_x m)) with true by lia. cbn [rbind].
  by replace ((0 <=? y) && (y <=? dm_max_y m)) with true by lia.
Qed.

Lemma steepest_exact m x y :
  north_up m -> slopes_exact m -> in_map m (x, y) ->
  exists r, steepestNeighbor m x y = Ok r /\
    (r = None <-> forall q e, adj8 (x, y) q -> reported m q (Some e) -> e < elev m (x, y)) /\
    (forall q e, r = Some (q, e) ->
       adj8 (x, y) q /\ reported m q (Some e) /\ elev m (x, y) <= e /\
       (forall q' e', adj8 (x, y) q' -> reported m q' (Some e') -> elev m (x, y) <= e' ->
          slope_le (elev m (x, y)) e' (ground2 m (x, y) q') e (ground2 m (x, y) q)) /\
       ((exists q' e', adj8 (x, y) q' /\ reported m q' (Some e') /\ elev m (x, y) < e') ->
          elev m (x, y) < e)).
Proof.
  intros Hn Hex Hm. destruct (steepest_spec m x y Hn Hex Hm) as (r & l & Hr & Hl & H).
  destruct (iterateFull_spec m x y) as (l' & Hl' & _ & _ & Hin).
  assert (l' = l) as -> by congruence.
  exists r. split; [done|]. split.
  - destruct r as [[q e]|]; [|done]. split; [done|]. intros Hall.
    destruct H as (Ha & Hrep & Hle & _). specialize (Hall q e Ha Hrep). exfalso; lia.
  - intros q e ->. destruct H as (Ha & Hrep & Hle & i & Hi & Hmax).
    assert (Hsl : forall q' e', adj8 (x, y) q' -> reported m q' (Some e') -> elev m (x, y) <= e' ->
          slope_le (elev m (x, y)) e' (ground2 m (x, y) q') e (ground2 m (x, y) q)).
    { intros q' e' Ha' Hr' Hle'. assert ((q', Some e') ∈ l) as Hin' by (by apply Hin).
      apply elem_of_list_lookup in Hin' as [j Hj]. by apply (Hmax j). }
    split_and!; try done. intros (q' & e' & Ha' & Hr' & Hlt).
    destruct (decide (elev m (x, y) < e)); [done|exfalso].
    assert (e = elev m (x, y)) as He by lia.
    specialize (Hsl q' e' Ha' Hr' ltac:(lia)). unfold slope_le in Hsl.
    rewrite He in Hsl. rewrite Z.sub_diag in Hsl. cbn [Z.mul] in Hsl.
    assert (0 < ground2 m (x, y) q)%Q as Hg.
    { destruct Hn as (H2 & H4 & H1 & H5). unfold ground2, geo_dist2, xy_to_latlon. cbn [fst snd].
      destruct Ha as (Hne & _). 
      set (dx := (inject_Z x - inject_Z q.1)%Q). set (dy := (inject_Z y - inject_Z q.2)%Q).
      assert (HA : (~ dx == 0 \/ ~ dy == 0)%Q).
      { destruct (decide (x = q.1)) as [E1|E1].
        - right. unfold dy. intros E. apply Hne. destruct q as [qx qy]; cbn in *. f_equal; [done|].
          apply inject_Z_injective. lra.
        - left. unfold dx. intros E. apply E1. apply inject_Z_injective. lra. }
      assert (HS : forall a b : Q, (~ a == 0 \/ ~ b == 0 -> 0 < a * a + b * b)%Q).
      { intros a b Hab. destruct (Qlt_le_dec 0 (a * a + b * b)) as [|Hc]; [done|exfalso].
        pose proof (Qsq_nonneg a). pose proof (Qsq_nonneg b).
        assert (a * a == 0)%Q as Ea by lra. assert (b * b == 0)%Q as Eb by lra.
        apply Qmult_integral in Ea as [Ea|Ea]; apply Qmult_integral in Eb as [Eb|Eb];
          destruct Hab; done. }
      setoid_replace ((gt3 (dm_gt m) + inject_Z y * gt4 (dm_gt m) + inject_Z x * gt5 (dm_gt m) -
        (gt3 (dm_gt m) + inject_Z q.2 * gt4 (dm_gt m) + inject_Z q.1 * gt5 (dm_gt m))))%Q
        with (dx * gt5 (dm_gt m))%Q by (unfold dx; rewrite H4; ring).
      setoid_replace ((gt0 (dm_gt m) + inject_Z y * gt1 (dm_gt m) + inject_Z x * gt2 (dm_gt m) -
        (gt0 (dm_gt m) + inject_Z q.2 * gt1 (dm_gt m) + inject_Z q.1 * gt2 (dm_gt m))))%Q
        with (dy * gt1 (dm_gt m))%Q by (unfold dy; rewrite H2; ring).
      apply HS. destruct HA as [HA|HA]; [left|right]; intros E; apply Qmult_integral in E as [|]; done. }
    assert (0 < inject_Z ((e' - elev m (x, y)) * (e' - elev m (x, y))))%Q as Hp.
    { change 0%Q with (inject_Z 0). rewrite <-Zlt_Qlt. nia. }
    pose proof (Qmult_lt_0_compat _ _ Hp Hg) as Hpos.
    change (inject_Z 0) with 0%Q in Hsl. rewrite Qmult_0_l in Hsl.
    by apply (Qlt_not_le _ _ Hpos).
Qed.

Lemma steepest_first m x y q e :
  north_up m -> slopes_exact m -> in_map m (x, y) -> steepestNeighbor m x y = Ok (Some (q, e)) ->
  exists l i, iterateFull m x y = Ok l /\ l !! i = Some (q, Some e) /\
    forall j q' e', (j < i)%nat -> l !! j = Some (q', Some e') -> elev m (x, y) <= e' ->
      slope_lt (elev m (x, y)) e' (ground2 m (x, y) q') e (ground2 m (x, y) q).
Proof.
  intros Hn Hex Hm Hs. destruct (steepest_spec m x y Hn Hex Hm) as (r & l & Hr & Hl & H).
  rewrite Hs in Hr. injection Hr as <-. destruct H as (_ & _ & _ & i & Hi & Hall).
  exists l, i. split_and!; [done..|]. intros j q' e' Hj Hl' Hle. by apply (Hall j q' e').
Qed.

Lemma distance_metric m :
  (~ gt1 (dm_gt m) == 0)%Q -> (~ gt5 (dm_gt m) == 0)%Q ->
  (forall a b, (distance2 m a b == distance2 m b a)%Q) /\
  (forall a b, (0 <= distance2 m a b)%Q) /\
  (forall a b, (distance2 m a b == 0)%Q <-> a = b).
Proof.
  intros H1 H5. split_and!.
  - intros. apply distance2_sym.
  - intros. apply distance2_nonneg.
  - intros. by apply distance2_zero.
Qed.

(** Exactly which rasters agree: the two distances coincide for every pair of
    cells only if the pixels are square. *)
Lemma distance_geographic_iff m :
  north_up m ->
  (forall a b, (distance2 m a b == ground2 m a b)%Q) <->
  (gt1 (dm_gt m) * gt1 (dm_gt m) == gt5 (dm_gt m) * gt5 (dm_gt m))%Q.
Proof.
  intros (H2 & H4 & H1 & H5). split.
  - intros H. specialize (H (1, 0) (0, 0)).
    assert (E1 : (distance2 m (1, 0)%Z (0, 0)%Z == gt1 (dm_gt m) * gt1 (dm_gt m))%Q).
    { unfold distance2, hypot2. cbn [fst snd]. change (inject_Z (1 - 0)) with 1%Q.
      change (inject_Z (0 - 0)) with 0%Q. ring. }
    assert (E2 : (ground2 m (1, 0)%Z (0, 0)%Z == gt5 (dm_gt m) * gt5 (dm_gt m))%Q).
    { unfold ground2, geo_dist2, xy_to_latlon. cbn [fst snd]. rewrite H2, H4.
      change (inject_Z 1) with 1%Q. change (inject_Z 0) with 0%Q. ring. }
    by rewrite <-E1, H, E2.
  - intros Hs a b. by apply distance2_square_pixels.
Qed.

Lemma distance_triangle_sq m a b c :
  (* the square form of the triangle inequality:
     d(a,c)^2 <= d(a,b)^2 + d(b,c)^2 + 2 d(a,b) d(b,c), i.e. the excess, when
     positive, has a square of at most 4 d(a,b)^2 d(b,c)^2 *)
  let e := (distance2 m a c - distance2 m a b - distance2 m b c)%Q in
  (0 <= e -> e * e <= 4 * distance2 m a b * distance2 m b c)%Q.
Proof.
  cbn zeta. unfold distance2, hypot2, Z.sub. rewrite !inject_Z_plus, !inject_Z_opp.
  intros _.
  set (g := gt1 (dm_gt m)). set (h := gt5 (dm_gt m)).
  set (ax := inject_Z a.1). set (ay := inject_Z a.2). set (bx := inject_Z b.1).
  set (by_ := inject_Z b.2). set (cx := inject_Z c.1). set (cy := inject_Z c.2).
  set (u := ((ax + - bx) * g)%Q). set (v := ((ay + - by_) * h)%Q).
  set (p := ((bx + - cx) * g)%Q). set (q := ((by_ + - cy) * h)%Q).
  setoid_replace ((ax + - cx) * g)%Q with (u + p)%Q by (unfold u, p; ring).
  setoid_replace ((ay + - cy) * h)%Q with (v + q)%Q by (unfold v, q; ring).
  pose proof (Qsq_nonneg (u * q - v * p)%Q) as Hsq.
  assert (E : (4 * (u * u + v * v) * (p * p + q * q) -
    ((u + p) * (u + p) + (v + q) * (v + q) - (u * u + v * v) - (p * p + q * q)) *
    ((u + p) * (u + p) + (v + q) * (v + q) - (u * u + v * v) - (p * p + q * q)) ==
    4 * ((u * q - v * p) * (u * q - v * p)))%Q) by ring.
  lra.
Qed.
