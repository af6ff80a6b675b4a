(** Proofs about conversions, views, outlines and windows. *)
From Verif Require Import Base_model Raster_model Raster_spec Raster_proof Raster_facts Views_model Views_spec.
From Coq Require Import Lqa Qfield Qabs Qround.
From Coq Require Import ZifyBool.
Local Open Scope Z_scope.

(** *** Conversions *)
Lemma there_and_back m x y : north_up m -> latlong_to_xy m (xy_to_latlon m x y).1 (xy_to_latlon m x y).2 = Ok (x, y).
Proof. intros (H2 & H4 & H1 & H5). by apply latlon_round_trip. Qed.

Lemma conversion m p : north_up m -> spot_to_gp m (gp_to_spot m p) = Ok p.
Proof.
  intros H. destruct p as [[x y] e]. unfold spot_to_gp, gp_to_spot. cbn [fst snd].
  rewrite there_and_back by done. done.
Qed.

Lemma gridPoint_view m pts : on_map m pts -> sd_gridPoint m pts = Ok pts.
Proof.
  revert pts. unfold sd_gridPoint. enough (forall pts acc, on_map m pts -> foldM (fun (p : pte) acc =>
    let* e := dm_get m p.1.1 p.1.2 in Ok (acc ++ [(p.1, e)])) pts acc = Ok (acc ++ pts)) as HE by (intros; by apply HE).
  induction pts as [|[[x y] e] pts IH]; intros acc H; [cbn; by rewrite app_nil_r|].
  destruct (H _ (elem_of_list_here _ _)) as [Hi He]. cbn [fst snd] in Hi, He.
  cbn [foldM fst snd]. unfold dm_get. rewrite np_read_inb by done. cbn [rbind].
  rewrite IH by (intros q Hq; apply H; by right). rewrite <-app_assoc. cbn. by rewrite He.
Qed.

Lemma spot_view m pts : on_map m pts -> sd_spotElevation m pts = Ok (map (gp_to_spot m) pts).
Proof.
  revert pts. unfold sd_spotElevation. enough (forall pts acc, on_map m pts -> foldM (fun (p : pte) acc =>
    let* e := dm_get m p.1.1 p.1.2 in Ok (acc ++ [(xy_to_latlon m p.1.1 p.1.2, e)])) pts acc =
    Ok (acc ++ map (gp_to_spot m) pts)) as HE by (intros; by apply HE).
  induction pts as [|[[x y] e] pts IH]; intros acc H; [cbn; by rewrite app_nil_r|].
  destruct (H _ (elem_of_list_here _ _)) as [Hi He]. cbn [fst snd] in Hi, He.
  cbn [foldM fst snd]. unfold dm_get. rewrite np_read_inb by done. cbn [rbind].
  rewrite IH by (intros q Hq; apply H; by right). rewrite <-app_assoc. cbn. by rewrite He.
Qed.

Lemma spot_view_facts m pts :
  north_up m -> on_map m pts ->
  exists l, sd_spotElevation m pts = Ok l /\ length l = length pts /\
    forall i s p, l !! i = Some s -> pts !! i = Some p -> s.2 = elev m p.1 /\ spot_to_gp m s = Ok p.
Proof.
  intros Hn Ho. exists (map (gp_to_spot m) pts). split; [by apply spot_view|]. split; [by rewrite map_length|].
  intros i s p Hs Hp. change (map (gp_to_spot m) pts) with (gp_to_spot m <$> pts) in Hs.
  rewrite list_lookup_fmap, Hp in Hs. injection Hs as <-. split; [|by apply conversion].
  cbn. apply Ho. by eapply elem_of_list_lookup_2.
Qed.

Lemma flat_positions m pts : north_up m ->
  length (mp_pointsLatLong m pts) = length pts /\
  forall i q p, mp_pointsLatLong m pts !! i = Some q -> pts !! i = Some p -> latlong_to_xy m q.1 q.2 = Ok p.
Proof.
  intros Hn. unfold mp_pointsLatLong. split; [by rewrite map_length|]. intros i q p Hq Hp.
  change (map ?f pts) with (f <$> pts) in Hq. rewrite list_lookup_fmap, Hp in Hq. injection Hq as <-.
  destruct p. by apply there_and_back.
Qed.

Lemma base_views m pts : north_up m ->
  exists cells, sd_baseGridPoint m pts = Ok cells /\ length cells = length pts /\ length (sd_baseCoordinate pts) = length pts /\
    forall i p, pts !! i = Some p -> exists q c, sd_baseCoordinate pts !! i = Some q /\ cells !! i = Some c /\
      (q.1 == inject_Z p.1.1)%Q /\ (q.2 == inject_Z p.1.2)%Q /\ latlong_to_xy m q.1 q.2 = Ok c.
Proof.
  intros Hn.
  assert (forall lat lon, exists c, latlong_to_xy m lat lon = Ok c) as Hll.
  { intros lat lon. destruct Hn as (_ & _ & H1 & H5). unfold latlong_to_xy.
    destruct (Qeq_bool (gt1 (dm_gt m)) 0) eqn:E1; [apply Qeq_bool_eq in E1; rewrite E1 in H1; by destruct (Qlt_irrefl 0)|].
    destruct (Qeq_bool (gt5 (dm_gt m)) 0) eqn:E5; [apply Qeq_bool_eq in E5; rewrite E5 in H5; by destruct (Qlt_irrefl 0)|]. by eexists. }
  enough (forall pts acc, exists cells, foldM (fun (p : pte) acc => let* xy := latlong_to_xy m (inject_Z p.1.1) (inject_Z p.1.2) in Ok (acc ++ [xy]))
    pts acc = Ok (acc ++ cells) /\ Forall2 (fun (p : pte) c => latlong_to_xy m (inject_Z p.1.1) (inject_Z p.1.2) = Ok c) pts cells) as HE.
  { destruct (HE pts []) as (cells & E & H). exists cells. split; [exact E|]. split; [symmetry; by eapply Forall2_length|].
    split; [unfold sd_baseCoordinate; by rewrite map_length|]. intros i p Hp.
    destruct (Forall2_lookup_l _ _ _ _ _ H Hp) as (c & Hc & Hcc). exists (inject_Z p.1.1, inject_Z p.1.2), c.
    split; [unfold sd_baseCoordinate; change (map ?f pts) with (f <$> pts); by rewrite list_lookup_fmap, Hp|]. done. }
  clear pts. induction pts as [|p pts IH]; intros acc; [exists []; cbn; by rewrite app_nil_r|]. cbn [foldM].
  destruct (Hll (inject_Z p.1.1) (inject_Z p.1.2)) as [c Hc]. rewrite Hc. cbn [rbind].
  destruct (IH (acc ++ [c])) as (cells & E & H). exists (c :: cells). split; [rewrite E; by rewrite <-app_assoc|]. by constructor.
Qed.

(** *** Outlines *)
Lemma round_near q z : (Qabs (q - inject_Z z) < 1 # 2)%Q -> py_round q = z.
Proof.
  intros H. pose proof (py_round_nearest q) as H2.
  apply Qabs_Qlt_condition in H. apply Qabs_Qle_condition in H2. destruct H as [Ha Hb], H2 as [Hc Hd].
  assert (inject_Z (py_round q) < inject_Z (z + 1))%Q as E1.
  { rewrite inject_Z_plus. change (inject_Z 1) with 1%Q. lra. }
  assert (inject_Z z < inject_Z (py_round q + 1))%Q as E2.
  { rewrite inject_Z_plus. change (inject_Z 1) with 1%Q. lra. }
  rewrite <-Zlt_Qlt in E1, E2. lia.
Qed.

Section outline.
  Context (m : datamap) (x y : Z) (Hn : north_up m).
  Notation g := (dm_gt m).
  Definition corner (dx dy : Z) : Q * Q :=
    let l := xy_to_latlon m x y in let r := xy_to_latlon m (x + dx) (y + dy) in ((l.2 + r.2) / 2, (l.1 + r.1) / 2)%Q.
  Lemma geom_eq : point_geom m x y = Ok [corner (-1) 1; corner 1 1; corner 1 (-1); corner (-1) (-1)].
  Proof. unfold point_geom. cbn [xy_to_latlon]. unfold iterateDiagonal. rewrite iterate_shifts_eq. done. Qed.

  Definition K : Q := (gt1 g * gt5 g)%Q.
  Definition u (lon : Q) : Q := ((lon - gt0 g) / gt1 g - inject_Z y)%Q.
  Definition v (lat : Q) : Q := ((lat - gt3 g) / gt5 g - inject_Z x)%Q.

  Lemma turn1 lat lon : (turn (corner (-1) 1) (corner 1 1) (lon, lat) == K * ((1 # 2) - u lon))%Q.
  Proof.
    destruct Hn as (H2 & H4 & H1 & H5). unfold turn, corner, xy_to_latlon, K, u. cbn [fst snd].
    rewrite !inject_Z_plus, H2, H4. change (inject_Z 1) with 1%Q. change (inject_Z (-1)) with (-(1))%Q. field. done.
  Qed.
  Lemma turn2 lat lon : (turn (corner 1 1) (corner 1 (-1)) (lon, lat) == K * ((1 # 2) - v lat))%Q.
  Proof.
    destruct Hn as (H2 & H4 & H1 & H5). unfold turn, corner, xy_to_latlon, K, v. cbn [fst snd].
    rewrite !inject_Z_plus, H2, H4. change (inject_Z 1) with 1%Q. change (inject_Z (-1)) with (-(1))%Q. field. done.
  Qed.
  Lemma turn3 lat lon : (turn (corner 1 (-1)) (corner (-1) (-1)) (lon, lat) == K * ((1 # 2) + u lon))%Q.
  Proof.
    destruct Hn as (H2 & H4 & H1 & H5). unfold turn, corner, xy_to_latlon, K, u. cbn [fst snd].
    rewrite !inject_Z_plus, H2, H4. change (inject_Z 1) with 1%Q. change (inject_Z (-1)) with (-(1))%Q. field. done.
  Qed.
  Lemma turn4 lat lon : (turn (corner (-1) (-1)) (corner (-1) 1) (lon, lat) == K * ((1 # 2) + v lat))%Q.
  Proof.
    destruct Hn as (H2 & H4 & H1 & H5). unfold turn, corner, xy_to_latlon, K, v. cbn [fst snd].
    rewrite !inject_Z_plus, H2, H4. change (inject_Z 1) with 1%Q. change (inject_Z (-1)) with (-(1))%Q. field. done.
  Qed.
  Lemma K_nz : (0 < K \/ K < 0)%Q.
  Proof.
    destruct Hn as (H2 & H4 & H1 & H5).
    assert (~ K == 0)%Q as HK by (intros E; apply Qmult_integral in E; tauto).
    destruct (Q_dec 0 K) as [[?|?]|E]; [by left|by right|]. by rewrite E in HK.
  Qed.

  Lemma mul_pos_iff a : (0 < K)%Q -> (0 < K * a <-> 0 < a)%Q.
  Proof. intros. split; intros; nra. Qed.

  Notation ring := [corner (-1) 1; corner 1 1; corner 1 (-1); corner (-1) (-1)].
  Lemma edge_list (P : Q * Q -> Q * Q -> Prop) :
    (forall a b, (a, b) ∈ edges ring -> P a b) <->
    P (corner (-1) 1) (corner 1 1) /\ P (corner 1 1) (corner 1 (-1)) /\
    P (corner 1 (-1)) (corner (-1) (-1)) /\ P (corner (-1) (-1)) (corner (-1) 1).
  Proof.
    cbn [edges combine app]. split.
    - intros H. split_and!; apply H; rewrite !elem_of_cons; tauto.
    - intros (Ha & Hb & Hc & Hd) a b. rewrite !elem_of_cons.
      intros [[= -> ->]|[[= -> ->]|[[= -> ->]|[[= -> ->]|Hx]]]]; try done. by apply elem_of_nil in Hx.
  Qed.

  Lemma inside_iff lat lon : inside ring (lon, lat) <-> (Qabs (u lon) < 1 # 2 /\ Qabs (v lat) < 1 # 2)%Q.
  Proof.
    unfold inside. rewrite !edge_list. rewrite !turn1, !turn2, !turn3, !turn4, !Qabs_Qlt_condition.
    destruct K_nz as [HK|HK].
    - split; [intros [(?&?&?&?)|(?&?&?&?)]|intros [[??][??]]; left]; repeat split; nra.
    - split; [intros [(?&?&?&?)|(?&?&?&?)]|intros [[??][??]]; right]; repeat split; nra.
  Qed.
  Lemma within_of lat lon : (Qabs (u lon) <= 1 # 2 /\ Qabs (v lat) <= 1 # 2)%Q -> within ring (lon, lat).
  Proof.
    unfold within. rewrite !edge_list. rewrite !turn1, !turn2, !turn3, !turn4, !Qabs_Qle_condition.
    intros [[??][??]]. destruct K_nz as [HK|HK]; [left|right]; repeat split; nra.
  Qed.
End outline.

Lemma geom_inside m x y ring lat lon :
  north_up m -> point_geom m x y = Ok ring -> inside ring (lon, lat) -> latlong_to_xy m lat lon = Ok (x, y).
Proof.
  intros Hn. rewrite geom_eq. intros [= <-]. rewrite inside_iff by done. intros [Hu Hv].
  destruct Hn as (H2 & H4 & H1 & H5). unfold latlong_to_xy.
  rewrite (not_true_is_false (Qeq_bool (gt1 _) 0)) by (by rewrite Qeq_bool_iff).
  rewrite (not_true_is_false (Qeq_bool (gt5 _) 0)) by (by rewrite Qeq_bool_iff).
  by rewrite (round_near _ _ Hu), (round_near _ _ Hv).
Qed.

Lemma geom_cover m x y lat lon :
  north_up m -> latlong_to_xy m lat lon = Ok (x, y) -> exists ring, point_geom m x y = Ok ring /\ within ring (lon, lat).
Proof.
  intros Hn H. rewrite geom_eq. eexists. split; [done|]. apply within_of; [done|].
  destruct Hn as (H2 & H4 & H1 & H5). unfold latlong_to_xy in H.
  rewrite (not_true_is_false (Qeq_bool (gt1 _) 0)) in H by (by rewrite Qeq_bool_iff).
  rewrite (not_true_is_false (Qeq_bool (gt5 _) 0)) in H by (by rewrite Qeq_bool_iff).
  injection H as <- <-. split; apply py_round_nearest.
Qed.

Lemma geom_centre m x y : north_up m ->
  exists ring, point_geom m x y = Ok ring /\ length ring = 4%nat /\ inside ring ((xy_to_latlon m x y).2, (xy_to_latlon m x y).1).
Proof.
  intros Hn. rewrite geom_eq. eexists. split; [done|]. split; [done|]. apply inside_iff; [done|].
  destruct Hn as (H2 & H4 & H1 & H5). split.
  - assert (u m y (xy_to_latlon m x y).2 == 0)%Q as ->; [|done]. unfold u, xy_to_latlon. cbn [snd]. rewrite H2. field. done.
  - assert (v m x (xy_to_latlon m x y).1 == 0)%Q as ->; [|done]. unfold v, xy_to_latlon. cbn [fst]. rewrite H4. field. done.
Qed.

Lemma geom_disjoint m p q rp rq pos :
  north_up m -> point_geom m p.1 p.2 = Ok rp -> point_geom m q.1 q.2 = Ok rq -> inside rp pos -> inside rq pos -> p = q.
Proof.
  intros Hn Hp Hq Ip Iq. destruct pos as [lon lat], p, q. pose proof (geom_inside _ _ _ _ _ _ Hn Hp Ip) as E.
  rewrite (geom_inside _ _ _ _ _ _ Hn Hq Iq) in E. by injection E as -> ->.
Qed.

(** The corners of the map: the positions of all cells lie between them. *)
Lemma amid_Z (a k : Q) (i n : Z) : 0 <= i <= n ->
  amid (a + inject_Z i * k)%Q (a + inject_Z 0 * k)%Q (a + inject_Z n * k)%Q.
Proof.
  intros [H1 H2]. rewrite Zle_Qle in H1, H2. unfold amid. change (inject_Z 0) with 0%Q in *.
  destruct (Qlt_le_dec 0 k); [left|right]; split; nra.
Qed.
Lemma corners_box m x y : north_up m -> in_map m (x, y) ->
  amid (xy_to_latlon m x y).1 (upper_left m).1 (lower_left m).1 /\
  amid (xy_to_latlon m x y).1 (upper_right m).1 (lower_right m).1 /\
  amid (xy_to_latlon m x y).2 (upper_left m).2 (upper_right m).2 /\
  amid (xy_to_latlon m x y).2 (lower_left m).2 (lower_right m).2.
Proof.
  intros (H2 & H4 & _) [Hx Hy]. cbn [fst snd] in Hx, Hy.
  pose proof (amid_Z (gt3 (dm_gt m)) (gt5 (dm_gt m)) x (dm_max_x m) Hx) as A.
  pose proof (amid_Z (gt0 (dm_gt m)) (gt1 (dm_gt m)) y (dm_max_y m) Hy) as B.
  unfold upper_left, lower_left, upper_right, lower_right, xy_to_latlon. cbn [fst snd].
  unfold amid in *. rewrite H2, H4. rewrite !Qmult_0_r, !Qplus_0_r. done.
Qed.

(** *** Windows *)
Section window.
  Context (translate : datamap -> Z -> Z -> Z -> Z -> datamap) (HT : copies_window translate).
  Context (m : datamap) (x y xs ys : Z).
  Context (Hx : 0 <= x) (Hy : 0 <= y) (Hxs : 0 < xs) (Hys : 0 < ys) (Hfx : x + xs <= dm_max_x m + 1) (Hfy : y + ys <= dm_max_y m + 1).
  Notation s := (dm_subset translate m x y xs ys).

  Lemma window_cells i j : in_map s (i, j) <-> 0 <= i < xs /\ 0 <= j < ys.
  Proof.
    destruct (HT m y x ys xs) as (E1 & E2 & _); [lia..|]. unfold in_map, dm_subset. rewrite E1, E2. cbn [fst snd]. lia.
  Qed.
  Lemma window_read i j : in_map s (i, j) -> dm_get s i j = dm_get m (x + i) (y + j) /\ in_map m (x + i, y + j).
  Proof.
    intros Hi. pose proof Hi as Hi2. apply window_cells in Hi2 as [H1 H2].
    assert (in_map m (x + i, y + j)) as Hm by (unfold in_map; cbn; lia). split; [|done].
    unfold dm_get. rewrite !np_read_inb by done. f_equal.
    destruct (HT m y x ys xs) as (_ & _ & _ & E & _); [lia..|]. by apply E.
  Qed.
  Lemma window_position i j :
    ((xy_to_latlon s i j).1 == (xy_to_latlon m (x + i) (y + j)).1)%Q /\
    ((xy_to_latlon s i j).2 == (xy_to_latlon m (x + i) (y + j)).2)%Q.
  Proof.
    destruct (HT m y x ys xs) as (_ & _ & _ & _ & E0 & E3 & E1 & E2 & E4 & E5); [lia..|].
    unfold xy_to_latlon, dm_subset. cbn [fst snd]. rewrite E0, E1, E2, E3, E4, E5, !inject_Z_plus. split; ring.
  Qed.
  Lemma window_data i j : data_cell s (i, j) <-> (0 <= i < xs /\ 0 <= j < ys) /\ data_cell m (x + i, y + j).
  Proof.
    destruct (HT m y x ys xs) as (_ & _ & E3 & E & _); [lia..|]. unfold data_cell. rewrite window_cells.
    unfold elev. cbn [fst snd]. split.
    - intros [[H1 H2] Hd]. split; [done|]. split; [unfold in_map; cbn; lia|].
      unfold dm_subset in Hd. rewrite E3, E in Hd by done. done.
    - intros [[H1 H2] [_ Hd]]. split; [done|]. unfold dm_subset. rewrite E3, E by done. done.
  Qed.
  Lemma window_slope i j i' j' : (ground2 s (i, j) (i', j') == ground2 m ((x + i)%Z, (y + j)%Z) ((x + i')%Z, (y + j')%Z))%Q.
  Proof.
    unfold ground2, geo_dist2. destruct (window_position i j) as [A B], (window_position i' j') as [C D].
    cbn [fst snd] in *. rewrite A, B, C, D. reflexivity.
  Qed.
  Lemma window_neighbours i j : 1 <= i < xs - 1 -> 1 <= j < ys - 1 ->
    exists l, iterateFull s i j = Ok l /\
      iterateFull m (x + i) (y + j) = Ok (map (fun n : xy * option Z => ((x + n.1.1, y + n.1.2), n.2)) l).
  Proof.
    intros Hi Hj. destruct (HT m y x ys xs) as (E1 & E2 & E3 & E & _); [lia..|].
    unfold iterateFull. rewrite !iterate_shifts_eq. eexists. split; [done|]. f_equal. rewrite map_map.
    apply map_ext_in. intros [dx dy] Hd. cbn [fst snd].
    assert (-1 <= dx <= 1 /\ -1 <= dy <= 1) as [Hdx Hdy].
    { apply elem_of_list_In in Hd. unfold FULL_SHIFT_LIST in Hd. rewrite !elem_of_cons in Hd.
      destruct Hd as [[= -> ->]|[[= -> ->]|[[= -> ->]|[[= -> ->]|[[= -> ->]|[[= -> ->]|[[= -> ->]|[[= -> ->]|Hx2]]]]]]]]; try lia.
      by apply elem_of_nil in Hx2. }
    unfold shift_of. cbn [fst snd]. f_equal; [f_equal; lia|].
    assert (in_map s (i + dx, j + dy)) as Ha by (apply window_cells; lia).
    assert (in_map m (x + (i + dx), y + (j + dy))) as Hb by (unfold in_map; cbn; lia).
    replace (x + i + dx) with (x + (i + dx)) by lia. replace (y + j + dy) with (y + (j + dy)) by lia.
    unfold nb_val. cbn [fst snd]. apply coord_inbounds_spec in Ha, Hb. rewrite Ha, Hb. f_equal. symmetry. apply E; lia.
  Qed.
End window.
