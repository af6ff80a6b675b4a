(** Climbing depends on the order of the elevations and the slopes only. *)
From Verif Require Import Climb_model Walk_model Feature_spec Climb_spec Raster_proof Blob_proof Relief_spec Relief_proof
  Heights_spec Datum_spec Raster_spec.
From Coq Require Import ZifyBool.
Local Open Scope Z_scope.

Definition orel {A B} (P : A -> B -> Prop) (o : option A) (o' : option B) : Prop :=
  match o, o' with Some a, Some b => P a b | None, None => True | _, _ => False end.

Section climb.
  Context (near : searches) (m1 m2 : datamap) (Hs : same_relief m1 m2) (Hsl : same_slopes m1 m2).
  Context (L1 : nodata_low m1) (L2 : nodata_low m2) (Hn : blind_searches near m1 m2).
  Local Notation pt := (Relief_proof.pt m1 m2).
  Local Notation pts := (Relief_proof.pts m1 m2).
  Local Notation mpt := (Relief_proof.mpt m1 m2).

  Lemma pt_true z z' : pt z z' <-> true_pt m1 z /\ z' = releveled m2 z.
  Proof.
    destruct z as [p e], z' as [p' e']. unfold Relief_proof.pt, true_pt, releveled, pt_xy, pt_e. cbn. split.
    - intros (<- & H & -> & ->). done.
    - intros ([H ->] & [= -> ->]). done.
  Qed.
  Lemma pts_true l l' : pts l l' <-> Forall (true_pt m1) l /\ l' = map (releveled m2) l.
  Proof.
    split.
    - induction 1 as [|a b l l' Hab _ IH]; [done|]. apply pt_true in Hab as [Ha ->]. destruct IH as [IH ->]. split; [by constructor|done].
    - intros [H ->]. induction H; constructor; [|done]. by apply pt_true.
  Qed.
  Lemma groups_true l l' : Forall2 pts l l' <-> Forall (Forall (true_pt m1)) l /\ l' = map (map (releveled m2)) l.
  Proof.
    split.
    - induction 1 as [|a b l l' Hab _ IH]; [done|]. apply pts_true in Hab as [Ha ->]. destruct IH as [IH ->]. split; [by constructor|done].
    - intros [H ->]. induction H; constructor; [|done]. by apply pts_true.
  Qed.
  Lemma mpt_true z z' : mpt z z' <-> true_node m1 z /\ z' = mlevel m2 z.
  Proof.
    destruct z as [p o], z' as [p' o']. unfold Relief_proof.mpt, true_node, mlevel. cbn. destruct o as [e|], o' as [e'|].
    - rewrite pt_true. unfold releveled. cbn. split.
      + intros (<- & H & [= ->]). done.
      + intros (H & [= -> ->]). done.
    - split; [by intros [_ []]|]. by intros [_ [= ]].
    - split; [by intros [_ []]|]. by intros [_ [= ]].
    - split; [by intros [-> _]|]. by intros [_ [= ->]].
  Qed.
  Lemma mpts_true l l' : Forall2 mpt l l' <-> Forall (true_node m1) l /\ l' = map (mlevel m2) l.
  Proof.
    split.
    - induction 1 as [|a b l l' Hab _ IH]; [done|]. apply mpt_true in Hab as [Ha ->]. destruct IH as [IH ->]. split; [by constructor|done].
    - intros [H ->]. induction H; constructor; [|done]. by apply mpt_true.
  Qed.
  Lemma elev_eq p q : data_cell m1 p -> data_cell m1 q -> elev m1 p = elev m1 q -> elev m2 p = elev m2 q.
  Proof. intros Hp Hq H. pose proof (sr_less _ _ Hs p q Hp Hq). pose proof (sr_less _ _ Hs q p Hq Hp). lia. Qed.

  Definition stp (c : xy) : option (pte * Q) -> option (pte * Q) -> Prop := orel (fun a a' => pt a.1 a'.1 /\
    elev m1 c <= elev m1 (pt_xy a.1) /\ slope_up m1 c (pt_xy a.1) = Ok a.2 /\ slope_up m2 c (pt_xy a.1) = Ok a'.2).
  Lemma le_bool a b c d : ((a <= b)%Q <-> (c <= d)%Q) -> Qle_bool a b = Qle_bool c d.
  Proof. intros H. apply eq_true_iff_eq. by rewrite !Qle_bool_iff. Qed.
  Lemma steep_loop x y ns ns' best best' : data_cell m1 (x, y) -> Forall2 (nb m1 m2) ns ns' -> stp (x, y) best best' ->
    alike (stp (x, y)) (steepest_loop m1 x y (elev m1 (x, y)) ns best) (steepest_loop m2 x y (elev m2 (x, y)) ns' best').
  Proof.
    intros Hd H. pose proof (proj1 (sr_data _ _ Hs (x, y)) Hd) as Hd2. revert best best'.
    induction H as [|[[a b] v] [[a' b'] v'] ns ns' [E Hv] _ IH]; intros best best' Hb; [exact Hb|].
    cbn in E. injection E as <- <-. cbn [steepest_loop]. cbn in Hv.
    destruct Hv as [[-> ->]|(e & e' & -> & -> & Hp & _ & _)].
    - assert (match dm_nodata m1 with None => steepest_loop m1 x y (elev m1 (x, y)) ns best
        | Some e => if e <? elev m1 (x, y) then steepest_loop m1 x y (elev m1 (x, y)) ns best else
            let* s := dm_slope m1 (x - a) (y - b) (elev m1 (x, y)) e in
            if match best with None => Qle_bool 0 s | Some (_, s0) => negb (Qle_bool s s0) end
            then steepest_loop m1 x y (elev m1 (x, y)) ns (Some ((a, b, e), s)) else steepest_loop m1 x y (elev m1 (x, y)) ns best end
        = steepest_loop m1 x y (elev m1 (x, y)) ns best) as E1.
      { destruct (dm_nodata m1) as [v|] eqn:E; [|done]. pose proof (L1 v (x, y) E Hd). by replace (v <? _) with true by lia. }
      assert (match dm_nodata m2 with None => steepest_loop m2 x y (elev m2 (x, y)) ns' best'
        | Some e => if e <? elev m2 (x, y) then steepest_loop m2 x y (elev m2 (x, y)) ns' best' else
            let* s := dm_slope m2 (x - a) (y - b) (elev m2 (x, y)) e in
            if match best' with None => Qle_bool 0 s | Some (_, s0) => negb (Qle_bool s s0) end
            then steepest_loop m2 x y (elev m2 (x, y)) ns' (Some ((a, b, e), s)) else steepest_loop m2 x y (elev m2 (x, y)) ns' best' end
        = steepest_loop m2 x y (elev m2 (x, y)) ns' best') as E2.
      { destruct (dm_nodata m2) as [v|] eqn:E; [|done]. pose proof (L2 v (x, y) E Hd2). by replace (v <? _) with true by lia. }
      cbv zeta. rewrite E1, E2. by apply IH.
    - destruct Hp as (_ & Hda & Ee & Ee'). cbn in Hda. unfold pt_e, pt_xy in Ee, Ee'. cbn in Ee, Ee'. subst e e'.
      pose proof (sr_less _ _ Hs (a, b) (x, y) Hda Hd) as Hl.
      replace (elev m2 (a, b) <? elev m2 (x, y)) with (elev m1 (a, b) <? elev m1 (x, y)) by lia.
      destruct (Z.ltb_spec (elev m1 (a, b)) (elev m1 (x, y))) as [?|Hge]; [by apply IH|].
      pose proof (ss_slope _ _ Hsl (x, y) (a, b) Hd Hda Hge) as Es.
      change (dm_slope m1 (x - a) (y - b) (elev m1 (x, y)) (elev m1 (a, b))) with (slope_up m1 (x, y) (a, b)).
      change (dm_slope m2 (x - a) (y - b) (elev m2 (x, y)) (elev m2 (a, b))) with (slope_up m2 (x, y) (a, b)).
      destruct (slope_up m1 (x, y) (a, b)) as [s|] eqn:E1, (slope_up m2 (x, y) (a, b)) as [s'|] eqn:E2; try done. cbn [rbind]. cbv zeta.
      assert (match best with None => Qle_bool 0 s | Some (_, s0) => negb (Qle_bool s s0) end =
              match best' with None => Qle_bool 0 s' | Some (_, s0) => negb (Qle_bool s' s0) end) as <-.
      { destruct best as [[z t]|], best' as [[z' t']|]; try done; [|by apply le_bool]. destruct Hb as (Hz & Hge' & Et & Et'). cbn [fst snd] in *.
        f_equal. apply le_bool. apply (ss_steeper _ _ Hsl (x, y) (a, b) (pt_xy z)); try done. apply Hz. }
      destruct (match best with None => _ | Some _ => _ end); apply IH; [|done]. repeat split; try apply Hda; done.
  Qed.
  Lemma steep x y : data_cell m1 (x, y) -> alike (orel pt) (steepestNeighbor m1 x y) (steepestNeighbor m2 x y).
  Proof.
    intros Hd. pose proof (proj1 (sr_data _ _ Hs (x, y)) Hd) as Hd2. unfold steepestNeighbor, dm_get.
    rewrite !np_read_inb by (apply Hd || apply Hd2). cbn [rbind]. rewrite !iterateFull_eq. cbn [rbind].
    apply (alike_bind (stp (x, y))).
    - change (dm_cell m1 x y) with (elev m1 (x, y)). change (dm_cell m2 x y) with (elev m2 (x, y)).
      apply steep_loop; [done| |done]. by apply (nbs_alike (fun _ _ _ => O)).
    - intros [[p s]|] [[p' s']|] H; try done. cbn. apply H.
  Qed.

  (** *** Flat areas *)
  Definition assign2 (l : list (xy * xy)) (s : climb_state) : res climb_state :=
    foldM (fun (kv : xy * xy) s =>
      match cs_table s !! kv.2 with
      | None => Err KeyError
      | Some d => Ok (CS (<[kv.1 := d]> (cs_table s)) (cs_log s))
      end) l s.
  Lemma assign_pairs (d : gmap pte pte) s :
    assign_flat d s = assign2 (map (fun kv => (pt_xy kv.1, pt_xy kv.2)) (map_to_list d)) s.
  Proof. unfold assign_flat, assign2. generalize (map_to_list d). intros l. revert s. induction l as [|kv l IH]; intros s; [done|]. cbn [foldM map]. cbn [fst snd].
    destruct (cs_table s !! pt_xy kv.2); [|done]. cbn [rbind]. apply IH. Qed.
  Lemma assign_perm l l' s : l ≡ₚ l' -> NoDup (map fst l) -> (forall a b, a ∈ l -> b ∈ l -> a.2 <> b.1) -> assign2 l s = assign2 l' s.
  Proof.
    intros H. revert s. induction H as [|a l l' H IH|a b l|l l' l'' H1 IH1 H2 IH2]; intros s Hd Hx.
    - done.
    - unfold assign2 in *. cbn [foldM]. destruct (cs_table s !! a.2); [|done]. cbn [rbind]. apply IH.
      + by inversion Hd.
      + intros x y ? ?. apply Hx; by right.
    - unfold assign2. cbn [foldM]. destruct a as [k v], b as [k' v']. cbn [fst snd].
      assert (v <> k') by (apply (Hx (k, v) (k', v')); set_solver). assert (v' <> k) by (apply (Hx (k', v') (k, v)); set_solver).
      assert (k <> k').
      { cbn in Hd. apply NoDup_cons in Hd as [Hd _]. intros ->. apply Hd. left. }
      destruct (cs_table s !! v') as [d'|] eqn:E'; cbn [rbind cs_table cs_log].
      + rewrite lookup_insert_ne by done. destruct (cs_table s !! v) as [d|] eqn:E; cbn [rbind cs_table cs_log]; [|done].
        rewrite lookup_insert_ne by done. rewrite E'. cbn [rbind]. by rewrite insert_commute.
      + destruct (cs_table s !! v) as [d|] eqn:E; [|done]. cbn [rbind cs_table]. rewrite lookup_insert_ne by done. by rewrite E'.
    - rewrite IH1 by done. apply IH2.
      + by rewrite <-H1.
      + intros x y. rewrite <-!H1. apply Hx.
  Qed.
  Lemma assign_alike us them s : Forall (true_pt m1) us -> Forall (true_pt m1) them ->
    (forall p t, p ∈ us -> t ∈ them -> pt_xy p <> pt_xy t) -> forall k k' : climb_state -> res (option nat * climb_state),
    (forall s, k s = k' s) ->
    (let* d := s_map near us them in let* s' := assign_flat d s in k s') =
    (let* d := s_map near (map (releveled m2) us) (map (releveled m2) them) in let* s' := assign_flat d s in k' s').
  Proof.
    intros Hu Ht Hne k k' Hk. pose proof (bl_map _ _ _ Hn us them Hu Ht) as H.
    destruct (s_map near us them) as [d|e], (s_map near _ _) as [d'|e']; try done; [|by subst]. cbn [rbind].
    destruct H as (H1 & H2 & H3 & H4).
    assert (forall p t, d !! p = Some t -> p ∈ us) as Hdom.
    { intros p t E. destruct (decide (p ∈ us)) as [?|Hno]; [done|]. by rewrite (H2 _ Hno) in E. }
    assert (forall p q, p ∈ us -> q ∈ us -> pt_xy p = pt_xy q -> p = q) as Hinj.
    { rewrite Forall_forall in Hu. intros p q Hp Hq E. destruct (Hu p Hp) as [_ E1], (Hu q Hq) as [_ E2]. destruct p as [p e], q as [q e'].
      unfold pt_xy, pt_e in *. cbn in *. by subst. }
    assert (map (fun kv => (pt_xy kv.1, pt_xy kv.2)) (map_to_list d) ≡ₚ map (fun kv => (pt_xy kv.1, pt_xy kv.2)) (map_to_list d')) as Hp.
    { assert (forall (d : gmap pte pte), (forall p q t u, d !! p = Some t -> d !! q = Some u -> pt_xy p = pt_xy q -> p = q) ->
        NoDup (map (fun kv => (pt_xy kv.1, pt_xy kv.2)) (map_to_list d))) as Hnd.
      { intros d0 Hi. apply NoDup_fmap_2_strong; [|apply NoDup_map_to_list]. intros [p t] [q u] E1 E2 [= E3 _].
        apply elem_of_map_to_list in E1, E2. pose proof (Hi _ _ _ _ E1 E2 E3) as ->. rewrite E1 in E2. by injection E2 as ->. }
      apply NoDup_Permutation.
      - apply Hnd. intros p q t u E1 E2. apply Hinj; by eapply Hdom.
      - apply Hnd. intros p q t u E1 E2 E3.
        destruct (decide (p ∈ map (releveled m2) us)) as [Hp|Hno]; [|by rewrite (H3 _ Hno) in E1].
        destruct (decide (q ∈ map (releveled m2) us)) as [Hq|Hno]; [|by rewrite (H3 _ Hno) in E2].
        apply elem_of_list_fmap in Hp as (p0 & -> & Hp), Hq as (q0 & -> & Hq). cbn in E3. by rewrite (Hinj p0 q0 Hp Hq E3).
      - intros [x y]. rewrite !elem_of_list_fmap. split.
        + intros ([p t] & [= -> ->] & E). apply elem_of_map_to_list in E. exists (releveled m2 p, releveled m2 t).
          split; [done|]. apply elem_of_map_to_list. rewrite H1 by (by eapply Hdom). by rewrite E.
        + intros ([p t] & [= -> ->] & E). apply elem_of_map_to_list in E.
          destruct (decide (p ∈ map (releveled m2) us)) as [Hp|Hno]; [|by rewrite (H3 _ Hno) in E].
          apply elem_of_list_fmap in Hp as (p0 & -> & Hp). rewrite H1 in E by done.
          apply fmap_Some in E as (t0 & E & ->). exists (p0, t0). split; [done|]. by apply elem_of_map_to_list. }
    rewrite !assign_pairs, (assign_perm _ _ s Hp).
    - destruct (assign2 _ s); [|done]. cbn. apply Hk.
    - rewrite <-list_fmap_compose. apply NoDup_fmap_2_strong; [|apply NoDup_map_to_list].
      intros [p t] [q u] E1 E2 E3. apply elem_of_map_to_list in E1, E2. cbn in E3.
      pose proof (Hinj p q (Hdom _ _ E1) (Hdom _ _ E2) E3) as ->. rewrite E1 in E2. by injection E2 as ->.
    - intros a b Ha Hb. apply elem_of_list_fmap in Ha as ([p t] & -> & Ha), Hb as ([q u] & -> & Hb).
      apply elem_of_map_to_list in Ha, Hb. cbn. intros E. apply (Hne q t); [by eapply Hdom|by eapply H4|done].
  Qed.

  Lemma high_alike e e' l l' : both m1 m2 e e' -> pts l l' -> pts (findHighPerimeter l e) (findHighPerimeter l' e').
  Proof.
    intros He. unfold findHighPerimeter. induction 1 as [|a b l l' Hab _ IH]; [constructor|].
    rewrite !filter_cons. pose proof (both_lt m1 m2 Hs _ _ _ _ He (pt_both m1 m2 _ _ Hab)).
    destruct (decide _), (decide _); try lia; [by constructor|done].
  Qed.

  Lemma loop_alike fuel : forall cur cur' climbed s, pt cur cur' ->
    climb_loop near m1 fuel cur climbed s = climb_loop near m2 fuel cur' climbed s.
  Proof.
    induction fuel as [|fuel IH]; intros [c e] [c' e'] climbed s Hc; [done|]. cbn [climb_loop].
    pose proof Hc as (E & Hd & _). unfold pt_xy in E. cbn in E. subst c'. destruct c as [x y]. unfold pt_x, pt_y. cbn [fst snd].
    pose proof (steep x y Hd) as Hst.
    destruct (steepestNeighbor m1 x y) as [[sn|]|], (steepestNeighbor m2 x y) as [[sn'|]|]; try done; cbn [rbind]; [|by cbn in Hst; subst].
    cbn in Hst. rewrite <-(pt_xy_eq _ _ _ _ Hst). destruct (cs_table s !! pt_xy sn); [done|].
    rewrite <-(both_eq m1 m2 Hs _ _ _ _ (pt_both _ _ _ _ Hst) (pt_both _ _ _ _ Hc)).
    destruct (pt_e sn =? _); [|by apply IH].
    destruct sn as [[a b] es], sn' as [[a' b'] es']. pose proof Hst as (E & Hda & Ee & Ee').
    unfold pt_xy, pt_e in E, Ee, Ee', Hda. cbn in E, Ee, Ee', Hda. injection E as <- <-. unfold pt_e. cbn [fst snd pt_xy].
    assert (map_ok m1) as Hok by (destruct Hda as [[? ?] _]; cbn in *; unfold map_ok; lia).
    pose proof (blob_alike (fun _ _ _ => O) m1 m2 Hs a b es es' Hst) as Hb.
    destruct (equalHeightBlob_spec m1 a b Hok Hda) as (bl & Ebl & He & _ & Hpts & _ & Hper & _). subst es.
    rewrite Ebl in *. destruct (equalHeightBlob m2 a b es') as [bl'|]; [|done]. cbn [rbind]. cbn [alike] in Hb.
    destruct Hb as [B1 B2 B3 _ _ _].
    assert (both m1 m2 (elev m1 (a, b)) es') as Hboth by exact (pt_both _ _ _ _ Hst).
    pose proof (high_alike _ _ _ _ Hboth B3) as Hh.
    pose proof (alike_fold pt eq
      (fun p s => match cs_table s !! pt_xy p with Some _ => Ok s | None => let* r := climb_loop near m1 fuel p [pt_xy p] s in Ok r.2 end)
      (fun p s => match cs_table s !! pt_xy p with Some _ => Ok s | None => let* r := climb_loop near m2 fuel p [pt_xy p] s in Ok r.2 end)
      _ _ Hh) as Hf.
    assert (forall p p' s s', pt p p' -> s = s' -> alike eq
      (match cs_table s !! pt_xy p with Some _ => Ok s | None => let* r := climb_loop near m1 fuel p [pt_xy p] s in Ok r.2 end)
      (match cs_table s' !! pt_xy p' with Some _ => Ok s' | None => let* r := climb_loop near m2 fuel p' [pt_xy p'] s' in Ok r.2 end)) as Hst2.
    { intros p p' s0 ? Hp <-. rewrite <-(pt_xy_eq _ _ _ _ Hp). destruct (_ !! _); [done|].
      rewrite <-(IH p p') by done. destruct (climb_loop _ _ _ _ _ _); done. }
    specialize (Hf Hst2 s s eq_refl). clear Hst2.
    destruct (foldM _ (findHighPerimeter (bl_perimeter bl) _) s) as [s1|], (foldM _ (findHighPerimeter (bl_perimeter bl') _) s) as [s1'|];
      try done; [|cbn in Hf; by subst]. cbn in Hf. subst s1'. cbn [rbind].
    assert (pts (map (fun c => (c, bl_elevation bl)) (bl_points bl)) (map (fun c => (c, bl_elevation bl')) (bl_points bl'))) as Hus.
    { rewrite <-B1, He. assert (bl_elevation bl' = es') as ->.
      { rewrite He in B2. destruct B2 as (c1 & Hc1 & E1 & ->). destruct Hboth as (c2 & Hc2 & E2 & ->). apply elev_eq; [done..|congruence]. }
      assert (forall c, c ∈ bl_points bl -> data_cell m1 c /\ elev m1 c = elev m1 (a, b)) as Hm.
      { intros c Hc1%Hpts. split; [by eapply same_flat_data_r|]. symmetry. by apply same_flat_elev. }
      clear -Hm Ee' Hda Hs. induction (bl_points bl) as [|c l IHl]; [constructor|]. cbn. constructor.
      - destruct (Hm c) as [H1 H2]; [left|]. split; [done|]. split; [done|]. unfold pt_e, pt_xy. cbn. split; [done|].
        rewrite Ee'. apply elev_eq; done.
      - apply IHl. intros x Hx. apply Hm. by right. }
    pose proof (high_alike _ _ _ _ B2 B3) as Hth.
    apply pts_true in Hus as [U1 ->], Hth as [T1 ->].
    apply assign_alike; [done|done| |done].
    intros p t Hp Ht E. apply elem_of_list_fmap in Hp as (c & -> & Hc1). apply elem_of_list_filter in Ht as [Hlt Ht].
    apply Hpts in Hc1. apply same_flat_elev in Hc1 as Ec. destruct t as [q et]. apply Hper in Ht as [_ ->].
    unfold pt_xy, pt_e in *. cbn in *. subst q. rewrite He in Hlt. lia.
  Qed.
  Lemma climb_alike p p' s : pt p p' -> climb near m1 p s = climb near m2 p' s.
  Proof.
    intros H. unfold climb, climb_fuel. rewrite (pt_xy_eq _ _ _ _ H). destruct (_ !! _); [done|].
    rewrite (sr_x _ _ Hs), (sr_y _ _ Hs). by apply loop_alike.
  Qed.
  Lemma climbs_alike l l' s : pts l l' -> climb_points near m1 l s = climb_points near m2 l' s.
  Proof.
    intros H. unfold climb_points. generalize (@nil nat, s). induction H as [|p p' l l' Hp _ IH]; intros ds; [done|]. cbn [foldM].
    rewrite (climb_alike p p') by done. destruct (climb near m2 p' ds.2); [|done]. cbn [rbind]. apply IH.
  Qed.
End climb.
