(** Feature discovery on rasters whose marker for missing cells is NaN. *)
From Verif Require Import Base_model Raster_model Analyze_model Nan_model Nan_spec Feature_spec Raster_proof Contig_proof
  Touch_proof Blob_proof Analyze_proof Area_proof Scan_proof Feature_facts Nan_group_proof Raster_spec.
From Coq Require Import ZifyBool.
Local Open Scope Z_scope.

Definition up (z : pte) : npt := (pt_xy z, Num (pt_e z)).

Section nan.
  Context (m : datamap) (nan : xy -> bool).
  Hypothesis Hok : map_ok m.
  Hypothesis Hmarks : nan_marks nan m.
  Notation iter := (n_iterateFull m nan (NaN None)).

  (** ** What neighbours report *)
  Definition vrel (o : xy * option Z) (n : xy * fnum) : Prop :=
    o.1 = n.1 /\
    ((exists k, n.2 = NaN k /\ o.2 = dm_nodata m /\ ~ data_cell m n.1) \/
     (exists z, n.2 = Num z /\ o.2 = Some z /\ dm_nodata m <> Some z /\ data_cell m n.1 /\ z = elev m n.1)).

  Lemma inb q : coord_inbounds m q.1 q.2 = true <-> in_map m q.
  Proof. unfold coord_inbounds, in_map. lia. Qed.

  Lemma nval c q : let v := if coord_inbounds m q.1 q.2 then n_read m nan c q else NaN None in vrel (q, nb_val m q) (q, v).
  Proof.
    cbn zeta. split; [done|]. cbn [fst snd]. pose proof (nb_val_reported m q) as R.
    destruct (coord_inbounds m q.1 q.2) eqn:E.
    - apply inb in E. destruct R as [[_ R]|[R _]]; [|done]. rewrite R. unfold n_read.
      destruct (nan q) eqn:En.
      + left. exists (Some c). apply Hmarks in En; [|done]. split; [done|]. split; [done|]. intros [_ H]. by rewrite En in H.
      + right. exists (elev m q). assert (dm_nodata m <> Some (elev m q)) as Hn.
        { intros H. apply Hmarks in H; [|done]. congruence. }
        split; [done|]. split; [done|]. split; [done|]. split; [|done]. by split.
    - assert (~ in_map m q) as Hn by (rewrite <- inb; congruence). destruct R as [[R _]|[_ R]]; [done|]. rewrite R.
      left. exists None. split; [done|]. split; [done|]. intros [H _]. done.
  Qed.

  Lemma iter_rel c : Forall2 vrel (full_nbrs m c.1 c.2) (iter c).
  Proof.
    unfold full_nbrs, n_iterateFull. induction FULL_SHIFT_LIST as [|d l IH]; [constructor|]. cbn [map]. constructor; [|exact IH].
    exact (nval c (c.1 + d.1, c.2 + d.2)).
  Qed.

  Lemma elem_iter c q v : (q, v) ∈ iter c <-> adj8 c q /\ v = (if coord_inbounds m q.1 q.2 then n_read m nan c q else NaN None).
  Proof.
    split.
    - intros H. apply elem_of_list_fmap in H as (d & [= -> ->] & Hd). split; [|done].
      assert ((shift_of c.1 c.2 d, nb_val m (shift_of c.1 c.2 d)) ∈ full_nbrs m c.1 c.2) as H'.
      { apply elem_of_list_fmap. by exists d. }
      apply elem_of_full_nbrs in H' as [H' _]. by destruct c.
    - intros [Ha ->]. assert ((q, nb_val m q) ∈ full_nbrs m c.1 c.2) as H'.
      { apply elem_of_full_nbrs. split; [by destruct c|apply nb_val_reported]. }
      apply elem_of_list_fmap in H' as (d & E & Hd). injection E as E1 E2. apply elem_of_list_fmap. exists d. split; [|done].
      rewrite E1. done.
  Qed.

  Lemma iter_val c q v : (q, v) ∈ iter c -> vrel (q, nb_val m q) (q, v).
  Proof. intros [_ ->]%elem_iter. apply nval. Qed.

  Lemma n_set_add_elem a b l : b ∈ n_set_add a l <-> b = a \/ b ∈ l.
  Proof. unfold n_set_add. case_decide; [naive_solver|]. rewrite elem_of_app, elem_of_list_singleton. tauto. Qed.

  (** ** The neighbour loop *)
  Lemma scan_rel e ns ns' : Forall2 vrel ns ns' -> forall perim medge medge',
    match scan_neighbors m e ns perim medge, n_scan_neighbors m (NaN None) (Num e) ns' perim medge' with
    | inl a, inl b => a = b
    | inr a, inr b => a.1 = b.1
    | _, _ => False
    end.
  Proof.
    induction 1 as [|[q o] [q' v] ns ns' [E V] HF IH]; intros perim medge medge'; cbn; [done|].
    cbn in E. subst q'. cbn in V. destruct V as [(k & -> & -> & Hn)|(z & -> & -> & Hz & Hd & Hze)].
    - rewrite decide_True by done. cbn. apply IH.
    - rewrite decide_False by congruence. cbn. destruct (z =? e); [done|]. cbn. destruct (e <? z); apply IH.
  Qed.

  Lemma scan_nan k ns : forall perim medge, exists medge',
    n_scan_neighbors m (NaN None) (NaN k) ns perim medge = inr (perim, medge').
  Proof.
    induction ns as [|[q v] ns IH]; intros perim medge; cbn [n_scan_neighbors]; [by eexists|].
    destruct v as [z|k']; cbn; apply IH.
  Qed.

  Lemma scan_edge e ns : forall perim medge p' medge',
    n_scan_neighbors m (NaN None) (Num e) ns perim medge = inr (p', medge') ->
    (forall z, z ∈ medge -> z ∈ medge') /\
    (forall q k, (q, NaN k) ∈ ns -> is_map_edge m q.1 q.2 = true -> (q, NaN k) ∈ medge') /\
    (forall z, z ∈ medge' -> z ∈ medge \/ (z ∈ ns /\ is_map_edge m z.1.1 z.1.2 = true)).
  Proof.
    induction ns as [|[q v] ns IH]; intros perim medge p' medge' H.
    { cbn in H. injection H as <- <-. split; [done|]. split; [intros q k Hq; by apply elem_of_nil in Hq|by left]. }
    cbn [n_scan_neighbors] in H.
    assert (n_eq v (NaN None) = false) as E0 by (by destruct v). rewrite E0 in H.
    assert (exists perim1, n_scan_neighbors m (NaN None) (Num e) ns perim1
              (if is_map_edge m q.1 q.2 then n_set_add (q, v) medge else medge) = inr (p', medge')) as (perim1 & H1).
    { destruct v as [z|k]; [|by eexists]. destruct (n_eq (Num z) (Num e)); [done|by eexists]. }
    clear H. apply IH in H1 as (I1 & I2 & I3). split; [|split].
    - intros z Hz. apply I1. destruct (is_map_edge m q.1 q.2); [apply n_set_add_elem; by right|done].
    - intros q' k [Hq|Hq]%elem_of_cons He; [|by apply I2].
      injection Hq as -> <-. apply I1. rewrite He. apply n_set_add_elem. by left.
    - intros z Hz. apply I3 in Hz as [Hz|[Hz He]]; [|right; split; [by right|done]].
      destruct (is_map_edge m q.1 q.2) eqn:E; [|by left]. apply n_set_add_elem in Hz as [->|Hz]; [|by left].
      right. split; [by left|done].
  Qed.

  (** ** The flat area *)
  Record bsim (s : blob_state) (t : nblob_state) : Prop := {
    sim_explored : nb_explored t = bs_explored s;
    sim_members : nb_members t = bs_members s;
    sim_hash : nb_hash t = bs_hash s;
    sim_perim : nb_perim t = bs_perim s;
    sim_stack : nb_stack t = map fst (bs_stack s);
    sim_epts : nb_mp_edges t = map up (bs_mp_edges s);
    sim_edge : nb_edge t = bs_edge s }.

  Lemma visit_sim c master o n s t : vrel o n -> bsim s t ->
    bsim (blob_visit m master o s) (n_blob_visit m (NaN None) c master n t).
  Proof.
    destruct o as [q o], n as [q' v]. intros [E V] [S1 S2 S3 S4 S5 S6 S7]. cbn in E, V. subst q'. unfold blob_visit, n_blob_visit. cbn [fst snd].
    assert (n_eq v (NaN None) = false) as -> by (by destruct v).
    destruct V as [(k & -> & -> & Hn)|(z & -> & -> & Hz & Hd & _)].
    - cbn [n_eq andb negb]. assert (match dm_nodata m with
        | Some e => if decide (dm_nodata m = Some e) then s else blob_visit m master (q, Some e) s
        | None => s end = s) as Es.
      { destruct (dm_nodata m); [by rewrite decide_True|done]. }
      unfold blob_visit in Es. cbn [fst snd] in Es.
      match goal with |- bsim ?a _ => assert (a = s) as -> end.
      { destruct (dm_nodata m); [by rewrite decide_True|done]. }
      destruct (nb_hash t !! q); by split.
    - rewrite decide_False by done. cbn [n_eq]. rewrite S1, S3. destruct (z =? master) eqn:E; cbn [andb negb].
      + destruct (bool_decide (q ∈ bs_explored s)); [by split|]. cbn [negb]. split; cbn; try congruence.
        destruct (is_map_edge m q.1 q.2); [|done]. rewrite S6, map_app. cbn. unfold up, pt_xy, pt_e. done.
      + destruct (bs_hash s !! q); [by split|]. split; cbn; try congruence; destruct (master <? z); congruence.
  Qed.

  Lemma visits_sim c master ns ns' : Forall2 vrel ns ns' -> forall s t, bsim s t ->
    bsim (foldl (fun s n => blob_visit m master n s) s ns) (foldl (fun s n => n_blob_visit m (NaN None) c master n s) t ns').
  Proof. induction 1 as [|o n ns ns' V HF IH]; intros s t S; [done|]. cbn [foldl]. apply IH. by apply visit_sim. Qed.

  Lemma loop_sim fuel master : forall s t s', bsim s t -> blob_loop fuel m master s = Ok s' ->
    exists t', n_blob_loop m nan (NaN None) fuel master t = Ok t' /\ bsim s' t'.
  Proof.
    induction fuel as [|fuel IH]; intros s t s' S; [done|]. cbn [blob_loop n_blob_loop].
    rewrite (sim_stack _ _ S). destruct (bs_stack s) as [|g st] eqn:Es; cbn [map].
    - intros [= <-]. by exists t.
    - rewrite iterateFull_eq. cbn [rbind]. intros H. eapply IH; [|exact H].
      apply visits_sim; [exact (iter_rel g.1)|]. destruct S as [S1 S2 S3 S4 S5 S6 S7]. split; cbn; try done. by rewrite S7.
  Qed.

  (** Border cells beside the area. *)
  Record einv (master : Z) (t : nblob_state) : Prop := {
    ei_stack : forall g, g ∈ nb_stack t -> g ∈ nb_members t;
    ei_hash : forall q z, nb_hash t !! q = Some z -> data_cell m q;
    ei_below : forall z, z ∈ nb_map_edge t -> is_map_edge m z.1.1 z.1.2 = true /\ n_eq z.2 (Num master) = false /\
      exists g, g ∈ nb_members t /\ z ∈ iter g }.
  Definition seen (t : nblob_state) (g : xy) : Prop :=
    forall q k, (q, NaN k) ∈ iter g -> is_map_edge m q.1 q.2 = true -> (q, NaN k) ∈ nb_map_edge t.

  Lemma visit_edge g master n t : n ∈ iter g -> g ∈ nb_members t -> einv master t ->
    let t' := n_blob_visit m (NaN None) g master n t in
    einv master t' /\ (forall z, z ∈ nb_map_edge t -> z ∈ nb_map_edge t') /\
    (forall c, c ∈ nb_members t -> c ∈ nb_members t') /\
    (forall c, c ∈ nb_members t' -> c ∈ nb_members t \/ c ∈ nb_stack t') /\
    (forall c, c ∈ nb_stack t -> c ∈ nb_stack t') /\
    (forall k, n.2 = NaN k -> is_map_edge m n.1.1 n.1.2 = true -> n ∈ nb_map_edge t').
  Proof.
    intros Hn Hg Hi. destruct n as [q v]. cbn zeta. unfold n_blob_visit. cbn [fst snd].
    assert (n_eq v (NaN None) = false) as -> by (by destruct v).
    pose proof (iter_val g q v Hn) as [_ V]. cbn [fst snd] in V.
    destruct (n_eq v (Num master) && negb (bool_decide (q ∈ nb_explored t))) eqn:E1.
    - destruct Hi as [I1 I2 I3]. split; [split|]; cbn.
      + intros c [->|Hc]%elem_of_cons; apply elem_of_app; [right; by apply elem_of_list_singleton|left; by apply I1].
      + exact I2.
      + intros z Hz. destruct (I3 z Hz) as (H1 & H2 & c & Hc & Hzc). split; [done|]. split; [done|]. exists c. split; [|done].
        apply elem_of_app. by left.
      + split; [done|]. split; [intros; apply elem_of_app; by left|]. split.
        { intros c [Hc| ->%elem_of_list_singleton]%elem_of_app; [by left|right; by left]. }
        split; [intros; by right|]. intros k ->. done.
    - destruct (negb (n_eq v (Num master))) eqn:E2.
      2:{ split; [done|]. split; [done|]. split; [done|]. split; [by left|]. split; [done|]. intros k ->. done. }
      destruct (nb_hash t !! q) eqn:Eh.
      { split; [done|]. split; [done|]. split; [done|]. split; [by left|]. split; [done|].
        intros k ->. apply (ei_hash _ _ Hi) in Eh. destruct V as [(k' & _ & _ & Hnd)|(z & [=] & _)]. done. }
      destruct Hi as [I1 I2 I3]. split; [split|]; cbn.
      + exact I1.
      + destruct v as [z|k].
        * destruct (master <? z); [|exact I2]. intros q' z' Hq'. destruct (decide (q' = q)) as [->|Hne].
          -- destruct V as [(k & [=] & _)|(z'' & _ & _ & _ & Hd & _)]. done.
          -- rewrite lookup_insert_ne in Hq' by congruence. by eapply I2.
        * exact I2.
      + intros z Hz. destruct (is_map_edge m q.1 q.2) eqn:Em; [|by apply I3].
        apply n_set_add_elem in Hz as [->|Hz]; [|by apply I3]. cbn. split; [done|]. split; [by destruct (n_eq v (Num master))|].
        by exists g.
      + split.
        { intros z Hz. destruct (is_map_edge m q.1 q.2); [|done]. apply n_set_add_elem. by right. }
        split; [done|]. split; [by left|]. split; [done|].
        intros k -> Em. rewrite Em. apply n_set_add_elem. by left.
  Qed.

  Lemma visits_edge g master ns : forall t, (forall n, n ∈ ns -> n ∈ iter g) -> g ∈ nb_members t -> einv master t ->
    let t' := foldl (fun s n => n_blob_visit m (NaN None) g master n s) t ns in
    einv master t' /\ (forall z, z ∈ nb_map_edge t -> z ∈ nb_map_edge t') /\
    (forall c, c ∈ nb_members t -> c ∈ nb_members t') /\
    (forall c, c ∈ nb_members t' -> c ∈ nb_members t \/ c ∈ nb_stack t') /\
    (forall c, c ∈ nb_stack t -> c ∈ nb_stack t') /\
    (forall q k, (q, NaN k) ∈ ns -> is_map_edge m q.1 q.2 = true -> (q, NaN k) ∈ nb_map_edge t').
  Proof.
    induction ns as [|n ns IH]; intros t Hns Hg Hi; cbn zeta; cbn [foldl].
    { split; [done|]. split; [done|]. split; [done|]. split; [by left|]. split; [done|]. intros q k H. by apply elem_of_nil in H. }
    destruct (visit_edge g master n t ltac:(apply Hns; by left) Hg Hi) as (A1 & A2 & A3 & A4 & A5 & A6).
    destruct (IH (n_blob_visit m (NaN None) g master n t)) as (B1 & B2 & B3 & B4 & B5 & B6); [intros; apply Hns; by right|by apply A3|done|].
    split; [done|]. split; [auto|]. split; [auto|]. split.
    { intros c Hc. apply B4 in Hc as [Hc|Hc]; [|by right]. apply A4 in Hc as [Hc|Hc]; [by left|right; auto]. }
    split; [auto|]. intros q k [Hq|Hq]%elem_of_cons He; [|by apply B6].
    apply B2. rewrite Hq. subst n. by eapply A6.
  Qed.

  Lemma loop_edge fuel master : forall t t', einv master t ->
    (forall g, g ∈ nb_members t -> g ∈ nb_stack t \/ seen t g) ->
    n_blob_loop m nan (NaN None) fuel master t = Ok t' ->
    einv master t' /\ forall g, g ∈ nb_members t' -> seen t' g.
  Proof.
    induction fuel as [|fuel IH]; intros t t' Hi Hs; [done|]. cbn [n_blob_loop].
    destruct (nb_stack t) as [|g st] eqn:Es.
    - intros [= <-]. split; [done|]. intros g Hg. destruct (Hs g Hg) as [H|H]; [by apply elem_of_nil in H|done].
    - set (t1 := NB _ _ _ _ _ _ _ _). intros H.
      destruct (visits_edge g master (iter g) t1) as (A1 & A2 & A3 & A4 & A5 & A6); [done| | |].
      + cbn. apply (ei_stack _ _ Hi). rewrite Es. by left.
      + destruct Hi as [I1 I2 I3]. split; cbn; try done. intros c Hc. apply I1. rewrite Es. by right.
      + eapply IH; [exact A1| |exact H]. intros c Hc. apply A4 in Hc as [Hc|Hc]; [|by left].
        destruct (Hs c Hc) as [Hin|Hin].
        * apply elem_of_cons in Hin as [->|Hin]; [right; exact A6|left; by apply A5].
        * right. intros q k Hq He. apply A2. by apply Hin.
  Qed.

  (** ** One area, side by side *)
  Variable fp : datamap -> list xy -> xy -> xy -> option Q.
  Variable orc : xy -> nat -> nat -> nat.
  Variable enum : xy -> list npt -> list npt.
  Variable rest : xy -> xy -> Z -> list (list npt) -> list mpoint -> list npt -> list (list pte) -> res (list nfeature).
  Notation ncons := (n_consolidatedFeatureLogic enum orc rest).

  Lemma edge_line q : is_map_edge m q.1 q.2 = true <-> border_line m q.
  Proof. unfold is_map_edge, border_line. lia. Qed.

  Lemma area_pair visited c : data_cell m c -> c ∉ visited ->
    exists pos perim medge nmedge multi edge epts visited',
      summit_and_saddle fp orc m visited (elev m c) c.1 c.2 =
        (let* r := consolidatedFeatureLogic fp orc m c pos.1 pos.2 (elev m c) perim medge multi edge epts in Ok (r, visited')) /\
      n_summit_and_saddle m nan (NaN None) enum orc rest visited (Num (elev m c)) c =
        (let* r := ncons c pos (Num (elev m c)) perim nmedge multi edge (map up epts) in Ok (r, visited')) /\
      enumerates (rim m c) perim /\ (edge = true <-> on_edge m c) /\ (edge = false -> epts = []) /\
      (forall g q k, same_flat m c g -> (q, NaN k) ∈ iter g -> border_line m q -> (q, NaN k) ∈ nmedge) /\
      (forall z, z ∈ nmedge -> border_line m z.1 /\ beside m c z.1) /\
      (forall d, d ∈ visited' -> d ∈ visited \/ same_flat m c d).
  Proof.
    intros Hd Hv. destruct c as [x y]. cbn [fst snd]. unfold summit_and_saddle, n_summit_and_saddle.
    rewrite !decide_False by done. rewrite iterateFull_eq. cbn [rbind].
    assert (Hnb : nb_ok m (x, y) (full_nbrs m x y)).
    { split.
      - destruct (iterateFull_spec m x y) as (l & Hl & Hnd & _). rewrite iterateFull_eq in Hl. injection Hl as <-. done.
      - intros q v Hq. by apply elem_of_full_nbrs in Hq. }
    pose proof (scan_rel (elev m (x, y)) _ _ (iter_rel (x, y)) [] [] []) as R. cbn [fst snd] in R.
    pose proof (scan_spec m (x, y) (full_nbrs m x y) [] [] _ Hnb eq_refl) as Hscan.
    destruct (scan_neighbors m (elev m (x, y)) (full_nbrs m x y) [] []) as [[q e]|[perim medge]],
      (n_scan_neighbors m (NaN None) (Num (elev m (x, y))) (iter (x, y)) [] []) as [[q' e']|[perim' nmedge]] eqn:En; try done.
    - injection R as <- <-. destruct Hscan as (v & Hq & Hqd & -> & Heq). apply Hnb in Hq as [Hadj _].
      assert (Hfq : same_flat m (x, y) q) by (eapply same_flat_step; [by apply same_flat_refl|done..]).
      assert (Hiff := fun d => same_flat_iff m (x, y) q d Hfq).
      unfold analyze_multipoint. destruct q as [qx qy]. cbn [fst snd].
      destruct (equalHeightBlob_spec m qx qy Hok Hqd) as (b & Hb & Hbe & B1 & B2 & B3 & B4 & B5 & B6 & B7 & B8 & B9).
      rewrite Hb. cbn [rbind]. unfold equalHeightBlob in Hb. unfold n_equalHeightBlob.
      destruct (blob_loop _ m _ _) as [s|] eqn:Hl in Hb; [|done]. cbn [rbind] in Hb. injection Hb as <-.
      cbn [bl_points bl_perimeter bl_map_edge bl_map_edge_points bl_edge_points bl_elevation] in *.
      set (t0 := NB _ _ _ _ _ _ _ _).
      match type of Hl with blob_loop _ _ _ ?s0 = _ => assert (bsim s0 t0) as S0 end.
      { split; cbn; try done. destruct (is_map_edge m qx qy); done. }
      destruct (loop_sim _ _ _ t0 _ S0 Hl) as (t & Ht & S).
      rewrite Ht. cbn [rbind].
      destruct (loop_edge (blob_fuel m) (elev m (qx, qy)) t0 t) as [Hei Hseen]; [| |exact Ht|].
      { split; cbn; [done|intros q' z'; by rewrite lookup_empty|intros z Hz; by apply elem_of_nil in Hz]. }
      { intros g ->%elem_of_list_singleton. left. by left. }
      destruct S as [S1 S2 S3 S4 S5 S6 S7].
      assert (Hmem : forall g, g ∈ nb_members t <-> same_flat m (x, y) g) by (intros g; rewrite S2, B2; apply Hiff).
      exists (qx, qy), (bs_perim s), (bs_map_edge s), (nb_map_edge t), (map (fun p => (p, None)) (bs_members s)), (bs_edge s),
        (bs_mp_edges s), (list_to_set (bs_members s) ∪ visited).
      split. { rewrite Heq. cbn [fst snd]. by destruct (consolidatedFeatureLogic _ _ _ _ _ _ _ _ _ _ _ _). }
      split. { rewrite S2, S4, S6, S7. reflexivity. }
      split. { split; [done|]. intros [z e]. rewrite B4. unfold rim, higher_rim, pt_xy, pt_e. cbn. rewrite Heq. setoid_rewrite Hiff. done. }
      split. { rewrite B5. unfold on_edge. by setoid_rewrite Hiff. }
      split. { intros E. destruct (bs_mp_edges s) as [|[z e] l] eqn:El; [done|]. exfalso.
               assert (bs_edge s = true) as E'; [|congruence]. apply B5. exists z.
               destruct (proj1 (B7 z e)) as (? & ? & _); [by left|]. done. }
      split. { intros g q' k Hg Hq' Hbl. apply Hseen with g; [by apply Hmem|done|by apply edge_line]. }
      split. { intros z Hz. destruct (ei_below _ _ Hei z Hz) as (H1 & H2 & g & Hg & Hzg). split; [by apply edge_line|].
               destruct z as [zq zv]. split.
               - intros Hsf. apply iter_val in Hzg as [_ [(k & _ & _ & Hnd)|(z & Ez & _ & _ & _ & Ez')]]; cbn [fst snd] in *.
                 + by apply Hnd, (same_flat_data_r m (x, y)).
                 + rewrite Ez in H2. cbn in H2. rewrite Ez', <- (same_flat_elev m _ _ Hsf), Heq in H2. lia.
               - exists g. split; [by apply Hmem|]. by apply elem_iter in Hzg as [? _]. }
      intros d. rewrite elem_of_union, elem_of_list_to_set, B2, Hiff. tauto.
    - cbn in R. subst perim'. destruct Hscan as (S1 & S2 & S3 & S4 & S5).
      assert (Hmem : forall q, adj8 (x, y) q -> exists v, (q, v) ∈ full_nbrs m x y).
      { intros q Hq. exists (nb_val m q). apply elem_of_full_nbrs. split; [done|apply nb_val_reported]. }
      assert (Hflat : forall d, same_flat m (x, y) d <-> d = (x, y)).
      { apply single_flat; [done|]. intros q Hq Hqd. destruct (Hmem q Hq) as [v Hv']. eauto. }
      destruct (scan_edge _ _ _ _ _ _ En) as (E1 & E2 & E3).
      pose proof (border_edge m (x, y) Hd) as Hb. cbn [fst snd] in Hb.
      eexists (x, y), perim, medge, nmedge, [], (is_map_edge m x y), (if is_map_edge m x y then [((x, y), elev m (x, y))] else []), visited.
      split; [reflexivity|]. split; [cbn [fst snd]; destruct (is_map_edge m x y); reflexivity|].
      split. { split.
        - apply S4; [constructor|]. intros z v Hz. by apply elem_of_nil in Hz.
        - intros z. rewrite S2. unfold rim, higher_rim. split.
          + intros [H|(v & Hz & Hzd & Hlt & He)]; [by apply elem_of_nil in H|].
            split; [|done]. split_and!; [done..|]. exists (x, y). split; [by apply Hflat|]. apply Hnb in Hz as [Hza _]. exact Hza.
          + intros [(Hzd & Hlt & c & Hc & Ha) He]. apply Hflat in Hc as ->. right. destruct (Hmem _ Ha) as [v Hv']. eauto. }
      split. { rewrite Hb. unfold on_edge. split; [intros H; exists (x, y); split; [by apply Hflat|done]|].
               intros (c & Hc & H). by apply Hflat in Hc as ->. }
      split; [by intros ->|].
      split. { intros g q k Hg Hq Hbl. apply Hflat in Hg as ->. apply E2; [done|by apply edge_line]. }
      split. { intros z Hz. apply E3 in Hz as [Hz|[Hz He]]; [by apply elem_of_nil in Hz|]. split; [by apply edge_line|].
               destruct z as [zq zv]. apply elem_iter in Hz as [Hadj _]. split.
               - intros Hsf. apply Hflat in Hsf. cbn in Hsf. destruct Hadj as [Hne _]. congruence.
               - exists (x, y). split; [by apply Hflat|done]. }
      by left.
  Qed.
End nan.
