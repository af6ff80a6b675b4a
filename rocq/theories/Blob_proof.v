(** Correctness of equalHeightBlob. *)
From Verif Require Import Blob_model Raster_spec Raster_proof Contig_proof.
From Coq Require Import ZifyBool.
Local Open Scope Z_scope.

(** ** Number of cells *)
Definition all_cells (m : datamap) : list xy :=
  x ← seqZ 0 (dm_max_x m + 1); y ← seqZ 0 (dm_max_y m + 1); [(x, y)].

Lemma elem_of_all_cells m p : p ∈ all_cells m <-> in_map m p.
Proof.
  unfold all_cells, in_map. rewrite elem_of_list_bind. split.
  - intros (x & Hin & Hx). apply elem_of_list_bind in Hin as (y & Hin & Hy).
    apply elem_of_list_singleton in Hin as ->. apply elem_of_seqZ in Hx, Hy. cbn. lia.
  - intros [H1 H2]. exists p.1. split; [|apply elem_of_seqZ; lia].
    apply elem_of_list_bind. exists p.2. split; [|apply elem_of_seqZ; lia].
    destruct p. by apply elem_of_list_singleton.
Qed.

Lemma length_bind_const {A B} (f : A -> list B) (n : nat) (l : list A) :
  (forall a, length (f a) = n) -> length (l ≫= f) = (length l * n)%nat.
Proof.
  intros H. induction l as [|a l IH]; [done|]. rewrite bind_cons, app_length, H, IH. done.
Qed.

Lemma length_all_cells m :
  map_ok m -> length (all_cells m) = Z.to_nat ((dm_max_x m + 1) * (dm_max_y m + 1)).
Proof.
  intros [Hx Hy]. unfold all_cells.
  rewrite (length_bind_const _ (Z.to_nat (dm_max_y m + 1))).
  - rewrite seqZ_length. rewrite Z2Nat.inj_mul by lia. done.
  - intros a. rewrite (length_bind_const _ 1) by done. rewrite seqZ_length. lia.
Qed.

Lemma cells_bound m (l : list xy) :
  map_ok m -> NoDup l -> (forall p, p ∈ l -> in_map m p) ->
  (length l <= Z.to_nat ((dm_max_x m + 1) * (dm_max_y m + 1)))%nat.
Proof.
  intros Hok Hnd Hin. rewrite <-length_all_cells by done.
  apply submseteq_length. apply NoDup_submseteq; [done|].
  intros p Hp. apply elem_of_all_cells. auto.
Qed.

(** ** Flat areas *)
Lemma level_step_sym m p q : level_step m p q -> level_step m q p.
Proof. intros [? ?]. split; [by apply adj8_sym|done]. Qed.

Lemma same_flat_elev m p q : same_flat m p q -> elev m p = elev m q.
Proof. induction 1 as [|b c H IH Hc [Ha He]]; [done|]. congruence. Qed.
Lemma same_flat_data_l m p q : same_flat m p q -> data_cell m p.
Proof. apply linked_in_l. Qed.
Lemma same_flat_data_r m p q : same_flat m p q -> data_cell m q.
Proof. apply linked_in_r. Qed.
Lemma same_flat_sym m p q : same_flat m p q -> same_flat m q p.
Proof. apply linked_sym. apply level_step_sym. Qed.
Lemma same_flat_trans m p q r : same_flat m p q -> same_flat m q r -> same_flat m p r.
Proof. apply linked_trans. Qed.
Lemma same_flat_refl m p : data_cell m p -> same_flat m p p.
Proof. by constructor. Qed.
Lemma same_flat_step m p q r :
  same_flat m p q -> data_cell m r -> adj8 q r -> elev m q = elev m r -> same_flat m p r.
Proof. intros. eapply linked_step; [done..|]. done. Qed.

(** What a neighbour looks like when it is not skipped. *)
Lemma reported_data m q e :
  reported m q (Some e) -> dm_nodata m <> Some e -> data_cell m q /\ e = elev m q.
Proof.
  intros [[Hm [= ->]]|[Hm Hn]] Hne; [|by rewrite Hn in Hne].
  split; [|done]. split; done.
Qed.

Section blob.
  Context (m : datamap) (P0 : xy).
  Hypothesis Hok : map_ok m.
  Hypothesis Hdata : data_cell m P0.
  Let M := elev m P0.

  Record binv (s : blob_state) : Prop := {
    bi_expl : forall c, c ∈ bs_explored s <-> c ∈ bs_members s;
    bi_nd : NoDup (bs_members s);
    bi_flat : forall c, c ∈ bs_members s -> same_flat m P0 c;
    bi_stack : forall c e, (c, e) ∈ bs_stack s -> c ∈ bs_members s;
    bi_hash : forall q z, bs_hash s !! q = Some z -> z ∈ bs_perim s /\ z.1 = q;
    bi_hash2 : forall z, z ∈ bs_perim s -> bs_hash s !! z.1 = Some z;
    bi_perim : forall q e, (q, e) ∈ bs_perim s ->
      data_cell m q /\ e = elev m q /\ M < elev m q /\ exists c, c ∈ bs_members s /\ adj8 c q;
    bi_perim_nd : NoDup (bs_perim s);
    bi_perim_edge : forall q e, (q, e) ∈ bs_perim s -> on_border m q -> (q, e) ∈ bs_map_edge s;
    bi_me : forall q e, (q, e) ∈ bs_map_edge s ->
      data_cell m q /\ e = elev m q /\ M <> elev m q /\ on_border m q /\
      exists c, c ∈ bs_members s /\ adj8 c q;
    bi_me_nd : NoDup (bs_map_edge s);
    bi_mp : forall c e, (c, e) ∈ bs_mp_edges s <-> c ∈ bs_members s /\ on_border m c /\ e = M;
    bi_mp_nd : NoDup (bs_mp_edges s);
    bi_edge : bs_edge s = true -> exists c, c ∈ bs_members s /\ on_border m c }.

  (** What has been recorded about a neighbouring cell [q]. *)
  Definition handled (s : blob_state) (q : xy) : Prop :=
    data_cell m q ->
    (elev m q = M -> q ∈ bs_members s) /\
    (M < elev m q -> (q, elev m q) ∈ bs_perim s) /\
    (elev m q <> M -> on_border m q -> (q, elev m q) ∈ bs_map_edge s).

  Record bstep (s s' : blob_state) : Prop := {
    st_mem : forall c, c ∈ bs_members s -> c ∈ bs_members s';
    st_perim : forall z, z ∈ bs_perim s -> z ∈ bs_perim s';
    st_me : forall z, z ∈ bs_map_edge s -> z ∈ bs_map_edge s';
    st_stack : forall z, z ∈ bs_stack s -> z ∈ bs_stack s';
    st_new : forall c, c ∈ bs_members s' -> c ∈ bs_members s \/ exists e, (c, e) ∈ bs_stack s';
    st_edge : bs_edge s' = bs_edge s;
    st_len : (length (bs_stack s') + length (bs_members s) =
              length (bs_stack s) + length (bs_members s'))%nat }.

  Lemma bstep_refl s : bstep s s.
  Proof. split; auto. Qed.
  Lemma bstep_trans s1 s2 s3 : bstep s1 s2 -> bstep s2 s3 -> bstep s1 s3.
  Proof.
    intros [] []. split; auto; [|congruence|lia].
    intros c Hc. destruct (st_new1 c Hc) as [Hc'|]; [|auto].
    destruct (st_new0 c Hc') as [?|[e ?]]; eauto.
  Qed.
  Lemma handled_step s s' q : bstep s s' -> handled s q -> handled s' q.
  Proof.
    intros [] H Hd. destruct (H Hd) as (H1 & H2 & H3). split_and!; auto.
  Qed.

  Lemma set_add_elem {A} `{EqDecision A} (a b : A) l : b ∈ set_add a l <-> b = a \/ b ∈ l.
  Proof. unfold set_add. destruct (decide (a ∈ l)); [naive_solver|els]. Qed.
  Lemma set_add_nodup {A} `{EqDecision A} (a : A) l : NoDup l -> NoDup (set_add a l).
  Proof.
    unfold set_add. intros Hl. destruct (decide (a ∈ l)); [done|].
    apply NoDup_app. split_and!; [done| |apply NoDup_singleton].
    intros x Hx ->%elem_of_list_singleton. done.
  Qed.

  Lemma border_edge q : data_cell m q -> is_map_edge m q.1 q.2 = true <-> on_border m q.
  Proof. intros [? _]. by apply is_map_edge_spec. Qed.

  Lemma NoDup_snoc {A} (l : list A) a : NoDup l -> a ∉ l -> NoDup (l ++ [a]).
  Proof.
    intros Hl Ha. apply NoDup_app. split_and!; [done| |apply NoDup_singleton].
    intros x Hx ->%elem_of_list_singleton. done.
  Qed.

  Lemma blob_visit_spec s c q v :
    binv s -> c ∈ bs_members s -> adj8 c q -> reported m q v ->
    binv (blob_visit m M (q, v) s) /\ bstep s (blob_visit m M (q, v) s) /\
    handled (blob_visit m M (q, v) s) q.
  Proof.
    intros Hinv Hc Hadj Hrep. unfold blob_visit; cbn [fst snd].
    assert (Hno : ~ data_cell m q -> binv s /\ bstep s s /\ handled s q).
    { intros Hn. split; [done|]. split; [apply bstep_refl|]. intros ?; done. }
    destruct v as [e|].
    2:{ apply Hno. intros [Hm _]. destruct Hrep as [[_ [=]]|[? _]]. done. }
    destruct (decide (dm_nodata m = Some e)) as [Hnd|Hnd].
    { apply Hno. intros [Hm Hq]. destruct Hrep as [[_ [= ->]]|[? _]]; [|done]. done. }
    destruct (reported_data m q e Hrep Hnd) as [Hq ->]. clear Hno Hnd Hrep.
    pose proof (border_edge q Hq) as Hb.
    destruct (elev m q =? M) eqn:HM; cbn [andb negb].
    - apply Z.eqb_eq in HM.
      destruct (bool_decide (q ∈ bs_explored s)) eqn:Hex; cbn [negb].
      + apply bool_decide_eq_true in Hex. apply Hinv in Hex.
        split; [done|]. split; [apply bstep_refl|]. intros _. split_and!; [done|lia|lia].
      + apply bool_decide_eq_false in Hex.
        assert (Hex' : q ∉ bs_members s) by (by rewrite <-(bi_expl _ Hinv)).
        assert (Hfl : same_flat m P0 q).
        { pose proof (bi_flat _ Hinv _ Hc) as Hfc.
          eapply same_flat_step; [done|done|done|]. apply same_flat_elev in Hfc.
          unfold M in HM. congruence. }
        split; [|split].
        * destruct Hinv. split; cbn.
          -- intros c'. rewrite elem_of_union, elem_of_singleton, elem_of_app,
               elem_of_list_singleton, bi_expl0. tauto.
          -- by apply NoDup_snoc.
          -- intros c' [?| ->%elem_of_list_singleton]%elem_of_app; auto.
          -- intros c' e' [[= -> ->]|Hs]%elem_of_cons; [els|].
             apply elem_of_app. left. eauto.
          -- done.
          -- done.
          -- intros q' e' H. destruct (bi_perim0 _ _ H) as (? & ? & ? & c' & ? & ?).
             split_and!; try done. exists c'. split; [els|done].
          -- done.
          -- done.
          -- intros q' e' H. destruct (bi_me0 _ _ H) as (? & ? & ? & ? & c' & ? & ?).
             split_and!; try done. exists c'. split; [els|done].
          -- done.
          -- intros c' e'. destruct (is_map_edge m q.1 q.2) eqn:Hbe.
             ++ rewrite !elem_of_app, !elem_of_list_singleton, bi_mp0.
                destruct Hb as [Hb _]. specialize (Hb eq_refl).
                split.
                ** intros [?|[= -> ->]]; [tauto|]. split; [by right|]. split; [done|]. done.
                ** intros [[?| ->] [? ->]]; [by left|]. right. congruence.
             ++ rewrite elem_of_app, elem_of_list_singleton, bi_mp0.
                split; [tauto|]. intros [[?| ->] [Hbo ->]]; [tauto|].
                apply Hb in Hbo. congruence.
          -- destruct (is_map_edge m q.1 q.2); [|done]. apply NoDup_snoc; [done|].
             intros Hin%bi_mp0. destruct Hin as [? _]. done.
          -- intros He. destruct (bi_edge0 He) as (c' & ? & ?). exists c'. split; [els|done].
        * split; cbn; try done.
          -- intros c'. els.
          -- intros z. els.
          -- intros c' [?| ->%elem_of_list_singleton]%elem_of_app; [by left|].
             right. eexists. by left.
          -- rewrite app_length. cbn. lia.
        * intros _. cbn. split_and!; [intros; els|lia|lia].
    - apply Z.eqb_neq in HM.
      destruct (bs_hash s !! q) as [z|] eqn:Hh.
      + destruct (bi_hash _ Hinv _ _ Hh) as [Hz Hz1].
        destruct z as [q' e']. cbn in Hz1. subst q'.
        destruct (bi_perim _ Hinv _ _ Hz) as (_ & -> & Hlt & _).
        split; [done|]. split; [apply bstep_refl|]. intros _. split_and!; [done|done|].
        intros _ Hbo. by apply Hinv.
      + assert (Hnp : forall e, (q, e) ∉ bs_perim s).
        { intros e He. apply (bi_hash2 _ Hinv) in He. cbn in He. congruence. }
        destruct (M <? elev m q) eqn:Hlt.
        * apply Z.ltb_lt in Hlt. split; [|split].
          -- destruct Hinv. split; cbn; try done.
             ++ intros q' z. destruct (decide (q = q')) as [<-|Hne].
                ** rewrite lookup_insert. intros [= <-]. split; [els|done].
                ** rewrite lookup_insert_ne by done. intros Hz.
                   destruct (bi_hash0 _ _ Hz). split; [els|done].
             ++ intros z [Hz| ->%elem_of_list_singleton]%elem_of_app; [|by rewrite lookup_insert].
                rewrite lookup_insert_ne; [by apply bi_hash3|]. intros ->.
                destruct z as [z1 z2]. by apply (Hnp z2).
             ++ intros q' e' [H|H]%elem_of_app; [by apply bi_perim0|].
                apply elem_of_list_singleton in H. injection H as -> ->.
                split_and!; [done..|]. eauto.
             ++ apply NoDup_snoc; [done|apply Hnp].
             ++ intros q' e' [H|H]%elem_of_app Hbo.
                ** specialize (bi_perim_edge0 _ _ H Hbo).
                   destruct (is_map_edge m q.1 q.2); [|done]. apply set_add_elem. by right.
                ** apply elem_of_list_singleton in H. injection H as -> ->.
                   rewrite (proj2 Hb Hbo). apply set_add_elem. by left.
             ++ intros q' e' H.
                assert (H' : (q', e') ∈ bs_map_edge s \/ (on_border m q /\ (q', e') = (q, elev m q))).
                { destruct (is_map_edge m q.1 q.2); [|by left].
                  apply set_add_elem in H as [?|?]; [right|by left]. split; [by apply Hb|done]. }
                destruct H' as [H'|[Hbo [= -> ->]]]; [by apply bi_me0|].
                split_and!; [done|done|lia|done|]. eauto.
             ++ destruct (is_map_edge m q.1 q.2); [by apply set_add_nodup|done].
          -- split; cbn; try done; try (intros; els); try tauto.
             intros z Hz. destruct (is_map_edge m q.1 q.2); [|done]. apply set_add_elem. by right.
          -- intros _. cbn. split_and!; [done|intros; els|].
             intros _ Hbo. rewrite (proj2 Hb Hbo). apply set_add_elem. by left.
        * apply Z.ltb_ge in Hlt. split; [|split].
          -- destruct Hinv. split; cbn; try done.
             ++ intros q' e' H Hbo. specialize (bi_perim_edge0 _ _ H Hbo).
                destruct (is_map_edge m q.1 q.2); [|done]. apply set_add_elem. by right.
             ++ intros q' e' H.
                assert (H' : (q', e') ∈ bs_map_edge s \/ (on_border m q /\ (q', e') = (q, elev m q))).
                { destruct (is_map_edge m q.1 q.2); [|by left].
                  apply set_add_elem in H as [?|?]; [right|by left]. split; [by apply Hb|done]. }
                destruct H' as [H'|[Hbo [= -> ->]]]; [by apply bi_me0|].
                split_and!; [done|done|lia|done|]. eauto.
             ++ destruct (is_map_edge m q.1 q.2); [by apply set_add_nodup|done].
          -- split; cbn; try done; try (intros; els); try tauto.
             intros z Hz. destruct (is_map_edge m q.1 q.2); [|done]. apply set_add_elem. by right.
          -- intros _. cbn. split_and!; [done|lia|].
             intros _ Hbo. rewrite (proj2 Hb Hbo). apply set_add_elem. by left.
  Qed.

  Lemma blob_visits_spec c ns : forall s,
    binv s -> c ∈ bs_members s -> (forall q v, (q, v) ∈ ns -> adj8 c q /\ reported m q v) ->
    binv (foldl (fun s n => blob_visit m M n s) s ns) /\
    bstep s (foldl (fun s n => blob_visit m M n s) s ns) /\
    forall q v, (q, v) ∈ ns -> handled (foldl (fun s n => blob_visit m M n s) s ns) q.
  Proof.
    induction ns as [|[q v] ns IH]; intros s Hinv Hc Hns; cbn [foldl].
    - split; [done|]. split; [apply bstep_refl|]. intros q v Hq. by apply elem_of_nil in Hq.
    - destruct (Hns q v) as [Ha Hr]; [by left|].
      destruct (blob_visit_spec s c q v Hinv Hc Ha Hr) as (H1 & H2 & H3).
      destruct (IH (blob_visit m M (q, v) s)) as (I1 & I2 & I3); [done|by apply H2| |].
      { intros q' v' Hq'. apply Hns. by right. }
      split; [done|]. split; [by eapply bstep_trans|].
      intros q' v' [[= -> ->]|Hq']%elem_of_cons; [by eapply handled_step|by eapply I3].
  Qed.

  Definition bdone (s : blob_state) : Prop :=
    forall c, c ∈ bs_members s -> (forall e, (c, e) ∉ bs_stack s) ->
      (forall q, adj8 c q -> handled s q) /\ (on_border m c -> bs_edge s = true).

  Lemma binv_len s : binv s ->
    (length (bs_members s) <= Z.to_nat ((dm_max_x m + 1) * (dm_max_y m + 1)))%nat.
  Proof.
    intros []. apply cells_bound; [done..|]. intros p Hp.
    apply bi_flat0, same_flat_data_r in Hp. apply Hp.
  Qed.

  Lemma blob_loop_spec fuel : forall s,
    binv s -> bdone s ->
    (length (bs_stack s) + Z.to_nat ((dm_max_x m + 1) * (dm_max_y m + 1)) <
       fuel + length (bs_members s))%nat ->
    exists s', blob_loop fuel m M s = Ok s' /\ binv s' /\ bdone s' /\ bs_stack s' = [] /\
      (forall c, c ∈ bs_members s -> c ∈ bs_members s').
  Proof.
    induction fuel as [|fuel IH]; intros s Hinv Hdone Hf.
    { pose proof (binv_len s Hinv). lia. }
    cbn [blob_loop]. destruct (bs_stack s) as [|[c e] st] eqn:Hst.
    { exists s. split_and!; done. }
    rewrite iterateFull_eq. cbn [rbind].
    change (pt_x (c, e)) with c.1. change (pt_y (c, e)) with c.2.
    set (s1 := BS (bs_explored s) (bs_members s) (bs_hash s) (bs_perim s) st
                  (bs_map_edge s) (bs_mp_edges s) (bs_edge s || is_map_edge m c.1 c.2)).
    assert (Hc : c ∈ bs_members s) by (apply (bi_stack _ Hinv c e); rewrite Hst; by left).
    assert (Hcd : data_cell m c) by (by eapply same_flat_data_r, (bi_flat _ Hinv)).
    assert (Hinv1 : binv s1).
    { destruct Hinv. split; cbn; try done.
      - intros c' e' H. eapply bi_stack0. rewrite Hst. by right.
      - rewrite orb_true_iff. intros [He|He]; [by apply bi_edge0|].
        exists c. split; [done|]. by apply border_edge. }
    destruct (blob_visits_spec c (full_nbrs m c.1 c.2) s1) as (I1 & I2 & I3); [done..| |].
    { intros q v Hq. destruct c as [cx cy]. by apply elem_of_full_nbrs in Hq. }
    destruct (IH (foldl (fun s n => blob_visit m M n s) s1 (full_nbrs m c.1 c.2)))
      as (s' & Hs' & Hi' & Hd' & He' & Hm').
    - done.
    - intros c' Hc' Hns.
      destruct (st_new _ _ I2 c' Hc') as [Hc0|[e' He']]; [|by destruct (Hns e')].
      destruct (decide (c' = c)) as [->|Hne].
      + split.
        * intros q Hq. apply (I3 q (nb_val m q)). destruct c as [cx cy].
          apply elem_of_full_nbrs. split; [done|apply nb_val_reported].
        * intros Hbo. rewrite (st_edge _ _ I2). cbn. apply orb_true_iff. right.
          by apply border_edge.
      + destruct (Hdone c' Hc0) as [H1 H2].
        { intros e' He'. rewrite Hst in He'. apply elem_of_cons in He' as [[= -> ->]|He']; [done|].
          apply (Hns e'), I2. done. }
        split.
        * intros q Hq. eapply handled_step; [exact I2|].
          intros Hd. destruct (H1 q Hq Hd) as (?&?&?). split_and!; done.
        * intros Hbo. rewrite (st_edge _ _ I2). cbn. by rewrite H2.
    - pose proof (st_len _ _ I2) as Hl. cbn [bs_stack bs_members s1] in Hl.
      cbn [length] in Hf. lia.
    - exists s'. split_and!; try done. intros c' Hc'. apply Hm', I2. done.
  Qed.
End blob.

Lemma equalHeightBlob_spec m x y :
  map_ok m -> data_cell m (x, y) ->
  exists b, equalHeightBlob m x y (elev m (x, y)) = Ok b /\
    bl_elevation b = elev m (x, y) /\
    NoDup (bl_points b) /\ (forall c, c ∈ bl_points b <-> same_flat m (x, y) c) /\
    NoDup (bl_perimeter b) /\
    (forall q e, (q, e) ∈ bl_perimeter b <-> higher_rim m (x, y) q /\ e = elev m q) /\
    (bl_map_edge b = true <-> exists c, same_flat m (x, y) c /\ on_border m c) /\
    NoDup (bl_edge_points b) /\
    (forall c e, (c, e) ∈ bl_edge_points b <->
       same_flat m (x, y) c /\ on_border m c /\ e = elev m (x, y)) /\
    NoDup (bl_map_edge_points b) /\
    (forall q e, (q, e) ∈ bl_map_edge_points b <->
       data_cell m q /\ on_border m q /\ elev m q <> elev m (x, y) /\ e = elev m q /\
       exists c, same_flat m (x, y) c /\ adj8 c q).
Proof.
  intros Hok Hd. unfold equalHeightBlob.
  set (s0 := BS _ _ _ _ _ _ _ _).
  assert (Hb : is_map_edge m x y = true <-> on_border m (x, y))
    by (apply (is_map_edge_spec m (x, y)); apply Hd).
  destruct (blob_loop_spec m (x, y) Hok (blob_fuel m) s0) as (s & -> & Hinv & Hdone & Hst & Hmem).
  { split; cbn.
    - intros c. rewrite elem_of_singleton. els.
    - apply NoDup_singleton.
    - intros c ->%elem_of_list_singleton. by apply same_flat_refl.
    - intros c e [= -> ->]%elem_of_list_singleton. by left.
    - intros q z H. by rewrite lookup_empty in H.
    - intros z H. by apply elem_of_nil in H.
    - intros q e H. by apply elem_of_nil in H.
    - constructor.
    - intros q e H. by apply elem_of_nil in H.
    - intros q e H. by apply elem_of_nil in H.
    - constructor.
    - intros c e. rewrite elem_of_list_singleton. destruct (is_map_edge m x y).
      + rewrite elem_of_list_singleton. split; [intros [= -> ->]; naive_solver|].
        intros (-> & _ & ->). done.
      + rewrite elem_of_nil. split; [done|]. intros (-> & Hbo & _). apply Hb in Hbo. done.
    - destruct (is_map_edge m x y); [apply NoDup_singleton|constructor].
    - done. }
  { intros c Hc Hns. cbn in Hc. apply elem_of_list_singleton in Hc as ->.
    exfalso. eapply Hns. cbn. by left. }
  { unfold blob_fuel. cbn. lia. }
  cbn [rbind]. eexists. split; [done|]. cbn.
  assert (Hnos : forall c e, (c, e) ∉ bs_stack s).
  { intros c e He. rewrite Hst in He. by apply elem_of_nil in He. }
  assert (Hmemf : forall c, same_flat m (x, y) c -> c ∈ bs_members s).
  { induction 1 as [H0|b c H IH Hc [Ha He]].
    - apply Hmem. cbn. by left.
    - destruct (Hdone b IH (Hnos b)) as [H1 _].
      destruct (H1 c Ha Hc) as (H2 & _). apply H2.
      apply same_flat_elev in H. congruence. }
  destruct Hinv. split_and!; try done.
  - intros c. split; auto.
  - intros q e. split.
    + intros Hq. destruct (bi_perim0 _ _ Hq) as (? & ? & ? & c & ? & ?).
      split; [|done]. split_and!; [done..|]. eauto.
    + intros [(Hq & Hlt & c & Hc & Ha) ->].
      destruct (Hdone c (Hmemf c Hc) (Hnos c)) as [H1 _].
      by apply (H1 q Ha Hq).
  - split.
    + intros He. destruct (bi_edge0 He) as (c & ? & ?). eauto.
    + intros (c & Hc & Hbo). by apply (Hdone c (Hmemf c Hc) (Hnos c)).
  - intros c e. rewrite bi_mp0. split; [intros (?&?&?)|intros (?&?&?)]; split_and!; auto.
  - intros q e. split.
    + intros Hq. destruct (bi_me0 _ _ Hq) as (? & ? & ? & ? & c & ? & ?).
      split_and!; try done. eauto.
    + intros (Hq & Hbo & Hne & -> & c & Hc & Ha).
      destruct (Hdone c (Hmemf c Hc) (Hnos c)) as [H1 _].
      by apply (H1 q Ha Hq).
Qed.
