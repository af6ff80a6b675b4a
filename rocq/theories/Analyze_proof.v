(** Correctness of feature discovery, one flat area. *)
From Verif Require Import Analyze_model Raster_spec Feature_spec Raster_proof Contig_proof
  Touch_proof Blob_proof.
From Coq Require Import ZifyBool.
Local Open Scope Z_scope.

(** ** Grouping an enumerated point set *)
Lemma components_of orc (S : pte -> Prop) points :
  (forall z, S z -> 0 <= pt_x z /\ 0 <= pt_y z) ->
  (forall a b, S a -> S b -> pt_xy a = pt_xy b -> a = b) ->
  enumerates S points ->
  exists gs, contiguous_neighbors orc points = Ok gs /\ components S gs.
Proof.
  intros Hnn Hfun [Hnd Hel].
  destruct (contiguous_neighbors_spec orc points) as (gs & Hgs & Hperm & Hne & Hl).
  { intros p Hp. apply Hnn. by apply Hel. }
  { intros a b Ha Hb. apply Hfun; by apply Hel. }
  exists gs. split; [done|]. split.
  - rewrite Hperm. apply NoDup_remove_dups.
  - intros z. rewrite Hperm. rewrite elem_of_remove_dups. apply Hel.
  - done.
  - intros i j g h a b Hi Hj Ha Hb. rewrite (Hl i j g h a b) by done.
    split; apply linked_mono; try done; intros; by apply Hel.
Qed.

Lemma components_empty S gs : components S gs -> gs = [] <-> (forall z, ~ S z).
Proof.
  intros [H1 H2 H3 _]. split.
  - intros ->. intros z Hz. apply H2 in Hz. by apply elem_of_nil in Hz.
  - intros H. destruct gs as [|g gs]; [done|]. exfalso.
    destruct g as [|z g]; [by apply (H3 []); [left|]|].
    apply (H z), H2. cbn. by left.
Qed.

(** ** The neighbour loop *)
Section scan.
  Context (m : datamap) (p : xy).
  Hypothesis Hdata : data_cell m p.

  Definition nb_ok (ns : list (xy * option Z)) : Prop :=
    NoDup (map fst ns) /\ forall q v, (q, v) ∈ ns -> adj8 p q /\ reported m q v.

  Lemma scan_spec ns : forall perim medge r,
    nb_ok ns ->
    scan_neighbors m (elev m p) ns perim medge = r ->
    match r with
    | inl (q, e) => exists v, (q, v) ∈ ns /\ data_cell m q /\ e = elev m q /\ elev m q = elev m p
    | inr (perim', medge') =>
        (forall q v, (q, v) ∈ ns -> data_cell m q -> elev m q <> elev m p) /\
        (forall z, z ∈ perim' <-> z ∈ perim \/
           exists v, (pt_xy z, v) ∈ ns /\ data_cell m (pt_xy z) /\
             elev m p < elev m (pt_xy z) /\ pt_e z = elev m (pt_xy z)) /\
        (forall z, z ∈ medge' <-> z ∈ medge \/
           exists v, (pt_xy z, v) ∈ ns /\ data_cell m (pt_xy z) /\ on_border m (pt_xy z) /\
             pt_e z = elev m (pt_xy z)) /\
        (NoDup perim -> (forall z v, z ∈ perim -> (pt_xy z, v) ∉ ns) -> NoDup perim') /\
        (NoDup medge -> NoDup medge')
    end.
  Proof.
    induction ns as [|[q v] ns IH]; intros perim medge r [Hnd Hns] Hr; cbn in Hr.
    - subst r. split_and!; [| | |done|done].
      + intros q v H. by apply elem_of_nil in H.
      + intros z. split; [by left|]. intros [?|(v & H & _)]; [done|]. by apply elem_of_nil in H.
      + intros z. split; [by left|]. intros [?|(v & H & _)]; [done|]. by apply elem_of_nil in H.
    - assert (Hok' : nb_ok ns).
      { split; [by inversion Hnd|]. intros q' v' H. apply Hns. by right. }
      assert (Hq : forall v', (q, v') ∉ ns).
      { intros v' H. apply NoDup_cons in Hnd as [Hn _]. apply Hn. cbn.
        apply elem_of_list_fmap. by exists (q, v'). }
      destruct (Hns q v) as [Hadj Hrep]; [by left|].
      assert (Hskip : ~ data_cell m q -> scan_neighbors m (elev m p) ns perim medge = r ->
        match r with
        | inl (q', e) => exists v', (q', v') ∈ (q, v) :: ns /\ data_cell m q' /\ e = elev m q' /\ elev m q' = elev m p
        | inr (perim', medge') =>
          (forall q' v', (q', v') ∈ (q, v) :: ns -> data_cell m q' -> elev m q' <> elev m p) /\
          (forall z, z ∈ perim' <-> z ∈ perim \/
             exists v', (pt_xy z, v') ∈ (q, v) :: ns /\ data_cell m (pt_xy z) /\
               elev m p < elev m (pt_xy z) /\ pt_e z = elev m (pt_xy z)) /\
          (forall z, z ∈ medge' <-> z ∈ medge \/
             exists v', (pt_xy z, v') ∈ (q, v) :: ns /\ data_cell m (pt_xy z) /\ on_border m (pt_xy z) /\
               pt_e z = elev m (pt_xy z)) /\
          (NoDup perim -> (forall z v', z ∈ perim -> (pt_xy z, v') ∉ (q, v) :: ns) -> NoDup perim') /\
          (NoDup medge -> NoDup medge')
        end).
      { intros Hnq Hs. specialize (IH perim medge r Hok' Hs). destruct r as [[q' e]|[perim' medge']].
        - destruct IH as (v' & ? & ?). exists v'. split; [by right|done].
        - destruct IH as (I1 & I2 & I3 & I4 & I5). split_and!.
          + intros q' v' [[= -> ->]|H]%elem_of_cons Hd; [done|eauto].
          + intros z. rewrite I2. split; (intros [?|(v' & H & Hd & ?)]; [by left|right; exists v']).
            * split; [by right|done].
            * apply elem_of_cons in H as [H|H]; [|done].
              injection H as HA HB. by rewrite HA in Hd.
          + intros z. rewrite I3. split; (intros [?|(v' & H & Hd & ?)]; [by left|right; exists v']).
            * split; [by right|done].
            * apply elem_of_cons in H as [H|H]; [|done].
              injection H as HA HB. by rewrite HA in Hd.
          + intros H1 H2. apply I4; [done|]. intros z v' Hz Hv. eapply H2; [done|by right].
          + done. }
      destruct (decide (v = dm_nodata m)) as [Hv|Hv].
      { apply Hskip; [|done]. intros [Hm Hne]. destruct Hrep as [[_ ->]|[? _]]; [|done].
        by rewrite Hv in Hne. }
      destruct v as [e|].
      2:{ destruct Hrep as [[_ [=]]|[_ Hv']]. done. }
      destruct (reported_data m q e Hrep) as [Hqd ->]; [congruence|].
      destruct (elev m q =? elev m p) eqn:HE.
      { subst r. exists (Some (elev m q)). split_and!; [by left|done|done|lia]. }
      apply Z.eqb_neq in HE.
      specialize (IH _ _ r Hok' Hr). destruct r as [[q' e]|[perim' medge']].
      { destruct IH as (v' & ? & ?). exists v'. split; [by right|done]. }
      destruct IH as (I1 & I2 & I3 & I4 & I5).
      pose proof (border_edge m q Hqd) as Hb.
      split_and!.
      + intros q' v' [[= -> ->]|H]%elem_of_cons Hd; [done|eauto].
      + intros z. rewrite I2. destruct (elev m p <? elev m q) eqn:Hlt.
        * rewrite elem_of_app, elem_of_list_singleton. split.
          -- intros [[Hz| ->]|(v' & H & ?)]; [by left| |].
             ++ right. exists (Some (elev m q)). cbn. split_and!; [by left|done|lia|done].
             ++ right. exists v'. split; [by right|done].
          -- intros [?|(v' & H & Hd & Hl & He)]; [by left; left|].
             apply elem_of_cons in H as [H|H].
             ++ injection H as H1 H2. left. right. destruct z as [z1 z2]. cbn in *. by subst.
             ++ right. by exists v'.
        * split.
          -- intros [?|(v' & H & ?)]; [by left|]. right. exists v'. split; [by right|done].
          -- intros [?|(v' & H & Hd & Hl & He)]; [by left|].
             apply elem_of_cons in H as [H|H]; [|right; by exists v'].
             injection H as HA HB. rewrite HA in Hl. lia.
      + intros z. rewrite I3. destruct (is_map_edge m q.1 q.2) eqn:Hbe.
        * rewrite set_add_elem. split.
          -- intros [[-> | Hz]|(v' & H & ?)]; [|by left|].
             ++ right. exists (Some (elev m q)). cbn. split_and!; [by left|done|by apply Hb|done].
             ++ right. exists v'. split; [by right|done].
          -- intros [?|(v' & H & Hd & Hl & He)]; [by left; right|].
             apply elem_of_cons in H as [H|H].
             ++ injection H as H1 H2. left. left. destruct z as [z1 z2]. cbn in *. by subst.
             ++ right. by exists v'.
        * split.
          -- intros [?|(v' & H & ?)]; [by left|]. right. exists v'. split; [by right|done].
          -- intros [?|(v' & H & Hd & Hl & He)]; [by left|].
             apply elem_of_cons in H as [H|H]; [|right; by exists v'].
             injection H as HA HB. rewrite HA in Hl. apply Hb in Hl. congruence.
      + intros H1 H2. apply I4.
        * destruct (elev m p <? elev m q); [|done]. apply NoDup_snoc; [done|].
          intros H. apply (H2 (q, elev m q) (Some (elev m q)) H). by left.
        * intros z v' Hz Hv'. destruct (elev m p <? elev m q).
          -- apply elem_of_app in Hz as [Hz| ->%elem_of_list_singleton].
             ++ apply (H2 z v' Hz). by right.
             ++ by apply (Hq v').
          -- apply (H2 z v' Hz). by right.
      + intros H. apply I5. destruct (is_map_edge m q.1 q.2); [by apply set_add_nodup|done].
  Qed.
End scan.

Lemma single_flat m p :
  data_cell m p -> (forall q, adj8 p q -> data_cell m q -> elev m q <> elev m p) ->
  forall c, same_flat m p c <-> c = p.
Proof.
  intros Hd Hn c. split.
  - induction 1 as [|b c H IH Hc [Ha He]]; [done|]. subst b. destruct (Hn c Ha Hc). done.
  - intros ->. by apply same_flat_refl.
Qed.

(** ** List lemmas *)
Lemma concat_elem_index {A} (gs : list (list A)) a :
  a ∈ concat gs <-> exists i g, gs !! i = Some g /\ a ∈ g.
Proof.
  rewrite elem_of_concat. split.
  - intros (g & Ha & Hg). apply elem_of_list_lookup in Hg as [i Hi]. eauto.
  - intros (i & g & Hi & Ha). exists g. split; [done|by eapply elem_of_list_lookup_2].
Qed.

Lemma sublist_elem {A} (l k : list A) a : sublist l k -> a ∈ l -> a ∈ k.
Proof. intros Hs Ha. by eapply elem_of_submseteq, sublist_submseteq. Qed.

Lemma sublist_nodup {A} (l k : list A) : sublist l k -> NoDup k -> NoDup l.
Proof.
  induction 1 as [|a l k H IH|a l k H IH]; [done| |].
  - intros [Ha Hk]%NoDup_cons. constructor; [|auto]. intros Hin. by apply Ha, (sublist_elem l).
  - intros [_ Hk]%NoDup_cons. auto.
Qed.

Lemma NoDup_concat_sublist {A} (gs hs : list (list A)) :
  sublist gs hs -> NoDup (concat hs) -> NoDup (concat gs).
Proof.
  intros H. apply sublist_nodup. induction H; cbn; [done| |].
  - by apply sublist_app.
  - by apply sublist_inserts_l.
Qed.

Lemma NoDup_groups {A} (gs : list (list A)) :
  NoDup (concat gs) -> (forall g, g ∈ gs -> g <> []) -> NoDup gs.
Proof.
  induction gs as [|g gs IH]; intros Hnd Hne; constructor.
  - intros Hg. cbn in Hnd. apply NoDup_app in Hnd as (_ & Hd & _).
    destruct g as [|a g]; [by apply (Hne []); [left|]|].
    apply (Hd a); [by left|]. apply elem_of_concat. exists (a :: g). split; [by left|done].
  - apply IH; [|intros; apply Hne; by right]. cbn in Hnd. by apply NoDup_app in Hnd as (_ & _ & ?).
Qed.

Lemma length_filter_imap {A} (P : A -> Prop) `{forall a, Decision (P a)} (l : list A) : forall k,
  length (filter P l) =
  length (filter (fun ja : nat * A => P ja.2) (imap (fun i a => ((k + i)%nat, a)) l)).
Proof.
  induction l as [|a l IH]; intros k; [done|]. rewrite imap_cons.
  rewrite !filter_cons. cbn [snd].
  rewrite (imap_ext _ (fun i a => ((S k + i)%nat, a))) by (intros; cbn; f_equal; lia).
  destruct (decide (P a)); cbn [length]; by rewrite (IH (S k)).
Qed.

Lemma elem_of_imap_pair {A} (l : list A) k j a :
  (j, a) ∈ imap (fun i a => ((k + i)%nat, a)) l <-> exists i, j = (k + i)%nat /\ l !! i = Some a.
Proof.
  rewrite elem_of_lookup_imap. split.
  - intros (i & b & [= -> ->] & Hi). eauto.
  - intros (i & -> & Hi). eauto.
Qed.

Lemma NoDup_filter_imap {A} (P : A -> Prop) `{forall a, Decision (P a)} (l : list A) k :
  NoDup (map fst (filter (fun ja : nat * A => P ja.2) (imap (fun i a => ((k + i)%nat, a)) l))).
Proof.
  revert k. induction l as [|a l IH]; intros k; [constructor|]. rewrite imap_cons.
  rewrite (imap_ext _ (fun i a => ((S k + i)%nat, a))) by (intros; cbn; f_equal; lia).
  rewrite filter_cons. cbn [snd]. destruct (decide (P a)); [|apply IH].
  cbn [map fst]. constructor; [|apply IH].
  intros Hin. apply elem_of_list_fmap in Hin as ([j b] & Hj & Hin). cbn in Hj.
  apply elem_of_list_filter in Hin as [_ Hin]. apply elem_of_imap_pair in Hin as (i & -> & _). lia.
Qed.

(** [list.remove] for every element of a list. *)
Lemma py_remove_spec a l :
  a ∈ l -> NoDup l -> exists l', py_remove a l = Ok l' /\ NoDup l' /\
    forall z, z ∈ l' <-> z ∈ l /\ z <> a.
Proof.
  induction l as [|b l IH]; intros Ha Hnd; [by apply elem_of_nil in Ha|].
  apply NoDup_cons in Hnd as [Hb Hnd]. cbn. destruct (decide (b = a)) as [->|Hne].
  - exists l. split_and!; [done..|]. intros z. rewrite elem_of_cons. split.
    + intros Hz. split; [by right|]. by intros ->.
    + intros [[->|?] ?]; done.
  - apply elem_of_cons in Ha as [->|Ha]; [done|].
    destruct (IH Ha Hnd) as (l' & -> & Hl' & Hel). cbn. exists (b :: l'). split_and!; [done| |].
    + constructor; [|done]. intros H. apply Hel in H as [? _]. done.
    + intros z. rewrite !elem_of_cons, Hel. split.
      * intros [->|[? ?]]; [split; [by left|done]|]. split; [by right|done].
      * intros [[->|?] ?]; [by left|right; done].
Qed.

Lemma py_removes_spec nb : forall l,
  NoDup nb -> (forall a, a ∈ nb -> a ∈ l) -> NoDup l ->
  exists l', foldM py_remove nb l = Ok l' /\ NoDup l' /\ forall z, z ∈ l' <-> z ∈ l /\ z ∉ nb.
Proof.
  induction nb as [|a nb IH]; intros l Hnb Hin Hl; cbn.
  - exists l. split_and!; [done..|]. intros z. split; [|tauto]. intros. split; [done|].
    by intros ?%elem_of_nil.
  - apply NoDup_cons in Hnb as [Ha Hnb].
    destruct (py_remove_spec a l) as (l1 & -> & Hl1 & Hel1); [apply Hin; by left|done|]. cbn.
    destruct (IH l1) as (l' & -> & Hl' & Hel'); [done| |done|].
    { intros b Hb. apply Hel1. split; [apply Hin; by right|]. by intros ->. }
    exists l'. split_and!; [done..|]. intros z. rewrite Hel', Hel1, elem_of_cons. naive_solver.
Qed.

(** ** Groups that are entirely lower *)
Lemma highest_head g e :
  g <> [] -> exists p r, highest g = Ok (p :: r) /\ (pt_e p < e <-> all_lower e g).
Proof.
  intros Hg. destruct (highest_spec g Hg) as (h & (p0 & Hp0 & Hp0h) & Hmax & ->).
  destruct (filter (fun p => pt_e p = h) g) as [|p r] eqn:Hf.
  - exfalso. assert (p0 ∈ filter (fun p => pt_e p = h) g) as H by (by apply elem_of_list_filter).
    rewrite Hf in H. by apply elem_of_nil in H.
  - exists p, r. split; [done|].
    assert (p ∈ filter (fun p => pt_e p = h) g) as H by (rewrite Hf; by left).
    apply elem_of_list_filter in H as [Hph Hp]. split.
    + intros Hlt z Hz. specialize (Hmax z Hz). lia.
    + intros H. by apply H.
Qed.

Lemma lower_groups_spec e gs :
  (forall g, g ∈ gs -> g <> []) -> NoDup gs ->
  exists L, lower_groups e gs = Ok L /\ sublist L gs /\
    forall g, g ∈ gs -> (g ∈ L <-> all_lower e g).
Proof.
  induction gs as [|g gs IH]; intros Hne Hnd; cbn.
  - exists []. split_and!; [done|constructor|]. intros g H. by apply elem_of_nil in H.
  - apply NoDup_cons in Hnd as [Hg Hnd].
    destruct (highest_head g e) as (p & r & -> & Hp); [apply Hne; by left|]. cbn.
    destruct IH as (L & -> & Hsub & HL); [intros; apply Hne; by right|done|]. cbn.
    eexists. split; [done|]. destruct (pt_e p <? e) eqn:Hlt.
    + split; [by constructor|]. intros h [->|Hh]%elem_of_cons.
      * split; [|by left]. intros _. apply Hp. lia.
      * rewrite elem_of_cons, <-(HL h Hh). split; [|by right].
        intros [->|?]; done.
    + split; [by constructor|]. intros h [->|Hh]%elem_of_cons.
      * split; [|intros H; apply Hp in H; lia]. intros H.
        exfalso. by apply Hg, (sublist_elem L).
      * by apply HL.
Qed.
