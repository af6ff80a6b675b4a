(** Grouping cells that may hold NaN. *)
From Verif Require Import Base_model Raster_model Raster_spec Contig_model Contig_proof Nan_model Nan_spec.
From Coq Require Import ZifyBool.
Local Open Scope Z_scope.

(** [r] was reached from another point of the set. *)
Definition reached (pset : list npt) (r : npt) : Prop :=
  0 <= r.1.1 /\ 0 <= r.1.2 /\ exists s, s ∈ pset /\ adj8 s.1 r.1.

Section groups.
  Context (pset : list npt).

  Record ninv (rem : list npt) (h : npt) (s : nc_state) : Prop := {
    ni_look : forall q el, nc_lookup s !! q = Some (Some el) -> (q, el) ∈ nc_points s;
    ni_stack : forall p, p ∈ nc_stack s -> p ∈ pset /\ forall el, nc_lookup s !! p.1 <> Some (Some el);
    ni_points : forall p, p ∈ nc_points s -> p ∈ pset;
    ni_nbrs : exists t, nc_nbrs s = h :: t /\ forall r, r ∈ t -> reached pset r;
    ni_all : forall r, r ∈ rem -> r ∈ nc_points s \/ r ∈ nc_nbrs s }.

  Lemma filter_shorter (pt : npt) (l : list npt) : pt ∈ l -> (length (filter (fun q => q <> pt) l) < length l)%nat.
  Proof. intros H. apply (filter_length_lt _ _ pt H). intros E. by apply E. Qed.

  Lemma nc_visit_spec rem h point off s :
    point ∈ pset -> (forall el, nc_lookup s !! point.1 <> Some (Some el)) ->
    Z.abs off.1 <= 1 -> Z.abs off.2 <= 1 -> ninv rem h s ->
    exists s', nc_visit point off s = Ok s' /\ ninv rem h s' /\
      (forall el, nc_lookup s' !! point.1 <> Some (Some el)) /\
      (length (nc_stack s') + length (nc_points s') <= length (nc_stack s) + length (nc_points s))%nat /\ (length (nc_points s') <= length (nc_points s))%nat.
  Proof.
    intros Hp Hl Ho1 Ho2 [I1 I2 I3 I4 I5]. unfold nc_visit.
    destruct (point.1.1 + off.1 <? 0) eqn:Ex; [by exists s|].
    destruct (point.1.2 + off.2 <? 0) eqn:Ey; [by exists s|].
    destruct (nc_lookup s !! (point.1.1 + off.1, point.1.2 + off.2)) as [[el|]|] eqn:El; [|by exists s..].
    set (q := (point.1.1 + off.1, point.1.2 + off.2)) in *.
    pose proof (I1 _ _ El) as Hin. rewrite decide_True by exact Hin.
    eexists. split; [reflexivity|]. split; [|split].
    - split; cbn [nc_lookup nc_points nc_stack nc_nbrs].
      + intros q' el' Hq'. destruct (decide (q' = q)) as [->|Hne].
        * by rewrite lookup_insert in Hq'.
        * rewrite lookup_insert_ne in Hq' by congruence. apply elem_of_list_filter. split; [|by apply I1].
          intros H. injection H as H1 H2. done.
      + intros p [->|Hin']%elem_of_cons.
        * split; [by apply I3|]. intros el'. cbn [fst]. unfold q. rewrite lookup_insert. done.
        * destruct (I2 p Hin') as [H1 H2]. split; [done|]. intros el'. destruct (decide (p.1 = q)) as [->|Hne].
          -- by rewrite lookup_insert.
          -- rewrite lookup_insert_ne by congruence. apply H2.
      + intros p [_ H]%elem_of_list_filter. by apply I3.
      + destruct I4 as (t & -> & Ht). exists (t ++ [(q, el)]). split; [done|].
        intros r [Hr| ->%elem_of_list_singleton]%elem_of_app; [by apply Ht|].
        split; [cbn; lia|]. split; [cbn; lia|]. exists point. split; [done|]. cbn.
        split; [|cbn; lia]. intros E. apply (Hl el). rewrite E. exact El.
      + intros r Hr. destruct (I5 r Hr) as [H|H].
        * destruct (decide (r = (q, el))) as [->|Hne].
          -- right. apply elem_of_app. right. by apply elem_of_list_singleton.
          -- left. by apply elem_of_list_filter.
        * right. apply elem_of_app. by left.
    - cbn [nc_lookup]. intros el'. destruct (decide (point.1 = q)) as [->|Hne].
      + by rewrite lookup_insert.
      + rewrite lookup_insert_ne by congruence. apply Hl.
    - cbn [nc_stack nc_points length]. pose proof (filter_shorter _ _ Hin). lia.
  Qed.

  Lemma nc_visits_spec rem h point offs : forall s,
    point ∈ pset -> (forall el, nc_lookup s !! point.1 <> Some (Some el)) ->
    (forall o, o ∈ offs -> Z.abs o.1 <= 1 /\ Z.abs o.2 <= 1) -> ninv rem h s ->
    exists s', foldM (nc_visit point) offs s = Ok s' /\ ninv rem h s' /\
      (length (nc_stack s') + length (nc_points s') <= length (nc_stack s) + length (nc_points s))%nat /\ (length (nc_points s') <= length (nc_points s))%nat.
  Proof.
    induction offs as [|o offs IH]; intros s Hp Hl Ho Hi; [by exists s|]. cbn [foldM].
    destruct (Ho o ltac:(by left)) as [H1 H2].
    destruct (nc_visit_spec rem h point o s Hp Hl H1 H2 Hi) as (s1 & -> & Hi1 & Hl1 & Hn1 & Hm1). cbn [rbind].
    destruct (IH s1 Hp Hl1 ltac:(intros; apply Ho; by right) Hi1) as (s2 & -> & Hi2 & Hn2 & Hm2).
    exists s2. split; [done|]. split; [done|lia].
  Qed.

  Lemma offsets_small o : o ∈ cn_offsets -> Z.abs o.1 <= 1 /\ Z.abs o.2 <= 1.
  Proof.
    intros H. assert (Forall (fun o : Z * Z => Z.abs o.1 <= 1 /\ Z.abs o.2 <= 1) cn_offsets) as HF.
    { repeat constructor; cbn; lia. }
    rewrite Forall_forall in HF. by apply HF.
  Qed.

  Lemma nc_inner_spec rem h fuel : forall s, ninv rem h s ->
    (length (nc_stack s) + length (nc_points s) < fuel)%nat ->
    exists s', nc_inner fuel s = Ok s' /\ ninv rem h s' /\ (length (nc_points s') <= length (nc_points s))%nat.
  Proof.
    induction fuel as [|fuel IH]; intros s Hi Hf; [lia|]. cbn [nc_inner].
    destruct (nc_stack s) as [|point st] eqn:Es.
    - exists s. split; [done|]. split; [done|]. lia.
    - destruct (ni_stack _ _ _ Hi point) as [Hp Hl]; [rewrite Es; by left|].
      destruct (nc_visits_spec rem h point cn_offsets (NC st (nc_points s) (nc_lookup s) (nc_nbrs s)))
        as (s1 & -> & Hi1 & Hn1 & Hm1); [done|exact Hl|exact offsets_small| |].
      { destruct Hi as [I1 I2 I3 I4 I5]. split; cbn; try done. intros p Hp'. apply I2. rewrite Es. by right. }
      cbn [rbind]. cbn [nc_stack nc_points length] in Hn1, Hf, Hm1.
      destruct (IH s1 Hi1 ltac:(lia)) as (s' & -> & Hi' & Hn'). exists s'. split; [done|]. split; [done|]. lia.
  Qed.

  Definition group_ok (g : list npt) : Prop := exists h t, g = h :: t /\ forall r, r ∈ t -> reached pset r.

  Lemma nc_outer_spec inner orc fuel : forall points lookup acc,
    (length points < fuel)%nat -> (length points < inner)%nat ->
    (forall q el, lookup !! q = Some (Some el) -> (q, el) ∈ points) ->
    (forall p, p ∈ points -> p ∈ pset) ->
    (forall g, g ∈ acc -> group_ok g) ->
    exists gs, nc_outer fuel inner orc points lookup acc = Ok gs /\
      (forall g, g ∈ gs -> group_ok g) /\ (forall r, r ∈ points \/ r ∈ concat acc -> r ∈ concat gs).
  Proof.
    induction fuel as [|fuel IH]; intros points lookup acc Hf Hif Hlk Hps Hacc; [lia|]. cbn [nc_outer].
    destruct points as [|p0 points0].
    { rewrite pop_any_nil. exists acc. split; [done|]. split; [done|]. intros r [H|H]; [by apply elem_of_nil in H|done]. }
    destruct (pop_any_cons (orc fuel) (p0 :: points0)) as (p & rest & -> & Hperm); [done|].
    assert (Hlen : length (p0 :: points0) = S (length rest)) by (by rewrite Hperm).
    assert (Hmem : forall r, r ∈ p0 :: points0 <-> r = p \/ r ∈ rest).
    { intros r. rewrite Hperm. apply elem_of_cons. }
    destruct (nc_inner_spec rest p inner (NC [p] rest (<[n_xy p:=None]> lookup) [p])) as (s & -> & Hi & Hn).
    - split; cbn [nc_lookup nc_points nc_stack nc_nbrs].
      + intros q el Hq. destruct (decide (q = n_xy p)) as [->|Hne]; [by rewrite lookup_insert in Hq|].
        rewrite lookup_insert_ne in Hq by congruence. apply Hlk, Hmem in Hq as [Hq|Hq]; [|done].
        exfalso. apply Hne. rewrite <- Hq. done.
      + intros r ->%elem_of_list_singleton. split; [apply Hps, Hmem; by left|]. intros el. unfold n_xy. by rewrite lookup_insert.
      + intros r Hr. apply Hps, Hmem. by right.
      + exists []. split; [done|]. intros r Hr. by apply elem_of_nil in Hr.
      + intros r Hr. by left.
    - cbn [nc_stack nc_points length]. lia.
    - cbn [rbind]. cbn [nc_stack nc_points length] in Hn. destruct Hi as [I1 I2 I3 I4 I5].
      destruct (IH (nc_points s) (nc_lookup s) (acc ++ [nc_nbrs s])) as (gs & -> & Hg & Hc); [lia|lia|exact I1|exact I3| |].
      + intros g [Hg| ->%elem_of_list_singleton]%elem_of_app; [by apply Hacc|]. destruct I4 as (t & -> & Ht). by exists p, t.
      + exists gs. split; [done|]. split; [done|]. intros r Hr. apply Hc. rewrite concat_app, elem_of_app. cbn [concat].
        rewrite app_nil_r. destruct Hr as [Hr|Hr]; [|tauto]. apply Hmem in Hr as [->|Hr].
        * right. right. destruct I4 as (t & -> & _). by left.
        * destruct (I5 r Hr); tauto.
  Qed.
End groups.

Lemma nc_init_look (l : list npt) : forall (lk : gmap xy (option fnum)) (done : list npt),
  (forall q el, lk !! q = Some (Some el) -> (q, el) ∈ done) ->
  forall q el, foldl (fun l p => <[n_xy p := Some p.2]> l) lk l !! q = Some (Some el) -> (q, el) ∈ done ++ l.
Proof.
  induction l as [|p l IH]; intros lk done H q el Hq; cbn in Hq.
  - rewrite app_nil_r. by apply H.
  - change (p :: l) with ([p] ++ l). rewrite app_assoc. apply (IH _ (done ++ [p])) in Hq; [done|].
    intros q' el' Hq'. apply elem_of_app. destruct (decide (q' = n_xy p)) as [->|Hne].
    + rewrite lookup_insert in Hq'. right. apply elem_of_list_singleton. destruct p as [p1 p2]. cbn in *. congruence.
    + rewrite lookup_insert_ne in Hq' by congruence. left. by apply H.
Qed.

(** Every point is in a group, and points that cannot be reached are at the head of theirs. *)
Lemma nc_groups_spec orc pset : exists gs, nc_groups orc pset = Ok gs /\
  (forall g, g ∈ gs -> group_ok pset g) /\ (forall r, r ∈ pset -> r ∈ concat gs).
Proof.
  unfold nc_groups. destruct (nc_outer_spec pset (S (length pset)) orc (S (length pset)) pset (nc_init_lookup pset) [])
    as (gs & -> & H1 & H2); [lia|lia| |done| |].
  - intros q el Hq. unfold nc_init_lookup in Hq. apply (nc_init_look pset ∅ []) in Hq; [done|].
    intros q' el'. by rewrite lookup_empty.
  - intros g Hg. by apply elem_of_nil in Hg.
  - exists gs. split; [done|]. split; [done|]. intros r Hr. apply H2. by left.
Qed.

Lemma nan_no_high k acc l : n_highest_loop (NaN k) acc l = acc.
Proof. induction l as [|[p [z|k']] l IH]; cbn; done. Qed.

Lemma lower_nan_head e gs : (forall g, g ∈ gs -> g <> []) ->
  (exists g h t k, g ∈ gs /\ g = (h, NaN k) :: t) -> n_lower_groups e gs = Err IndexError.
Proof.
  induction gs as [|g gs IH]; intros Hne (g' & h & t & k & Hg & ->); [by apply elem_of_nil in Hg|].
  cbn [n_lower_groups]. destruct g as [|p g]; [by destruct (Hne []); [left|]|]. cbn [n_highest rbind].
  destruct p as [p [z|k']].
  - destruct (n_highest_loop _ _ _) as [|a l]; [done|].
    rewrite IH; [done|intros; apply Hne; by right|]. exists ((h, NaN k) :: t), h, t, k. split; [|done].
    apply elem_of_cons in Hg as [Hg|Hg]; [|done]. injection Hg as H1 H2 H3. done.
  - cbn [snd]. by rewrite nan_no_high.
Qed.

(** Grouping fails later if a NaN point cannot be reached. *)
Lemma unreached_nan orc pset e q k : (q, NaN k) ∈ pset -> ~ reached pset (q, NaN k) ->
  exists gs, nc_groups orc pset = Ok gs /\ n_lower_groups e gs = Err IndexError.
Proof.
  intros Hq Hr. destruct (nc_groups_spec orc pset) as (gs & -> & H1 & H2). exists gs. split; [done|].
  apply lower_nan_head.
  - intros g Hg. destruct (H1 g Hg) as (h & t & -> & _). done.
  - apply H2, elem_of_concat in Hq as (g & Hin & Hg). destruct (H1 g Hg) as (h & t & -> & Ht).
    apply elem_of_cons in Hin as [<-|Hin]; [by exists ((q, NaN k) :: t), q, t, k|].
    exfalso. by apply Hr, Ht.
Qed.
