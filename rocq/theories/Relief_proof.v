(** Discovery depends on the order of the elevations only. *)
From Verif Require Import Analyze_model Raster_spec Feature_spec Raster_proof Contig_proof
  Touch_proof Blob_proof Analyze_proof Area_proof Scan_proof Feature_facts Nodata_proof Relief_spec.
From Coq Require Import ZifyBool.
Local Open Scope Z_scope.

Ltac rc := repeat first [assumption | reflexivity | constructor].

(** Both calls fail alike, or give related results. *)
Definition alike {A B} (P : A -> B -> Prop) (r : res A) (r' : res B) : Prop :=
  match r, r' with Ok a, Ok b => P a b | Err e, Err e' => e = e' | _, _ => False end.
Lemma alike_bind {A B C D} (P : A -> B -> Prop) (S : C -> D -> Prop) r r' k k' :
  alike P r r' -> (forall a b, P a b -> alike S (k a) (k' b)) -> alike S (rbind r k) (rbind r' k').
Proof. intros H Hk. destruct r, r'; cbn in *; try done. by apply Hk. Qed.
Lemma alike_fold {A B C D} (P : A -> B -> Prop) (S : C -> D -> Prop) f f' l l' :
  Forall2 P l l' -> (forall a b s t, P a b -> S s t -> alike S (f a s) (f' b t)) ->
  forall s t, S s t -> alike S (foldM f l s) (foldM f' l' t).
Proof.
  intros H Hf. induction H as [|a b l l' Hab H IH]; intros s t Hs; [done|]. cbn [foldM].
  apply (alike_bind S); [by apply Hf|done].
Qed.
Lemma alike_same {A} (r : res A) : alike eq r r.
Proof. by destruct r. Qed.
Lemma Forall2_same {A} (l : list A) : Forall2 eq l l.
Proof. induction l; constructor; done. Qed.
Lemma Forall2_concat {A B} (P : A -> B -> Prop) l l' : Forall2 (Forall2 P) l l' -> Forall2 P (concat l) (concat l').
Proof. induction 1; [constructor|]. cbn. by apply Forall2_app. Qed.

Section relief.
  Context (fp : datamap -> list xy -> xy -> xy -> option Q) (orc : xy -> nat -> nat -> nat).
  Context (m1 m2 : datamap) (Hs : same_relief m1 m2).
  Context (Hfp : forall pts a b, fp m1 pts a b = fp m2 pts a b).

  (** Elevations of one cell in both rasters. *)
  Definition both (e e' : Z) : Prop := exists c, data_cell m1 c /\ e = elev m1 c /\ e' = elev m2 c.
  Definition pt (z z' : pte) : Prop :=
    pt_xy z = pt_xy z' /\ data_cell m1 (pt_xy z) /\ pt_e z = elev m1 (pt_xy z) /\ pt_e z' = elev m2 (pt_xy z).
  Definition pts : list pte -> list pte -> Prop := Forall2 pt.
  Definition mpt (z z' : mpoint) : Prop :=
    z.1 = z'.1 /\ match z.2, z'.2 with Some e, Some e' => pt (z.1, e) (z.1, e') | None, None => True | _, _ => False end.

  Lemma both_lt a a' b b' : both a a' -> both b b' -> (a <? b) = (a' <? b').
  Proof.
    intros (c & Hc & -> & ->) (d & Hd & -> & ->). pose proof (sr_less _ _ Hs c d Hc Hd). lia.
  Qed.
  Lemma both_eq a a' b b' : both a a' -> both b b' -> (a =? b) = (a' =? b').
  Proof.
    intros (c & Hc & -> & ->) (d & Hd & -> & ->). pose proof (sr_less _ _ Hs c d Hc Hd). pose proof (sr_less _ _ Hs d c Hd Hc). lia.
  Qed.
  Lemma pt_both z z' : pt z z' -> both (pt_e z) (pt_e z').
  Proof. intros (_ & H & -> & ->). by exists (pt_xy z). Qed.
  Lemma pt_xy_eq z z' : pt z z' -> pt_xy z = pt_xy z'.
  Proof. by intros [? _]. Qed.
  Lemma pt_eq a a' b b' : pt a a' -> pt b b' -> (a = b <-> a' = b').
  Proof.
    destruct a as [a e], a' as [a' e'], b as [b f], b' as [b' f']. unfold pt, pt_xy, pt_e. cbn.
    intros (<- & _ & -> & ->) (<- & _ & -> & ->). split; intros [= -> _]; done.
  Qed.
  Lemma pts_xy l l' : pts l l' -> map pt_xy l = map pt_xy l'.
  Proof. induction 1 as [|a b l l' H _ IH]; [done|]. cbn. by rewrite IH, (pt_xy_eq _ _ H). Qed.
  Lemma pts_elem a a' l l' : pt a a' -> pts l l' -> (a ∈ l <-> a' ∈ l').
  Proof.
    intros Ha. induction 1 as [|b b' l l' Hb _ IH]; [by rewrite !elem_of_nil|].
    rewrite !elem_of_cons, IH. by rewrite (pt_eq _ _ _ _ Ha Hb).
  Qed.
  Lemma pts_filter (P P' : pte -> Prop) `{!forall z, Decision (P z)} `{!forall z, Decision (P' z)} l l' :
    (forall z z', pt z z' -> (P z <-> P' z')) -> pts l l' -> pts (filter P l) (filter P' l').
  Proof.
    intros HP. induction 1 as [|a b l l' Hab _ IH]; [constructor|]. rewrite !filter_cons.
    pose proof (HP a b Hab). do 2 destruct (decide _); try tauto. by constructor.
  Qed.
  Lemma pts_dups l l' : pts l l' -> pts (remove_dups l) (remove_dups l').
  Proof.
    induction 1 as [|a b l l' H Hl IH]; [constructor|]. cbn. unfold decide_rel.
    pose proof (pts_elem _ _ _ _ H Hl). do 2 destruct (elem_of_list_dec _ _); try tauto. by constructor.
  Qed.
  Lemma pts_add a a' l l' : pt a a' -> pts l l' -> pts (set_add a l) (set_add a' l').
  Proof.
    intros H Hl. unfold set_add. pose proof (pts_elem _ _ _ _ H Hl). do 2 destruct (decide _); try tauto.
    apply Forall2_app; [done|]. by rc.
  Qed.

  (** ** Grouping *)
  Definition known (l l' : gmap xy (option Z)) : Prop := forall q,
    match l !! q, l' !! q with
    | None, None => True
    | Some None, Some None => True
    | Some (Some e), Some (Some e') => pt (q, e) (q, e')
    | _, _ => False
    end.
  Lemma known_insert l l' q o o' : known l l' ->
    match o, o' with None, None => True | Some e, Some e' => pt (q, e) (q, e') | _, _ => False end ->
    known (<[q := o]> l) (<[q := o']> l').
  Proof.
    intros H Ho r. destruct (decide (r = q)) as [->|Hn]; [rewrite !lookup_insert; by destruct o, o'|].
    rewrite !lookup_insert_ne by done. apply H.
  Qed.
  Record grouping (s s' : cn_state) : Prop := {
    g_stack : pts (cn_stack s) (cn_stack s');
    g_points : pts (cn_points s) (cn_points s');
    g_known : known (cn_lookup s) (cn_lookup s');
    g_nbrs : pts (cn_nbrs s) (cn_nbrs s') }.

  Lemma visit_alike p p' off s s' : pt p p' -> grouping s s' -> alike grouping (cn_visit p off s) (cn_visit p' off s').
  Proof.
    intros Hp G. unfold cn_visit, pt_x, pt_y. fold (pt_xy p) (pt_xy p'). rewrite <-(pt_xy_eq _ _ Hp).
    destruct (_ <? 0); [exact G|]. destruct (_ <? 0); [exact G|].
    set (q := (_, _)). pose proof (g_known _ _ G q) as Hk.
    destruct (cn_lookup s !! q) as [[e|]|], (cn_lookup s' !! q) as [[e'|]|]; try done.
    pose proof (pts_elem _ _ _ _ Hk (g_points _ _ G)) as He.
    do 2 destruct (decide _); try tauto; [|done]. cbn. constructor; cbn.
    - constructor; [done|apply G].
    - apply pts_filter; [|apply G]. intros z z' Hz. pose proof (pt_eq _ _ _ _ Hz Hk). tauto.
    - by apply known_insert; [apply G|].
    - apply Forall2_app; [apply G|]. by rc.
  Qed.
  Lemma inner_alike fuel : forall s s', grouping s s' -> alike grouping (cn_inner fuel s) (cn_inner fuel s').
  Proof.
    induction fuel as [|fuel IH]; intros s s' G; [done|]. cbn [cn_inner]. pose proof (g_stack _ _ G) as Hst.
    destruct Hst as [|p p' st st' Hp Hst]; [exact G|].
    apply (alike_bind grouping); [|by apply IH].
    apply (alike_fold eq); [apply Forall2_same| |constructor; [done|apply G..]].
    intros o ? t t' <- Ht. by apply visit_alike.
  Qed.
  Lemma pop_alike k l l' : pts l l' ->
    match pop_any k l, pop_any k l' with
    | Some (a, r), Some (a', r') => pt a a' /\ pts r r'
    | None, None => True
    | _, _ => False
    end.
  Proof.
    intros H. unfold pop_any. rewrite (Forall2_length _ _ _ H).
    destruct (l !! _) as [a|] eqn:E.
    - destruct (Forall2_lookup_l _ _ _ _ _ H E) as (a' & -> & Ha). split; [done|]. by apply Forall2_delete.
    - rewrite (proj2 (lookup_ge_None l' _)); [done|]. apply lookup_ge_None in E. by rewrite (Forall2_length _ _ _ H) in E.
  Qed.
  Lemma outer_alike o inner fuel : forall ps ps' l l' acc acc', pts ps ps' -> known l l' -> Forall2 pts acc acc' ->
    alike (Forall2 pts) (cn_outer fuel inner o ps l acc) (cn_outer fuel inner o ps' l' acc').
  Proof.
    induction fuel as [|fuel IH]; intros ps ps' l l' acc acc' Hp Hl Ha; [done|]. cbn [cn_outer].
    pose proof (pop_alike (o fuel) ps ps' Hp) as H.
    destruct (pop_any _ ps) as [[a r]|], (pop_any _ ps') as [[a' r']|]; try done. destruct H as [Hx Hr].
    apply (alike_bind grouping).
    - apply inner_alike. constructor; cbn; [by rc|done| |by rc].
      rewrite <-(pt_xy_eq _ _ Hx). by apply known_insert.
    - intros s s' G. apply IH; [apply G..|]. apply Forall2_app; [done|]. rc; apply G.
  Qed.
  Lemma groups_alike o ps ps' : pts ps ps' -> alike (Forall2 pts) (contiguous_neighbors o ps) (contiguous_neighbors o ps').
  Proof.
    intros H%pts_dups. unfold contiguous_neighbors. rewrite (Forall2_length _ _ _ H). apply outer_alike; [done| |constructor].
    unfold cn_init_lookup. assert (known ∅ ∅) as Hk by (intros q; by rewrite !lookup_empty). revert Hk.
    generalize (∅ : gmap xy (option Z)) at 1 3. generalize (∅ : gmap xy (option Z)).
    induction H as [|a b l l' Hab H IH]; intros k' k Hk; [done|]. cbn. apply IH.
    rewrite <-(pt_xy_eq _ _ Hab). apply known_insert; [done|].
    destruct a as [q e], b as [q' e']. pose proof (pt_xy_eq _ _ Hab) as E. cbn in E. by rewrite <-E in Hab.
  Qed.

  (** ** Touching groups *)
  Lemma groups_xy l l' : Forall2 pts l l' -> map (map pt_xy) l = map (map pt_xy) l'.
  Proof. induction 1 as [|a b l l' H _ IH]; [done|]. cbn. by rewrite IH, (pts_xy _ _ H). Qed.
  Lemma imap_pair {A B} (P : A -> B -> Prop) l l' : Forall2 P l l' ->
    Forall2 (fun a b => a.1 = b.1 /\ P a.2 b.2) (imap pair l) (imap pair l').
  Proof.
    intros H. assert (forall f : nat -> nat, Forall2 (fun a b => a.1 = b.1 /\ P a.2 b.2)
      (imap (fun i => pair (f i)) l) (imap (fun i => pair (f i)) l')) as HH.
    { induction H as [|a b l l' Hab H IH]; intros f; [constructor|]. cbn. constructor; [done|]. exact (IH (fun i => f (S i))). }
    exact (HH (fun i => i)).
  Qed.
  Lemma tn_lookup_alike l l' : Forall2 pts l l' -> tn_lookup l = tn_lookup l'.
  Proof.
    intros H. unfold tn_lookup. generalize (∅ : gmap xy Z).
    induction (imap_pair _ _ _ H) as [|[i a] [j b] k k' [E Hab] _ IH]; intros g; [done|]. cbn in E, Hab. subst j. cbn [foldl].
    rewrite IH. f_equal. clear -Hab. cbn. revert g. induction Hab as [|x y a b Hx _ IH]; intros g; [done|]. cbn.
    by rewrite IH, (pt_xy_eq _ _ Hx).
  Qed.
  Lemma touching_alike l l' : Forall2 pts l l' -> touching_neighborhoods m1 l = touching_neighborhoods m2 l'.
  Proof.
    intros H. unfold touching_neighborhoods. rewrite (tn_lookup_alike _ _ H). set (lk := tn_lookup l').
    apply (f_equal (fun r => rbind r _)). generalize (TN [] []).
    induction (imap_pair _ _ _ H) as [|[i a] [j b] k k' [E Hab] _ IH]; intros s; [done|]. cbn in E, Hab. subst j. cbn [foldM].
    match goal with |- rbind ?a _ = rbind ?b _ => assert (a = b) as -> end.
    { clear -Hab. cbn [fst snd]. revert s. induction Hab as [|x y a b Hx _ IH]; intros s; [done|]. cbn [foldM].
      rewrite !iterateFull_eq. cbn [rbind]. unfold pt_x, pt_y. fold (pt_xy x) (pt_xy y). rewrite (pt_xy_eq _ _ Hx).
      rewrite IH. f_equal. }
    destruct (foldM (fun p s => rbind (iterateFull m2 _ _) _) _ s) as [t|]; [|done]. cbn [rbind]. apply IH.
  Qed.

  (** ** Highest points *)
  Lemma highest_loop_alike h h' acc acc' l l' : both h h' -> pts acc acc' -> pts l l' ->
    pts (highest_loop h acc l) (highest_loop h' acc' l').
  Proof.
    intros Hh Ha H. revert h h' acc acc' Hh Ha. induction H as [|a b l l' Hab H IH]; intros h h' acc acc' Hh Ha; [done|]. cbn.
    pose proof (pt_both _ _ Hab) as Hb. rewrite (both_lt _ _ _ _ Hh Hb), (both_eq _ _ _ _ Hb Hh).
    destruct (_ <? _); [|destruct (_ =? _)]; apply IH; try done.
    - by rc.
    - apply Forall2_app; [done|]. by rc.
  Qed.
  Lemma highest_alike l l' : pts l l' -> alike pts (highest l) (highest l').
  Proof.
    intros H. pose proof H as H'. destruct H' as [|a b k k' Hab H']; [done|]. cbn [highest alike].
    apply highest_loop_alike; [by apply pt_both|constructor|done].
  Qed.
  Lemma lower_alike e e' l l' : both e e' -> Forall2 pts l l' -> alike (Forall2 pts) (lower_groups e l) (lower_groups e' l').
  Proof.
    intros He. induction 1 as [|a b l l' Hab H IH]; [constructor|]. cbn [lower_groups].
    apply (alike_bind pts); [by apply highest_alike|]. intros h h' Hh. destruct Hh as [|p p' h h' Hp Hh]; [done|].
    apply (alike_bind (Forall2 pts)); [done|]. intros r r' Hr. cbn. rewrite (both_lt _ _ _ _ (pt_both _ _ Hp) He).
    destruct (_ <? _); [by constructor|done].
  Qed.

  (** ** Border features *)
  Record ft (f f' : feature) : Prop := {
    f_kind : ft_kind f = ft_kind f';
    f_pos : ft_pos f = ft_pos f';
    f_ele : both (ft_ele f) (ft_ele f');
    f_multi : Forall2 mpt (ft_multi f) (ft_multi f');
    f_edge : ft_edge f = ft_edge f';
    f_epts : pts (ft_edgepts f) (ft_edgepts f');
    f_hpn : Forall2 pts (ft_hpn f) (ft_hpn f') }.
  Record border (s s' : edge_state) : Prop := {
    b_feats : Forall2 ft (es_feats s) (es_feats s');
    b_multi : Forall2 mpt (es_multi s) (es_multi s');
    b_rest : pts (es_remaining s) (es_remaining s');
    b_count : es_runoff_nbhds s = es_runoff_nbhds s' }.

  Lemma mpts_fst l l' : Forall2 mpt l l' -> map fst l = map fst l'.
  Proof. induction 1 as [|a b l l' [H _] _ IH]; [done|]. cbn. by rewrite IH, H. Qed.
  Definition choice (o o' : option (pte * Q)) : Prop :=
    match o, o' with Some a, Some a' => pt a.1 a'.1 /\ a.2 = a'.2 | None, None => True | _, _ => False end.
  Lemma search_alike ps start ths ths' best best' : pts ths ths' -> choice best best' ->
    alike choice (hp_search fp m1 ps start ths best) (hp_search fp m2 ps start ths' best').
  Proof.
    intros H. revert best best'. induction H as [|t t' l l' Ht _ IH]; intros best best' Hb; [exact Hb|]. cbn.
    rewrite Hfp, (pt_xy_eq _ _ Ht). destruct (fp m2 ps start (pt_xy t')) as [c|]; [|done]. apply IH.
    destruct best as [[z k]|], best' as [[z' k']|]; try done. destruct Hb as [Hz Hk]. cbn in Hz, Hk. subst k'. destruct (Qle_bool k c); by split.
  Qed.
  Lemma path_alike mid mid' multi multi' hp hp' : pt mid mid' -> Forall2 mpt multi multi' -> Forall2 pts hp hp' ->
    alike (fun r r' => pt r.1 r'.1 /\ Forall2 mpt r.2 r'.2)
      (high_perimeter_neighborhood_shortest_path fp m1 mid multi hp) (high_perimeter_neighborhood_shortest_path fp m2 mid' multi' hp').
  Proof.
    intros Hmid Hm Hh%Forall2_concat. unfold high_perimeter_neighborhood_shortest_path.
    set (l := multi ++ _). set (l' := multi' ++ _).
    assert (Forall2 mpt l l') as Hl.
    { apply Forall2_app; [done|]. apply Forall2_fmap. eapply Forall2_impl; [exact Hh|]. intros [q e] [q' e'] Hz.
      pose proof (pt_xy_eq _ _ Hz) as E. cbn in E. split; [done|]. cbn. by rewrite <-E in Hz. }
    assert (match last l with Some p => p.1 | None => pt_xy mid end = match last l' with Some p => p.1 | None => pt_xy mid' end) as ->.
    { clearbody l l'. pose proof (f_equal last (mpts_fst _ _ Hl)) as E.
      rewrite !(fmap_last fst) in E. destruct (last l), (last l'); cbn in E; try discriminate E; [by injection E|by apply pt_xy_eq]. }
    rewrite (mpts_fst _ _ Hl). eapply alike_bind; [by apply (search_alike _ _ _ _ None None)|].
    intros [[z c]|] [[z' c']|] Hb; try done. by destruct Hb.
  Qed.
  Lemma remove_alike a a' l l' : pt a a' -> pts l l' -> alike pts (py_remove a l) (py_remove a' l').
  Proof.
    intros Ha. induction 1 as [|b b' l l' Hb Hl IH]; [done|]. cbn. pose proof (pt_eq _ _ _ _ Hb Ha).
    do 2 destruct (decide _); try tauto. apply (alike_bind pts); [done|]. intros. by constructor.
  Qed.
  Lemma runoff_alike e e' E E' hp hp' kv s s' : both e e' -> Forall2 pts E E' -> Forall2 pts hp hp' -> border s s' ->
    alike border (runoff_step fp m1 e E hp kv s) (runoff_step fp m2 e' E' hp' kv s').
  Proof.
    intros He HE Hh HB. unfold runoff_step. rewrite (Forall2_length _ _ _ HE).
    destruct (_ <? _); [exact HB|]. destruct (negb _); [exact HB|].
    destruct (E !! Z.to_nat kv.1) as [nb|] eqn:En; cycle 1.
    { rewrite (proj2 (lookup_ge_None E' _)); [done|]. apply lookup_ge_None in En. by rewrite (Forall2_length _ _ _ HE) in En. }
    destruct (Forall2_lookup_l _ _ _ _ _ HE En) as (nb' & -> & Hnb). rewrite (Forall2_length _ _ _ Hnb).
    destruct (nb !! _) as [mid|] eqn:Em; cycle 1.
    { rewrite (proj2 (lookup_ge_None nb' _)); [done|]. apply lookup_ge_None in Em. by rewrite (Forall2_length _ _ _ Hnb) in Em. }
    destruct (Forall2_lookup_l _ _ _ _ _ Hnb Em) as (mid' & -> & Hmid).
    apply (alike_bind (fun r r' => Forall2 pts r.1 r'.1 /\ Forall2 mpt r.2 r'.2)).
    - pose proof (b_multi _ _ HB) as Hm. pose proof (Forall2_length _ _ _ Hm) as Hlen.
      destruct (decide (es_multi s = [])) as [Ez|Ez], (decide (es_multi s' = [])) as [Ez'|Ez'].
      + by split.
      + rewrite Ez in Hlen. destruct (es_multi s'); done.
      + rewrite Ez' in Hlen. destruct (es_multi s); done.
      + eapply alike_bind; [by apply path_alike|]. intros [z l] [z' l'] [Hz Hl]. split; [by rc|done].
    - intros [hs multi] [hs' multi'] [H1 H2]. cbn in H1, H2. apply (alike_bind pts).
      + apply (alike_fold pt); [done| |apply HB]. intros. by apply remove_alike.
      + intros r r' Hr. constructor; cbn; [|done|done|by rewrite (b_count _ _ HB)].
        apply Forall2_app; [apply HB|]. rc; cbn; try done. by apply pt_xy_eq.
  Qed.
  Lemma edge_alike cell x y e e' me me' multi multi' edge ep ep' hp hp' :
    both e e' -> pts me me' -> Forall2 mpt multi multi' -> pts ep ep' -> Forall2 pts hp hp' ->
    alike (Forall2 ft) (edge_feature_analysis fp orc m1 cell x y e me multi edge ep hp) (edge_feature_analysis fp orc m2 cell x y e' me' multi' edge ep' hp').
  Proof.
    intros He Hme Hm Hep Hh. unfold edge_feature_analysis. destruct (negb edge); [constructor|].
    pose proof Hh as Hh'. destruct Hh' as [|g g' k k' Hg Hk]; [by rc|].
    apply (alike_bind (Forall2 pts)); [by apply groups_alike|]. intros ring ring' Hr.
    apply (alike_bind (Forall2 pts)); [by apply lower_alike|]. intros low low' Hl.
    rewrite (Forall2_length _ _ _ Hl). cbn [length]. rewrite (Forall2_length _ _ _ Hk). destruct (Nat.leb _ _).
    { cbn [alike]. destruct (Nat.ltb _ _); [|constructor]. by rc. }
    apply (alike_bind (Forall2 pts)); [by apply groups_alike|]. intros E E' HE.
    rewrite (touching_alike (E ++ low) (E' ++ low')) by (by apply Forall2_app).
    apply (alike_bind eq); [apply alike_same|]. intros t ? <-.
    apply (alike_bind border).
    - apply (alike_fold eq); [apply Forall2_same| |constructor; [constructor|done..]]. intros kv ? s s' <- HB. by apply runoff_alike.
    - intros s s' HB. cbn [alike]. apply Forall2_app; [apply HB|]. destruct (Nat.leb 2 _); [|constructor].
      rewrite (b_count _ _ HB), (Forall2_length _ _ _ HE). destruct (Nat.eqb _ _); rc; cbn; try done; apply HB.
  Qed.
  Lemma logic_alike cell x y e e' per per' me me' multi multi' edge ep ep' :
    both e e' -> pts per per' -> pts me me' -> Forall2 mpt multi multi' -> pts ep ep' ->
    alike (Forall2 ft) (consolidatedFeatureLogic fp orc m1 cell x y e per me multi edge ep)
      (consolidatedFeatureLogic fp orc m2 cell x y e' per' me' multi' edge ep').
  Proof.
    intros He Hp Hme Hm Hep. unfold consolidatedFeatureLogic. apply (alike_bind (Forall2 pts)).
    { apply groups_alike, pts_filter; [|done]. intros z z' Hz. pose proof (both_lt _ _ _ _ He (pt_both _ _ Hz)). lia. }
    intros hp hp' Hh.
    match goal with |- alike _ (if edge then rbind _ (fun _ => Ok (?a ++ _)) else _) (if edge then rbind _ (fun _ => Ok (?b ++ _)) else _) =>
      assert (Forall2 ft a b) as Hf end.
    { pose proof Hh as Hh'. destruct Hh' as [|g g' k k' Hg Hk]; [by rc|]. cbn [length].
      rewrite (Forall2_length _ _ _ Hk). destruct (_ && _); [|constructor]. by rc. }
    destruct edge; [|exact Hf]. apply (alike_bind (Forall2 ft)); [by apply edge_alike|]. intros. by apply Forall2_app.
  Qed.

  (** ** Neighbours and flat areas *)
  Definition nb (n n' : xy * option Z) : Prop :=
    n.1 = n'.1 /\
    ((n.2 = dm_nodata m1 /\ n'.2 = dm_nodata m2) \/
     (exists e e', n.2 = Some e /\ n'.2 = Some e' /\ pt (n.1, e) (n.1, e') /\ dm_nodata m1 <> Some e /\ dm_nodata m2 <> Some e')).
  Lemma nb_alike q : nb (q, nb_val m1 q) (q, nb_val m2 q).
  Proof.
    split; [done|]. cbn. pose proof (nb_val_reported m1 q) as H1. pose proof (nb_val_reported m2 q) as H2.
    assert (in_map m1 q <-> in_map m2 q) as Hin.
    { unfold in_map. rewrite (sr_x _ _ Hs), (sr_y _ _ Hs). done. }
    destruct H1 as [[Hi1 ->]|[Hi1 ->]], H2 as [[Hi2 ->]|[Hi2 ->]]; try tauto.
    destruct (decide (data_cell m1 q)) as [Hd|Hd].
    - right. exists (elev m1 q), (elev m2 q). pose proof (proj1 (sr_data _ _ Hs q) Hd) as Hd2.
      do 2 (split; [done|]). split; [by repeat split; try apply Hd|]. split; [apply Hd|apply Hd2].
    - left. assert (~ data_cell m2 q) as Hd2 by (by rewrite <-(sr_data _ _ Hs q)). unfold data_cell in *.
      destruct (decide (dm_nodata m1 = Some (elev m1 q))), (decide (dm_nodata m2 = Some (elev m2 q))); try done; tauto.
  Qed.
  Lemma nbs_alike x y : Forall2 nb (full_nbrs m1 x y) (full_nbrs m2 x y).
  Proof. unfold full_nbrs. induction FULL_SHIFT_LIST; cbn; constructor; [apply nb_alike|done]. Qed.
  Lemma border_alike x y : is_map_edge m1 x y = is_map_edge m2 x y.
  Proof. unfold is_map_edge. by rewrite (sr_x _ _ Hs), (sr_y _ _ Hs). Qed.

  Record flat (s s' : blob_state) : Prop := {
    fl_explored : bs_explored s = bs_explored s';
    fl_members : bs_members s = bs_members s';
    fl_hash : forall q, bs_hash s !! q = None <-> bs_hash s' !! q = None;
    fl_perim : pts (bs_perim s) (bs_perim s');
    fl_stack : pts (bs_stack s) (bs_stack s');
    fl_map_edge : pts (bs_map_edge s) (bs_map_edge s');
    fl_mp_edges : pts (bs_mp_edges s) (bs_mp_edges s');
    fl_edge : bs_edge s = bs_edge s' }.
  Lemma flat_visit e e' n n' s s' : both e e' -> nb n n' -> flat s s' -> flat (blob_visit m1 e n s) (blob_visit m2 e' n' s').
  Proof.
    intros He [Hq Hv] F. destruct n as [q v], n' as [q' v']; cbn in *. subst q'. unfold blob_visit. cbn. rewrite !border_alike.
    destruct Hv as [[-> ->]|(a & a' & -> & -> & Hp & H1 & H2)].
    { destruct (dm_nodata m1); [rewrite decide_True by done|]; (destruct (dm_nodata m2); [rewrite decide_True by done|]); exact F. }
    rewrite !decide_False by done. pose proof (pt_both _ _ Hp) as Hb. cbn in Hb.
    rewrite (both_eq _ _ _ _ Hb He), (both_lt _ _ _ _ He Hb), (fl_explored _ _ F).
    destruct ((a' =? e') && _).
    { constructor; cbn; try apply F; [done|by rewrite (fl_members _ _ F)|constructor; [done|apply F]|].
      destruct (is_map_edge _ _ _); [|apply F]. apply Forall2_app; [apply F|]. by rc. }
    destruct (negb _); [|exact F]. pose proof (fl_hash _ _ F q) as Hh.
    destruct (bs_hash s !! q), (bs_hash s' !! q); try exact F; [exfalso; naive_solver..|].
    constructor; cbn; try reflexivity; try apply F.
    - intros r. destruct (e' <? a'); [|apply F]. destruct (decide (r = q)) as [->|]; [by rewrite !lookup_insert|].
      rewrite !lookup_insert_ne by done. apply F.
    - destruct (e' <? a'); [|apply F]. apply Forall2_app; [apply F|]. by rc.
    - destruct (is_map_edge _ _ _); [|apply F]. apply pts_add; [done|apply F].
  Qed.
  Lemma flat_visits e e' ns ns' : both e e' -> Forall2 nb ns ns' -> forall s s', flat s s' ->
    flat (foldl (fun s n => blob_visit m1 e n s) s ns) (foldl (fun s n => blob_visit m2 e' n s) s' ns').
  Proof. intros He. induction 1 as [|n n' l l' Hn _ IH]; intros s s' F; [done|]. cbn. by apply IH, flat_visit. Qed.
  Lemma flat_loop e e' fuel : both e e' -> forall s s', flat s s' -> alike flat (blob_loop fuel m1 e s) (blob_loop fuel m2 e' s').
  Proof.
    intros He. induction fuel as [|fuel IH]; intros s s' F; [done|]. cbn [blob_loop]. pose proof (fl_stack _ _ F) as Hst.
    destruct Hst as [|g g' st st' Hg Hst]; [exact F|]. rewrite !iterateFull_eq. cbn [rbind].
    unfold pt_x, pt_y. fold (pt_xy g) (pt_xy g'). rewrite <-(pt_xy_eq _ _ Hg). apply IH, flat_visits; [done|apply nbs_alike|].
    constructor; cbn; try apply F; [done|]. by rewrite border_alike, (fl_edge _ _ F).
  Qed.
  Record area (b b' : blob) : Prop := {
    a_points : bl_points b = bl_points b';
    a_ele : both (bl_elevation b) (bl_elevation b');
    a_perim : pts (bl_perimeter b) (bl_perimeter b');
    a_edge : bl_map_edge b = bl_map_edge b';
    a_medge : pts (bl_map_edge_points b) (bl_map_edge_points b');
    a_epts : pts (bl_edge_points b) (bl_edge_points b') }.
  Lemma blob_alike x y e e' : pt ((x, y), e) ((x, y), e') -> alike area (equalHeightBlob m1 x y e) (equalHeightBlob m2 x y e').
  Proof.
    intros Hp. pose proof (pt_both _ _ Hp) as He. cbn in He. unfold equalHeightBlob, blob_fuel. rewrite (sr_x _ _ Hs), (sr_y _ _ Hs).
    apply (alike_bind flat).
    - apply flat_loop; [done|]. constructor; cbn; try done; [constructor|by rc|constructor|].
      rewrite border_alike. destruct (is_map_edge _ _ _); by rc.
    - intros s s' F. constructor; cbn; try done; apply F.
  Qed.
  Lemma scan_alike e e' ns ns' : both e e' -> Forall2 nb ns ns' -> forall p p' me me', pts p p' -> pts me me' ->
    match scan_neighbors m1 e ns p me, scan_neighbors m2 e' ns' p' me' with
    | inl (q, a), inl (q', a') => q = q' /\ pt (q, a) (q, a')
    | inr (p, me), inr (p', me') => pts p p' /\ pts me me'
    | _, _ => False
    end.
  Proof.
    intros He. induction 1 as [|[q v] [q' v'] l l' [Hq Hv] H IH]; intros p p' me me' Hp Hm; [done|]. cbn in *. subst q'.
    destruct Hv as [[-> ->]|(a & a' & -> & -> & Ha & H1 & H2)].
    - rewrite !decide_True by done. by apply IH.
    - rewrite !decide_False by (intros E; by apply H1 || by apply H2). rewrite border_alike.
      pose proof (pt_both _ _ Ha) as Hb. cbn in Hb. rewrite (both_eq _ _ _ _ Hb He), (both_lt _ _ _ _ He Hb).
      destruct (a' =? e'); [done|]. apply IH.
      + destruct (e' <? a'); [|done]. apply Forall2_app; [done|]. by rc.
      + destruct (is_map_edge _ _ _); [|done]. by apply pts_add.
  Qed.
  Definition found (r r' : list feature * gset xy) : Prop := Forall2 ft r.1 r'.1 /\ r.2 = r'.2.
  Lemma cell_alike vis e e' x y : pt ((x, y), e) ((x, y), e') ->
    alike found (summit_and_saddle fp orc m1 vis e x y) (summit_and_saddle fp orc m2 vis e' x y).
  Proof.
    intros Hp. pose proof (pt_both _ _ Hp) as He. cbn in He. unfold summit_and_saddle. destruct (decide _); [by rc|].
    rewrite !iterateFull_eq. cbn [rbind]. rewrite border_alike.
    pose proof (scan_alike e e' _ _ He (nbs_alike x y) [] [] [] []) as Hsc. specialize (Hsc ltac:(constructor) ltac:(constructor)).
    destruct (scan_neighbors m1 _ _ _ _) as [[q a]|[per me]], (scan_neighbors m2 _ _ _ _) as [[q' a']|[per' me']]; try done.
    - destruct Hsc as [<- Ha]. unfold analyze_multipoint.
      apply (alike_bind (fun r r' => Forall2 ft r.1 r'.1 /\ r.2 = r'.2)).
      + apply (alike_bind area); [apply blob_alike; by destruct q|]. intros b b' B. rewrite <-(a_edge _ _ B), <-(a_points _ _ B).
        apply (alike_bind (Forall2 ft)); [|by intros; split].
        apply logic_alike; try apply B. apply Forall2_fmap, Forall_Forall2_diag, Forall_true. by intros.
      + intros [r ps] [r' ps'] [H1 H2]. cbn in H1, H2. subst ps'. by split.
    - destruct Hsc as [H1 H2]. apply (alike_bind (Forall2 ft)); [|by intros; split].
      apply logic_alike; try done. destruct (is_map_edge _ _ _); by rc.
  Qed.
  Lemma all_alike : alike (Forall2 ft) (analyze_all fp orc m1) (analyze_all fp orc m2).
  Proof.
    unfold analyze_all. apply (alike_bind found); [|by intros [r v] [r' v'] [? _]].
    assert (nditer_cells m1 = nditer_cells m2) as E by (unfold nditer_cells; by rewrite (sr_x _ _ Hs), (sr_y _ _ Hs)).
    rewrite E. apply (alike_fold (fun c c' => c = c' /\ in_map m1 c)); [| |by rc].
    { rewrite <-E. apply Forall_Forall2_diag, Forall_forall. intros c Hc. split; [done|]. by apply elem_of_nditer. }
    intros c ? [r v] [r' v'] [<- Hc] [Hr Hv]. cbn in Hr, Hv. subst v'. unfold analyze_cell.
    assert (in_map m2 c) as Hc2 by (unfold in_map; by rewrite <-(sr_x _ _ Hs), <-(sr_y _ _ Hs)).
    rewrite !np_read_in by done. cbn [rbind]. destruct (decide (data_cell m1 c)) as [Hd|Hd].
    - assert (Hd2 : data_cell m2 c) by (by apply (sr_data _ _ Hs)).
      rewrite (decide_False (P := dm_nodata m1 = _)) by apply Hd. rewrite (decide_False (P := dm_nodata m2 = _)) by apply Hd2.
      apply (alike_bind found); [apply cell_alike; by destruct c|]. intros [a w] [a' w'] [H1 H2]. cbn in H1, H2. subst w'.
      split; [|done]. by apply Forall2_app.
    - assert (Hd2 : ~ data_cell m2 c) by (by rewrite <-(sr_data _ _ Hs c)).
      unfold data_cell in *. destruct (decide (dm_nodata m1 = _)); [|tauto]. destruct (decide (dm_nodata m2 = _)); [|tauto]. by split.
  Qed.

  (** ** The features *)
  Lemma pts_level l l' : pts l l' -> l' = map (releveled m2) l.
  Proof.
    induction 1 as [|[q e] [q' e'] l l' (H1 & _ & _ & H2) _ ->]; [done|]. unfold pt_xy, pt_e in *. cbn in *. subst q' e'. done.
  Qed.
  Lemma ft_level f f' : ft f f' -> data_cell m1 (ft_pos f) -> ft_ele f = elev m1 (ft_pos f) -> f' = relevel m2 f.
  Proof.
    destruct f as [k p e mu ed ep h], f' as [k' p' e' mu' ed' ep' h']. intros [F1 F2 F3 F4 F5 F6 F7] Hd He. cbn in *. subst.
    unfold relevel. cbn. f_equal.
    - assert (both (elev m1 p') (elev m2 p')) as H by (by exists p').
      destruct F3 as (c & Hc & E & ->). pose proof (sr_less _ _ Hs c p' Hc Hd). pose proof (sr_less _ _ Hs p' c Hd Hc). lia.
    - clear -F4. induction F4 as [|[q o] [q' o'] l l' [H1 H2] _ ->]; [done|]. cbn in *. subst q'. f_equal. f_equal.
      destruct o, o'; try done. destruct H2 as (_ & _ & _ & H2). unfold pt_e, pt_xy in H2. cbn in H2. by rewrite H2.
    - by apply pts_level.
    - clear -F7. induction F7 as [|a b l l' H _ ->]; [done|]. cbn. f_equal. by apply pts_level.
  Qed.
End relief.

Lemma filter_kind k m l : filter (fun f => ft_kind f = k) (map (relevel m) l) = map (relevel m) (filter (fun f => ft_kind f = k) l).
Proof. induction l as [|f l IH]; [done|]. cbn [map]. rewrite !filter_cons, IH. cbn. by destruct (decide _). Qed.

Lemma relief fp orc m1 m2 : same_relief m1 m2 -> (forall pts a b, fp m1 pts a b = fp m2 pts a b) ->
  map_ok m1 -> paths_found fp m1 ->
  exists su sa ru, analyze fp orc m1 = Ok (su, sa, ru) /\
    analyze fp orc m2 = Ok (map (relevel m2) su, map (relevel m2) sa, map (relevel m2) ru).
Proof.
  intros Hs Hfp Hok Hp. destruct (analyze_all_spec fp orc m1 Hok Hp) as (areas & Heq & Hres & Hfirst & _).
  pose proof (all_alike fp orc m1 m2 Hs Hfp) as H. rewrite Heq in H.
  destruct (analyze_all fp orc m2) as [fs|] eqn:E2; [|done]. cbn in H.
  unfold analyze. rewrite Heq, E2. cbn [rbind]. eexists _, _, _. split; [done|].
  assert (fs = map (relevel m2) (concat (map snd areas))) as ->; [|by rewrite !filter_kind].
  assert (Forall (fun f => data_cell m1 (ft_pos f) /\ ft_ele f = elev m1 (ft_pos f)) (concat (map snd areas))) as Hall.
  { apply Forall_forall. intros f Hf. apply elem_of_list_In, in_concat in Hf as (l & Hl & Hf).
    apply in_map_iff in Hl as ([p l'] & <- & Hin). apply elem_of_list_In in Hin, Hf. cbn in Hf.
    destruct (area_feature m1 p l' f (Hres _ _ Hin) Hf) as (_ & Hpos & He).
    split; [by eapply same_flat_data_r|]. rewrite He. by apply same_flat_elev. }
  revert Hall H. generalize (concat (map snd areas)). intros l Hall H. clear -Hs Hall H.
  induction H as [|f f' l l' Hf H IH]; [done|]. apply Forall_cons in Hall as [[H1 H2] Hall]. cbn.
  rewrite <-(IH Hall). f_equal. by apply (ft_level m1 m2 Hs).
Qed.

Lemma regrade_same g m : (forall a b, a < b -> g a < g b) -> same_relief m (regrade g m).
Proof.
  intros Hg. assert (forall a b, g a < g b <-> a < b) as Hl.
  { intros a b. split; [|apply Hg]. intros H. destruct (Z.lt_trichotomy a b) as [?|[->|L]]; [done|lia|]. apply Hg in L. lia. }
  assert (forall a b, g a = g b <-> a = b) as He.
  { intros a b. split; [|by intros ->]. intros H. destruct (Z.lt_trichotomy a b) as [L|[?|L]]; [|done|]; apply Hg in L; lia. }
  split; [done|done| |].
  - intros p. unfold data_cell. change (in_map (regrade g m) p) with (in_map m p).
    change (elev (regrade g m) p) with (g (elev m p)). cbn [regrade dm_nodata].
    destruct (dm_nodata m) as [v|]; cbn; [|naive_solver]. split; intros [? Hn]; (split; [done|]); intros [= E]; apply Hn.
    + f_equal. by apply He.
    + f_equal. by apply He.
  - intros p q _ _. symmetry. apply Hl.
Qed.
