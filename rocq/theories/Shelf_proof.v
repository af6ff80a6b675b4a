(** How climbing divides a flat area. *)
From Verif Require Import Climb_model Raster_spec Raster_proof Raster_facts Contig_proof Blob_proof
  Closest_spec Closest_proof Feature_spec Climb_spec Climb_proof Shelf_spec.
From Coq Require Import ZifyBool.
Local Open Scope Z_scope.

(** Recording a list of cells under the domains of cells that are not among them. *)
Lemma assign_list (l : list (pte * pte)) : forall s s',
  NoDup (map (fun kv => pt_xy kv.1) l) -> (forall kv kv', kv ∈ l -> kv' ∈ l -> pt_xy kv.1 <> pt_xy kv'.2) ->
  foldM (fun (kv : pte * pte) s =>
      match cs_table s !! pt_xy kv.2 with
      | None => Err KeyError
      | Some d => Ok (CS (<[pt_xy kv.1 := d]> (cs_table s)) (cs_log s))
      end) l s = Ok s' ->
  (forall k t, (k, t) ∈ l -> is_Some (cs_table s !! pt_xy t) /\ cs_table s' !! pt_xy k = cs_table s !! pt_xy t) /\
  forall c, c ∉ map (fun kv => pt_xy kv.1) l -> cs_table s' !! c = cs_table s !! c.
Proof.
  induction l as [|[k t] l IH]; intros s s' Hnd Hsep; cbn [foldM].
  - intros [= <-]. split; [intros k t H; by apply elem_of_nil in H|done].
  - cbn [fst snd]. destruct (cs_table s !! pt_xy t) as [d|] eqn:Et; [|done]. cbn [rbind]. intros Hf.
    cbn [map fst] in Hnd. apply NoDup_cons in Hnd as [Hk Hnd].
    edestruct (IH (CS (<[pt_xy k := d]> (cs_table s)) (cs_log s)) s' Hnd) as [H1 H2]; [|exact Hf|].
    { intros kv kv' Hkv Hkv'. apply Hsep; by right. }
    cbn [cs_table] in H1, H2. split.
    + intros k0 t0 Hin0. apply elem_of_cons in Hin0 as [Heq|Hin].
      * injection Heq as -> ->. rewrite Et. split; [by eexists|]. by rewrite (H2 _ Hk), lookup_insert.
      * destruct (H1 k0 t0 Hin) as [H3 H4].
        assert (pt_xy k <> pt_xy t0) by (apply (Hsep (k, t) (k0, t0)); [by left|by right]).
        rewrite lookup_insert_ne in H3, H4 by done. done.
    + intros c Hc. cbn [map fst] in Hc. apply not_elem_of_cons in Hc as [Hc1 Hc2]. rewrite (H2 _ Hc2). by rewrite lookup_insert_ne.
Qed.

Section shelf.
  Context (near : searches) (m : datamap).
  Hypotheses (Hmap : nearest_map near m) (Hok : map_ok m).

  Lemma assign_nearest q (us hp : list pte) closest s s' :
    (forall p, p ∈ us <-> same_flat m q (pt_xy p) /\ pt_e p = elev m q) ->
    (forall z, z ∈ hp <-> higher_rim m q (pt_xy z) /\ pt_e z = elev m (pt_xy z)) ->
    hp <> [] -> s_map near us hp = Ok closest -> (forall p, p ∈ us -> is_Some (closest !! p)) ->
    assign_flat closest s = Ok s' ->
    (forall c, same_flat m q c -> exists t, nearest_rim m q c t /\ is_Some (cs_table s !! t) /\ cs_table s' !! c = cs_table s !! t) /\
    forall c, ~ same_flat m q c -> cs_table s' !! c = cs_table s !! c.
  Proof.
    intros Hus Hhp Hne Hs Htot Ha.
    assert (Hcl : forall k t, closest !! k = Some t -> k ∈ us /\ t ∈ hp /\
      forall t', t' ∈ hp -> (pixel2 (pt_xy k) (pt_xy t) <= pixel2 (pt_xy k) (pt_xy t'))%Q).
    { apply (Hmap us hp closest); [| |done|done].
      - intros p Hp. apply Hus in Hp as [Hp _]. apply (same_flat_data_r _ _ _ Hp).
      - intros z Hz. apply Hhp in Hz as [Hz _]. apply Hz. }
    assert (Hl : forall kv, kv ∈ map_to_list closest -> closest !! kv.1 = Some kv.2).
    { intros [k t] H. by apply elem_of_map_to_list in H. }
    destruct (assign_list (map_to_list closest) s s') as [H1 H2]; [| |exact Ha|].
    - pose proof (NoDup_fst_map_to_list closest) as Hnd.
      assert (Hk : forall kv, kv ∈ map_to_list closest -> pt_e kv.1 = elev m q).
      { intros kv Hkv. apply Hl, Hcl in Hkv as [Hkv _]. exact (proj2 (proj1 (Hus _) Hkv)). }
      clear -Hnd Hk. induction (map_to_list closest) as [|[k t] l IH]; [constructor|].
      cbn [map fst fmap list_fmap] in *. apply NoDup_cons in Hnd as [Hk0 Hnd]. constructor.
      + intros Hin. apply elem_of_list_fmap in Hin as ([k' t'] & Eq & Hin). cbn [fst] in Eq. apply Hk0.
        apply elem_of_list_fmap. exists (k', t'). split; [|done]. cbn [fst].
        pose proof (Hk (k, t) ltac:(by left)) as E1. pose proof (Hk (k', t') ltac:(by right)) as E2. cbn [fst] in E1, E2.
        destruct k as [c e], k' as [c' e']. unfold pt_xy, pt_e in *. cbn [fst snd] in *. congruence.
      + apply IH; [done|]. intros kv Hkv. apply Hk. by right.
    - intros kv kv' Hkv Hkv' E. apply Hl, Hcl in Hkv as [Hkv _]. apply Hl, Hcl in Hkv' as (_ & Hkv' & _).
      apply Hus in Hkv as [Hkv _]. apply Hhp in Hkv' as [(_ & Hlt & _) _]. apply same_flat_elev in Hkv. rewrite E in Hkv. lia.
    - split.
      + intros c Hc. assert (Hin : (c, elev m q) ∈ us) by (by apply Hus).
        destruct (Htot _ Hin) as [t Ht]. destruct (Hcl _ _ Ht) as (_ & Hth & Hmin).
        destruct (H1 (c, elev m q) t) as [H3 H4]; [by apply elem_of_map_to_list|].
        exists (pt_xy t). split; [|done]. split; [by apply Hhp|]. intros t' Ht'. apply (Hmin (t', elev m t')). by apply Hhp.
      + intros c Hc. apply H2. intros Hin. apply elem_of_list_fmap in Hin as (kv & -> & Hkv). apply Hl, Hcl in Hkv as [Hkv _].
        apply Hc. by apply Hus.
  Qed.

  Hypothesis (Hsound : sound_searches near m) (Hreach : pixels_in_reach m).

  Lemma climb_divides p sn s d s' :
    data_cell m p -> cs_table s !! p = None -> steepestNeighbor m p.1 p.2 = Ok (Some (sn, elev m p)) ->
    data_cell m sn -> adj8 p sn -> elev m sn = elev m p -> cs_table s !! sn = None ->
    climb near m (p, elev m p) s = Ok (Some d, s') ->
    cs_table s' !! p = Some d /\ cs_table s' !! sn = Some d /\
    forall c, same_flat m p c -> c <> p -> exists t, nearest_rim m p c t /\
      is_Some (cs_table s' !! t) /\ cs_table s' !! c = cs_table s' !! t.
  Proof.
    intros Hp Hpn Hst Hsn Hadj Helev Hsnn. unfold climb. unfold pt_xy at 1; cbn [fst]. rewrite Hpn.
    unfold climb_fuel. cbn [climb_loop]. unfold pt_x at 1, pt_y at 1; cbn [fst snd]. rewrite Hst. cbn [rbind].
    unfold pt_xy at 1; cbn [fst]. rewrite Hsnn. unfold pt_e at 1 2; cbn [snd]. rewrite Z.eqb_refl.
    destruct (equalHeightBlob_spec m sn.1 sn.2 Hok) as (b & Hb & Hbe & Hbnd & Hbp & Hpnd & Hper & _); [by destruct sn|].
    replace (sn.1, sn.2) with sn in * by (by destruct sn).
    change (pt_x (sn, elev m p)) with sn.1. change (pt_y (sn, elev m p)) with sn.2. change (pt_e (sn, elev m p)) with (elev m p).
    rewrite <- Helev. rewrite Hb. cbn [rbind]. rewrite Hbe.
    set (hp := findHighPerimeter (bl_perimeter b) (elev m sn)).
    assert (Hhp : forall z, z ∈ hp <-> higher_rim m sn (pt_xy z) /\ pt_e z = elev m (pt_xy z)).
    { intros [z ez]. unfold hp, findHighPerimeter. rewrite elem_of_list_filter, Hper.
      change (pt_e (z, ez)) with ez. change (pt_xy (z, ez)) with z.
      split; [intros [H1 H2]; done|]. intros [H1 ->]. split; [|done]. apply H1. }
    set (us := map (fun c => (c, elev m sn)) (bl_points b)).
    assert (Hus : forall z, z ∈ us <-> same_flat m sn (pt_xy z) /\ pt_e z = elev m sn).
    { intros [z ez]. unfold us. split.
      - intros Hz. apply elem_of_list_fmap in Hz as (c & [= -> ->] & Hc). split; [|done]. by apply Hbp.
      - unfold pt_xy, pt_e; cbn [fst snd]. intros [H1 ->]. apply elem_of_list_fmap. exists z. split; [done|]. by apply Hbp. }
    match goal with |- context [foldM ?f hp s] => destruct (foldM f hp s) as [s1|] eqn:E1; [|done] end. cbn [rbind].
    destruct (s_map near us hp) as [cl|] eqn:Ecl; [|done]. cbn [rbind].
    destruct (assign_flat cl s1) as [s2|] eqn:Ea; [|done]. cbn [rbind]. unfold pt_xy at 1; cbn [fst].
    destruct (cs_table s2 !! sn) as [d0|] eqn:Ed; [|done]. intros Heq0.
    assert (Es : sd_extend d0 [p] s2 = s') by (unfold pt_xy in Heq0; cbn [fst] in Heq0; congruence).
    assert (d0 = d) as -> by congruence. clear Heq0. subst s'.
    assert (Hflat : forall c, same_flat m p c <-> same_flat m sn c).
    { assert (Hps : same_flat m p sn) by (eapply same_flat_step; [by apply same_flat_refl|done|done|lia]).
      intros c. split; intros H; (eapply same_flat_trans; [|exact H]); [by apply same_flat_sym|done]. }
    assert (Hne : sn <> p) by (intros ->; destruct Hadj as [Hne _]; by apply Hne).
    split; [rewrite extend_table; by destruct (decide (p ∈ [p])) as [|H]; [|exfalso; apply H; by left]|].
    split.
    { rewrite extend_table. destruct (decide (sn ∈ [p])) as [H|]; [by apply elem_of_list_singleton in H|done]. }
    destruct (decide (hp = [])) as [Ehp|Ehp].
    { intros c _ _. exfalso. destruct (ss_none _ _ Hsound us) as [E|E]; rewrite Ehp in Ecl; rewrite E in Ecl; [|done].
      injection Ecl as <-. unfold assign_flat in Ea. rewrite map_to_list_empty in Ea. cbn [foldM] in Ea. injection Ea as <-.
      rewrite Ehp in E1. cbn [foldM] in E1. injection E1 as <-. congruence. }
    destruct (ss_map _ _ Hsound us hp) as (cl' & Ecl' & Htot & _); [| |done| |].
    { intros z Hz. apply Hus in Hz as [Hz _]. apply (same_flat_data_r _ _ _ Hz). }
    { intros z Hz. apply Hhp in Hz as [Hz _]. apply Hz. }
    { intros z t Hz Ht. apply Hus in Hz as [Hz _]. apply Hhp in Ht as [Ht _]. apply Hreach; [apply (same_flat_data_r _ _ _ Hz)|apply Ht]. }
    assert (cl' = cl) as -> by congruence.
    destruct (assign_nearest sn us hp cl s1 s2 Hus Hhp Ehp Ecl) as [H1 H2]; [|done|].
    { intros z Hz. destruct (Htot z Hz) as (t & Ht & _). by exists t. }
    intros c Hc Hcp. destruct (H1 c) as (t & [Ht Hmin] & Hrec & Heq); [by apply Hflat|].
    assert (Hrim : forall z, higher_rim m sn z <-> higher_rim m p z).
    { intros z. split; apply higher_rim_flat; [apply same_flat_sym|]; apply Hflat; by apply same_flat_refl. }
    assert (Hts : ~ same_flat m sn t) by (intros H; apply same_flat_elev in H; destruct Ht as (_ & Hlt & _); lia).
    assert (Htp : t <> p) by (intros ->; apply Hts, Hflat; by apply same_flat_refl).
    exists t. split; [split; [by apply Hrim|intros t' Ht'; apply Hmin; by apply Hrim]|].
    assert (Et : cs_table (sd_extend d [p] s2) !! t = cs_table s1 !! t).
    { rewrite extend_table. destruct (decide (t ∈ [p])) as [H|]; [by apply elem_of_list_singleton in H|]. by apply H2. }
    rewrite Et. split; [done|]. rewrite extend_table. destruct (decide (c ∈ [p])) as [H|]; [by apply elem_of_list_singleton in H|done].
  Qed.
End shelf.

(** The searches in exact arithmetic. *)
Lemma exact_nearest_map near m : nearest_query near -> pixels_in_reach m -> nearest_map (exact_searches near) m.
Proof.
  intros Hn Hr us them d Hus Hth Hne Hs p t Hpt. cbn [s_map exact_searches] in Hs.
  destruct (distance_map_spec near us them Hn Hne) as (d' & E & H1 & H2).
  { intros q Hq. destruct them as [|t0 them]; [done|]. exists t0. split; [by left|]. apply Hr; [by apply Hus|apply Hth; by left]. }
  assert (d' = d) as -> by congruence. destruct (decide (p ∈ us)) as [Hin|Hin]; [|rewrite H2 in Hpt; done].
  destruct (H1 p Hin) as (t' & Ht' & Hm & Hmin). assert (t' = t) as -> by congruence. done.
Qed.
