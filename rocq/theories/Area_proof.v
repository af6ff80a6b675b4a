(** Correctness of feature discovery: the classification of one flat area. *)
From Verif Require Import Analyze_model Raster_spec Feature_spec Raster_proof Contig_proof
  Touch_proof Blob_proof Analyze_proof.
From Coq Require Import ZifyBool.
Local Open Scope Z_scope.

Lemma in_map_nonneg m q : in_map m q -> 0 <= q.1 /\ 0 <= q.2.
Proof. unfold in_map. lia. Qed.

Lemma rim_nonneg m p z : rim m p z -> 0 <= pt_x z /\ 0 <= pt_y z.
Proof. intros [[[H _] _] _]. by apply (in_map_nonneg m (pt_xy z)). Qed.
Lemma rim_fun m p a b : rim m p a -> rim m p b -> pt_xy a = pt_xy b -> a = b.
Proof.
  destruct a as [a1 a2], b as [b1 b2]. unfold rim, pt_xy, pt_e. cbn. intros [_ ->] [_ ->] ->. done.
Qed.
Lemma ring_nonneg m p z : border_ring m p z -> 0 <= pt_x z /\ 0 <= pt_y z.
Proof. intros [[H _] _]. by apply (in_map_nonneg m (pt_xy z)). Qed.
Lemma ring_fun m p a b : border_ring m p a -> border_ring m p b -> pt_xy a = pt_xy b -> a = b.
Proof.
  destruct a as [a1 a2], b as [b1 b2]. unfold border_ring, pt_xy, pt_e. cbn.
  intros (_ & _ & _ & -> & _) (_ & _ & _ & -> & _) ->. done.
Qed.
Lemma members_nonneg m p z : border_members m p z -> 0 <= pt_x z /\ 0 <= pt_y z.
Proof. intros (_ & [H _] & _). by apply (in_map_nonneg m (pt_xy z)). Qed.
Lemma members_fun m p a b :
  border_members m p a -> border_members m p b -> pt_xy a = pt_xy b -> a = b.
Proof.
  destruct a as [a1 a2], b as [b1 b2]. unfold border_members, pt_xy, pt_e. cbn.
  intros (_ & _ & ->) (_ & _ & ->) ->. done.
Qed.

(** Members of different components do not touch. *)
Lemma components_apart S gs i j g h :
  components S gs -> gs !! i = Some g -> gs !! j = Some h -> groups_touch g h -> i = j.
Proof.
  intros [H1 H2 H3 H4] Hi Hj Ht. unfold groups_touch in Ht.
  apply Exists_exists in Ht as (a & Ha & Ht). apply Exists_exists in Ht as (b & Hb & Hab).
  apply (H4 i j g h a b Hi Hj Ha Hb).
  eapply linked_step; [apply linked_here| |exact Hab].
  - apply H2. apply concat_elem_index. eauto.
  - apply H2. apply concat_elem_index. eauto.
Qed.

(** The table returned by [touching_neighborhoods] counts lower groups. *)
Lemma touching_counts (E L : list (list pte)) d i g :
  (forall i j g h, E !! i = Some g -> E !! j = Some h -> groups_touch g h -> i = j) ->
  NoDup (map fst d) -> (forall k l, (k, l) ∈ d -> NoDup l) ->
  (forall u t, (exists l, (u, l) ∈ d /\ t ∈ l) <->
      exists i j g h p q, u = Z.of_nat i /\ t = Z.of_nat j /\ (i < j)%nat /\
        (E ++ L) !! i = Some g /\ (E ++ L) !! j = Some h /\ p ∈ g /\ q ∈ h /\
        adj8 (pt_xy p) (pt_xy q)) ->
  E !! i = Some g ->
  (touches_two L g <-> exists l, (Z.of_nat i, l) ∈ d /\ length l = 2%nat).
Proof.
  intros HE Hk Hv Hd Hi.
  set (F := filter (fun ja : nat * list pte => groups_touch g ja.2)
              (imap (fun i a => ((0 + i)%nat, a)) L)).
  assert (HF : length F = length (filter (groups_touch g) L)).
  { unfold F. by rewrite <-length_filter_imap. }
  assert (Hlen : forall l, (Z.of_nat i, l) ∈ d -> length l = length F).
  { intros l Hl.
    transitivity (length (map (fun j => Z.of_nat (length E + j)) (map fst F))).
    2:{ by rewrite !map_length. }
    apply Permutation_length, NoDup_Permutation.
    - by eapply Hv.
    - apply (NoDup_fmap_2_strong (fun j => Z.of_nat (length E + j))); [intros; lia|].
      apply NoDup_filter_imap.
    - intros t. split.
      + intros Ht. destruct (proj1 (Hd (Z.of_nat i) t)) as (i' & j & g' & h & p & q & Hi' & -> & Hlt & Hg & Hh & Hp & Hq & Ha).
        { eauto. }
        apply Nat2Z.inj in Hi' as <-.
        rewrite lookup_app_l in Hg by (by eapply lookup_lt_Some). rewrite Hi in Hg.
        injection Hg as <-.
        assert (groups_touch g h).
        { apply Exists_exists. exists p. split; [done|]. apply Exists_exists. eauto. }
        apply lookup_app_Some in Hh as [Hh|[Hle Hh]].
        * exfalso. assert (i = j) by (by eapply HE). lia.
        * apply elem_of_list_fmap. exists (j - length E)%nat. split; [lia|].
          apply elem_of_list_fmap. exists ((j - length E)%nat, h). split; [done|].
          apply elem_of_list_filter. split; [done|]. apply elem_of_imap_pair. eexists. split; [|done]. lia.
      + intros Ht. apply elem_of_list_fmap in Ht as (j & -> & Hj).
        apply elem_of_list_fmap in Hj as ([j' h] & -> & Hj). cbn [fst].
        apply elem_of_list_filter in Hj as [Htouch Hj]. cbn [snd] in Htouch.
        apply elem_of_imap_pair in Hj as (j & -> & Hh). cbn in *.
        apply Exists_exists in Htouch as (p & Hp & Htouch). apply Exists_exists in Htouch as (q & Hq & Ha).
        destruct (proj2 (Hd (Z.of_nat i) (Z.of_nat (length E + j)))) as (l' & Hl' & Hin).
        { exists i, (length E + j)%nat, g, h, p, q. split_and!; try done.
          - apply lookup_lt_Some in Hi. lia.
          - rewrite lookup_app_l; [done|by eapply lookup_lt_Some].
          - rewrite lookup_app_r by lia. by replace (length E + j - length E)%nat with j by lia. }
        assert (l' = l) as ->; [|done].
        { apply elem_of_list_lookup in Hl as [a Ha1], Hl' as [b Hb1].
          assert (a = b); [|congruence].
          eapply NoDup_lookup; [exact Hk| |]; rewrite list_lookup_fmap; [rewrite Ha1|rewrite Hb1]; done. } }
  unfold touches_two. rewrite <-HF. split.
  - intros H2. destruct F as [|[j h] F'] eqn:EF; [done|].
    assert (Hj : (j, h) ∈ F) by (rewrite EF; by left). rewrite <-EF in *. clear EF.
    apply elem_of_list_filter in Hj as [Htouch Hj]. cbn [snd] in Htouch.
    apply elem_of_imap_pair in Hj as (j' & -> & Hh).
    apply Exists_exists in Htouch as (p & Hp & Htouch). apply Exists_exists in Htouch as (q & Hq & Ha).
    destruct (proj2 (Hd (Z.of_nat i) (Z.of_nat (length E + j')))) as (l' & Hl' & Hin).
    { exists i, (length E + j')%nat, g, h, p, q. split_and!; try done.
      - apply lookup_lt_Some in Hi. lia.
      - rewrite lookup_app_l; [done|by eapply lookup_lt_Some].
      - rewrite lookup_app_r by lia. by replace (length E + j' - length E)%nat with j' by lia. }
    exists l'. split; [done|]. by rewrite (Hlen l' Hl').
  - intros (l & Hl & H2). by rewrite <-(Hlen l Hl).
Qed.

Lemma sublist_filter_sub {A} (P : A -> Prop) `{forall a, Decision (P a)} (l : list A) :
  sublist (filter P l) l.
Proof.
  induction l as [|a l IH]; [constructor|].
  destruct (decide (P a)); [rewrite filter_cons_True by done|rewrite filter_cons_False by done];
    by constructor.
Qed.

Section area.
  Context (fp : datamap -> list xy -> xy -> xy -> option Q) (orc : xy -> nat -> nat -> nat).
  Context (m : datamap) (p cell : xy) (x y : Z).
  Context (perimeter medge epts : list pte) (multi : list mpoint) (edge : bool).
  Hypothesis Hdata : data_cell m p.
  Hypothesis Hfp : paths_found fp m.
  Hypothesis Hpos : same_flat m p (x, y).
  Hypothesis Hperim : enumerates (rim m p) perimeter.
  Hypothesis Hmedge : enumerates (border_ring m p) medge.
  Hypothesis Hepts : enumerates (border_members m p) epts.
  Hypothesis Hmulti : area_cells m p multi.
  Hypothesis Hedge : edge = true <-> exists z, border_members m p z.

  Lemma high_perimeter_all : findHighPerimeter perimeter (elev m p) = perimeter.
  Proof.
    destruct Hperim as [_ H].
    assert (H' : forall z, z ∈ perimeter -> elev m p < pt_e z).
    { intros z Hz. apply H in Hz as [[_ [Hlt _]] He]. lia. }
    clear -H'. unfold findHighPerimeter. induction perimeter as [|a l IH]; [done|].
    rewrite filter_cons_True by (apply H'; by left). f_equal. apply IH. intros; apply H'; by right.
  Qed.

  (** Higher cells and flat cells hang together. *)
  Lemma rim_linked (W : xy -> Prop) a b :
    (forall c, same_flat m p c -> W c) -> W (pt_xy a) -> W (pt_xy b) ->
    rim m p a -> rim m p b -> linked adj8 W (pt_xy a) (pt_xy b).
  Proof.
    intros HW Ha Hb [(_ & _ & c & Hc & Hac) _] [(_ & _ & d & Hd & Hbd) _].
    eapply linked_trans with c.
    { eapply linked_step; [by apply linked_here|by apply HW|]. by apply adj8_sym. }
    eapply linked_step; [|done|exact Hbd].
    assert (Hcd : same_flat m c d) by (eapply same_flat_trans; [by apply same_flat_sym|done]).
    clear Hbd Hd. induction Hcd as [|u v H IH Hv [Huv He]].
    - apply linked_here. by apply HW.
    - eapply linked_step; [exact IH| |exact Huv].
      apply HW. eapply same_flat_trans; [exact Hc|]. eapply linked_step; [exact H|done|]. done.
  Qed.

  Lemma hp_search_spec pts start ths : forall best,
    (forall t, t ∈ ths -> exists c, fp m pts start (pt_xy t) = Some c) ->
    exists r, hp_search fp m pts start ths best = Ok r /\
      (r = None -> best = None /\ ths = []) /\
      forall z c, r = Some (z, c) -> z ∈ ths \/ exists c', best = Some (z, c').
  Proof.
    induction ths as [|t ths IH]; intros best H; cbn.
    - exists best. split_and!; [done|done|]. intros z c ->. right. eauto.
    - destruct (H t) as [c ->]; [by left|].
      destruct (IH match best with None => Some (t, c)
        | Some (b, c0) => if Qle_bool c0 c then Some (b, c0) else Some (t, c) end)
        as (r & -> & Hn & Hs).
      { intros t' Ht'. apply H. by right. }
      exists r. split; [done|]. split.
      + intros ->. destruct (Hn eq_refl) as [Hb _]. destruct best as [[b c0]|]; [|done].
        destruct (Qle_bool c0 c); done.
      + intros z c1 Hr. destruct (Hs z c1 Hr) as [Hz|[c' Hb]]; [left; by right|].
        destruct best as [[b c0]|].
        * destruct (Qle_bool c0 c); injection Hb as -> ->; [right; eauto|left; by left].
        * injection Hb as -> ->. left. by left.
  Qed.

  Definition extra_ok (extra : list mpoint) : Prop :=
    forall z, z ∈ extra -> exists q, rim m p q /\ z = (pt_xy q, Some (pt_e q)).

  Lemma hp_path_spec mid extra hp :
    multi <> [] -> components (rim m p) hp -> hp <> [] -> extra_ok extra ->
    exists z extra',
      high_perimeter_neighborhood_shortest_path fp m mid (multi ++ extra) hp =
        Ok (z, multi ++ extra ++ extra') /\ rim m p z /\ extra_ok extra'.
  Proof.
    intros Hne Hhp Hhne Hex. unfold high_perimeter_neighborhood_shortest_path.
    set (pts := (multi ++ extra) ++ _).
    assert (Hcne : concat hp <> []).
    { intros Hc. destruct Hhp as [_ H2 H3 _]. destruct hp as [|g gs]; [done|].
      cbn in Hc. apply app_eq_nil in Hc as [-> _]. by apply (H3 []); [left|]. }
    destruct (exists_last Hcne) as (l0 & zl & Hl0).
    assert (Hlast : last pts = Some (pt_xy zl, Some (pt_e zl))).
    { unfold pts. rewrite Hl0, map_app, app_assoc. cbn [map]. by rewrite last_snoc. }
    rewrite Hlast. cbn [fst].
    assert (Hrim : forall z, z ∈ concat hp -> rim m p z) by (intros; by apply Hhp).
    assert (Hzl : rim m p zl) by (apply Hrim; rewrite Hl0; els).
    assert (Hflat : forall c, same_flat m p c -> c ∈ map fst pts).
    { intros c Hc. apply elem_of_list_fmap. exists (c, None). split; [done|].
      unfold pts. apply elem_of_app; left. apply elem_of_app; left.
      destruct Hmulti as [[? _]|[[_ H] _]]; [done|]. apply H. done. }
    assert (Hhpin : forall z, z ∈ concat hp -> pt_xy z ∈ map fst pts).
    { intros z Hz. apply elem_of_list_fmap. exists (pt_xy z, Some (pt_e z)). split; [done|].
      unfold pts. apply elem_of_app; right.
      apply elem_of_list_fmap. by exists z. }
    destruct (hp_search_spec (map fst pts) (pt_xy zl) (concat hp) None) as (r & -> & Hn & Hs).
    { intros t Ht. apply Hfp. apply rim_linked; auto. apply Hhpin. rewrite Hl0. els. }
    cbn [rbind]. destruct r as [[z c]|].
    2:{ destruct (Hn eq_refl); done. }
    destruct (Hs z c eq_refl) as [Hz|[c' ?]]; [|done].
    exists z, (map (fun z : pte => (pt_xy z, Some (pt_e z))) (concat hp)). split_and!; auto.
    - unfold pts. by rewrite <-app_assoc.
    - intros q (q' & -> & Hq')%elem_of_list_fmap. exists q'. split; [by apply Hrim|done].
  Qed.

  Section loop.
    Context (hp E lower : list (list pte)).
    Hypothesis Hhp : components (rim m p) hp.
    Hypothesis Hhne : hp <> [].
    Hypothesis HE : components (border_members m p) E.

    (** The groups turned into runoffs by the entries [pre] of the table. *)
    Definition drained_of (pre : list (Z * list Z)) : list (list pte) :=
      omap (fun kv : Z * list Z =>
        if decide (kv.1 < Z.of_nat (length E) /\ length kv.2 = 2%nat)
        then E !! Z.to_nat kv.1 else None) pre.

    Record einv (dr : list (list pte)) (s : edge_state) : Prop := {
      ei_feats : Forall2 (runoff_of m p multi hp) dr (es_feats s);
      ei_multi : exists extra, es_multi s = multi ++ extra /\ (multi = [] -> extra = []) /\
        extra_ok extra;
      ei_rem : enumerates (fun z => border_members m p z /\ z ∉ concat dr) (es_remaining s);
      ei_cnt : es_runoff_nbhds s = length dr }.

    Lemma runoff_step_spec pre kv s :
      einv (drained_of pre) s -> NoDup (map fst (pre ++ [kv])) ->
      (forall k l, (k, l) ∈ pre ++ [kv] -> l <> [] -> 0 <= k) ->
      exists s', runoff_step fp m (elev m p) E hp kv s = Ok s' /\ einv (drained_of (pre ++ [kv])) s'.
    Proof.
      intros Hinv Hnd Hpre. unfold runoff_step.
      assert (Hdr : drained_of (pre ++ [kv]) = drained_of pre ++ drained_of [kv])
        by (unfold drained_of; by rewrite omap_app).
      rewrite Hdr.
      destruct (Z.of_nat (length E) - 1 <? kv.1) eqn:H1.
      { exists s. split; [done|]. unfold drained_of at 2. cbn.
        rewrite decide_False by lia. cbn. by rewrite app_nil_r. }
      destruct (Nat.eqb (length kv.2) 2) eqn:H2; cbn [negb].
      2:{ exists s. split; [done|]. unfold drained_of at 2. cbn.
          rewrite decide_False by lia. cbn. by rewrite app_nil_r. }
      apply Nat.eqb_eq in H2.
      assert (Hk0 : 0 <= kv.1).
      { destruct kv as [k l]. apply (Hpre k l); [els|]. cbn in H2. by destruct l. }
      destruct (lookup_lt_is_Some_2 E (Z.to_nat kv.1)) as [nb Hnb]; [lia|]. rewrite Hnb.
      assert (Hnbne : nb <> []) by (apply HE; by eapply elem_of_list_lookup_2).
      destruct (lookup_lt_is_Some_2 nb (length nb `div` 2)) as [mid Hmid].
      { destruct nb; [done|]. apply Nat.div_lt; cbn; lia. }
      rewrite Hmid. apply elem_of_list_lookup_2 in Hmid.
      assert (Hd1 : drained_of [kv] = [nb]).
      { unfold drained_of. cbn. rewrite decide_True by lia. by rewrite Hnb. }
      rewrite Hd1. destruct Hinv as [Hf (extra & Hm & Hmn & Hex) [Hrnd Hrem] Hc].
      (* the group is still among the remaining edge points *)
      assert (Hfresh : forall z, z ∈ nb -> z ∉ concat (drained_of pre)).
      { intros z Hz Hin. apply elem_of_concat in Hin as (g & Hzg & Hg).
        unfold drained_of in Hg. apply elem_of_list_omap in Hg as (kv' & Hkv' & Hg).
        destruct (decide (kv'.1 < Z.of_nat (length E) ∧ length kv'.2 = 2%nat)) as [[Hlt Hl2]|]; [|done].
        assert (Hidx : Z.to_nat kv'.1 = Z.to_nat kv.1).
        { eapply NoDup_concat_index; [apply HE|exact Hg|exact Hnb|exact Hzg|exact Hz]. }
        assert (0 <= kv'.1).
        { destruct kv' as [k l]. apply (Hpre k l); [els|]. cbn in Hl2. by destruct l. }
        rewrite map_app in Hnd. apply NoDup_app in Hnd as (_ & Hnd & _).
        apply (Hnd kv'.1); [apply elem_of_list_fmap; eauto|]. cbn.
        apply elem_of_list_singleton. lia. }
      assert (Hnbin : forall z, z ∈ nb -> border_members m p z).
      { intros z Hz. apply HE. apply concat_elem_index. eauto. }
      assert (Hnbnd : NoDup nb).
      { assert (HEd := comp_once _ _ HE). apply elem_of_list_split_length in Hnb as (a & b & -> & _).
        rewrite concat_app in HEd. cbn in HEd. apply NoDup_app in HEd as (_ & _ & HEd).
        by apply NoDup_app in HEd as (? & _). }
      destruct (py_removes_spec nb (es_remaining s)) as (rem & Hrm & Hrmnd & Hrmel); [done| |done|].
      { intros a Ha. apply Hrem. auto. }
      assert (Hfin : forall hs multi' extra',
        multi' = multi ++ extra' -> (multi = [] -> extra' = []) -> extra_ok extra' ->
        (multi = [] -> hs = hp) -> (multi <> [] -> exists z, rim m p z /\ hs = [[z]]) ->
        einv (drained_of pre ++ [nb])
          (ES (es_feats s ++ [Feat KRunoff (pt_xy mid) (elev m p) [] true nb hs]) multi' rem
              (S (es_runoff_nbhds s)))).
      { intros hs multi' extra' Hm' Hmn' Hex' Hhs1 Hhs2. split; cbn.
        - apply Forall2_app; [done|]. constructor; [|constructor]. exists mid. split_and!; done.
        - eauto.
        - split; [done|]. intros z. rewrite Hrmel, Hrem. rewrite concat_app. cbn. rewrite app_nil_r.
          rewrite elem_of_app. tauto.
        - rewrite app_length. cbn. lia. }
      destruct (decide (es_multi s = [])) as [He|He].
      + cbn [rbind]. rewrite Hrm. cbn [rbind]. eexists. split; [done|].
        rewrite Hm in He. apply app_eq_nil in He as [He1 He2].
        apply (Hfin hp (es_multi s) extra); [done|done|done|done|done].
      + assert (Hmne : multi <> []).
        { intros E0. apply He. rewrite Hm, E0, (Hmn E0). done. }
        rewrite Hm. destruct (hp_path_spec mid extra hp) as (z & extra' & -> & Hz & Hex'); [done..|].
        cbn [rbind]. rewrite Hrm. cbn [rbind]. eexists. split; [done|].
        apply (Hfin [[z]] _ (extra ++ extra')); [done| | | |].
        * done.
        * intros q [Hq|Hq]%elem_of_app; [by apply Hex|by apply Hex'].
        * done.
        * eauto.
    Qed.

    Lemma runoff_loop_spec d : forall pre s,
      einv (drained_of pre) s -> NoDup (map fst (pre ++ d)) ->
      (forall k l, (k, l) ∈ pre ++ d -> l <> [] -> 0 <= k) ->
      exists s', foldM (runoff_step fp m (elev m p) E hp) d s = Ok s' /\ einv (drained_of (pre ++ d)) s'.
    Proof.
      induction d as [|kv d IH]; intros pre s Hinv Hnd Hk; cbn [foldM].
      - exists s. rewrite app_nil_r. done.
      - assert (Hsplit : pre ++ kv :: d = (pre ++ [kv]) ++ d) by (by rewrite <-app_assoc).
        destruct (runoff_step_spec pre kv s) as (s1 & -> & Hinv1); [done| | |].
        + rewrite Hsplit, map_app in Hnd. by apply NoDup_app in Hnd as (? & _).
        + intros k l Hin. apply Hk. rewrite Hsplit. apply elem_of_app. by left.
        + cbn [rbind]. destruct (IH (pre ++ [kv]) s1) as (s' & -> & H'); [done| | |].
          * by rewrite <-Hsplit.
          * by rewrite <-Hsplit.
          * exists s'. by rewrite Hsplit.
    Qed.
  End loop.

  Lemma consolidated_spec :
    exists fs, consolidatedFeatureLogic fp orc m cell x y (elev m p) perimeter medge multi edge epts
      = Ok fs /\ area_result m p fs.
  Proof.
    pose proof runoff_loop_spec as Hloop.
    unfold consolidatedFeatureLogic. rewrite high_perimeter_all.
    destruct (components_of (orc cell 0%nat) (rim m p) perimeter) as (hp & -> & Hhp);
      [apply rim_nonneg|apply rim_fun|done|].
    cbn [rbind]. pose proof (components_empty _ _ Hhp) as Hempty.
    assert (Hnoe : edge = false -> epts = [] /\ forall z, ~ border_members m p z).
    { intros ->. assert (forall z, ~ border_members m p z).
      { intros z Hz. assert (false = true) by (apply Hedge; eauto). done. }
      split; [|done]. destruct epts as [|z l]; [done|]. destruct (H z). apply Hepts. by left. }
    destruct (decide (hp = [])) as [->|Hne].
    - (* no higher neighbour *)
      assert (Hnr : forall z, ~ rim m p z) by (by apply Hempty).
      destruct edge eqn:Ee.
      + cbn. eexists. split; [done|]. apply area_summit_border; try done. by apply Hedge.
      + destruct (Hnoe eq_refl) as [-> Hnb]. eexists. split; [done|].
        by apply area_summit_interior.
    - assert (Hmatch : forall (A : Type) (a b : A), match hp with [] => a | _ :: _ => b end = b)
        by (intros; by destruct hp).
      rewrite Hmatch.
      destruct edge eqn:Ee; cbn [andb negb].
      2:{ destruct (Hnoe eq_refl) as [-> Hnb]. rewrite andb_true_r. eexists. split; [done|].
          assert (Hif : (if Nat.ltb 1 (length hp) then [Feat KSaddle (x, y) (elev m p) multi false [] hp] else [])
             = if decide (2 <= length hp)%nat then [Feat KSaddle (x, y) (elev m p) multi false [] hp] else []).
          { destruct (Nat.ltb 1 (length hp)) eqn:Hlt; destruct (decide _); try done; lia. }
          rewrite Hif. by apply area_interior. }
      rewrite andb_false_r. cbn [app].
      unfold edge_feature_analysis. cbn [negb].
      rewrite Hmatch.
      destruct (components_of (orc cell 1%nat) (border_ring m p) medge) as (ring & -> & Hring);
        [apply ring_nonneg|apply ring_fun|done|].
      cbn [rbind].
      destruct (lower_groups_spec (elev m p) ring) as (lower & -> & Hsub & Hlow).
      { apply Hring. } { apply NoDup_groups; apply Hring. }
      cbn [rbind].
      assert (Hsel : selected (all_lower (elev m p)) ring lower).
      { exists lower. split_and!; done. }
      assert (Hbm : exists z, border_members m p z) by (by apply Hedge).
      destruct (Nat.leb (length lower) 1) eqn:Hle.
      { eexists. split; [done|].
        assert (Hif : (if Nat.ltb 1 (length hp) then [Feat KSaddle (x, y) (elev m p) multi true epts hp] else [])
             = if decide (2 <= length hp)%nat then [Feat KSaddle (x, y) (elev m p) multi true epts hp] else []).
        { destruct (Nat.ltb 1 (length hp)) eqn:Hlt; destruct (decide _); try done; lia. }
        rewrite Hif. eapply area_border_plain; try done. lia. }
      destruct (components_of (orc cell 2%nat) (border_members m p) epts) as (E & -> & HE);
        [apply members_nonneg|apply members_fun|done|].
      cbn [rbind].
      assert (HlowS : forall z, z ∈ concat lower -> border_ring m p z).
      { intros z Hz. apply Hring. apply elem_of_concat in Hz as (g & Hz & Hg). apply elem_of_concat.
        exists g. split; [done|by eapply sublist_elem]. }
      destruct (touching_spec m (E ++ lower)) as (d & -> & Hk & Hv & Hd).
      { intros i j g h a b Hi Hj Ha Hb Hab.
        apply lookup_app_Some in Hi as [Hi|[Hi' Hi]], Hj as [Hj|[Hj' Hj]].
        - assert (a = b) as ->.
          { eapply members_fun; [| |done]; apply HE, concat_elem_index; eauto. }
          eapply NoDup_concat_index; [apply HE|..]; done.
        - exfalso. assert (border_members m p a) as (Hfa & _ & _) by (apply HE, concat_elem_index; eauto).
          assert (border_ring m p b) as (_ & _ & Hnb & _) by (apply HlowS, concat_elem_index; eauto).
          rewrite Hab in Hfa. apply same_flat_elev in Hfa. congruence.
        - exfalso. assert (border_members m p b) as (Hfa & _ & _) by (apply HE, concat_elem_index; eauto).
          assert (border_ring m p a) as (_ & _ & Hnb & _) by (apply HlowS, concat_elem_index; eauto).
          rewrite <-Hab in Hfa. apply same_flat_elev in Hfa. congruence.
        - assert (a = b) as ->.
          { eapply ring_fun; [| |done]; apply HlowS, concat_elem_index; eauto. }
          assert ((i - length E)%nat = (j - length E)%nat); [|lia].
          eapply (NoDup_concat_index lower); [|done..].
          eapply NoDup_concat_sublist; [done|apply Hring]. }
      cbn [rbind].
      destruct (Hloop hp E Hhp Hne HE d [] (ES [] multi epts 0%nat))
        as (s & -> & [Hf Hm Hr Hc]).
      { split; cbn.
        - constructor.
        - exists []. split_and!; [by rewrite app_nil_r|done|]. intros z H. by apply elem_of_nil in H.
        - destruct Hepts as [H1 H2]. split; [done|]. intros z. rewrite H2. split; [|tauto].
          intros. split; [done|]. by intros ?%elem_of_nil.
        - done. }
      { done. }
      { intros k l Hkl Hl. destruct l as [|t l]; [done|].
        destruct (proj1 (Hd k t)) as (i & _ & _ & _ & _ & _ & -> & _); [|lia].
        eexists. split; [exact Hkl|by left]. }
      cbn [rbind app] in *.
      assert (Hcount : forall i g, E !! i = Some g ->
        (touches_two lower g <-> exists l, (Z.of_nat i, l) ∈ d /\ length l = 2%nat)).
      { intros i g. apply touching_counts; try done. intros; by eapply components_apart. }
      assert (HdE : forall g, g ∈ drained_of E d <-> exists i l, E !! i = Some g /\
                 (Z.of_nat i, l) ∈ d /\ length l = 2%nat).
      { intros g. unfold drained_of. rewrite elem_of_list_omap. split.
        - intros ([k l] & Hkl & Hg). cbn [fst snd] in Hg.
          destruct (decide _) as [[Hlt Hl2]|]; [|done].
          destruct l as [|t l]; [done|].
          destruct (proj1 (Hd k t)) as (i & _ & _ & _ & _ & _ & -> & _).
          { eexists. split; [exact Hkl|by left]. }
          exists i, (t :: l). rewrite Nat2Z.id in Hg. done.
        - intros (i & l & Hi & Hl & Hl2). exists (Z.of_nat i, l). split; [done|]. cbn [fst snd].
          apply lookup_lt_Some in Hi as Hlt. rewrite decide_True by lia. by rewrite Nat2Z.id. }
      assert (HnE : NoDup E) by (apply NoDup_groups; apply HE).
      assert (Hdnd : NoDup (drained_of E d)).
      { clear -Hk HnE Hd. assert (Hd0 : forall k l, (k, l) ∈ d -> length l = 2%nat -> 0 <= k).
        { intros k l Hkl Hl. destruct l as [|t l]; [done|].
          destruct (proj1 (Hd k t)) as (i & _ & _ & _ & _ & _ & -> & _); [|lia].
          eexists. split; [exact Hkl|by left]. }
        clear Hd. induction d as [|[k l] d IH]; [constructor|].
        apply NoDup_cons in Hk as [Hk1 Hk2].
        assert (IH' : NoDup (drained_of E d)).
        { apply IH; [done|]. intros k' l' H. apply Hd0. by right. }
        unfold drained_of in *. cbn. destruct (decide _) as [[Hlt Hl2]|]; [|done].
        destruct (E !! Z.to_nat k) as [g|] eqn:Hg; [|done].
        constructor; [|done]. intros Hin. apply elem_of_list_omap in Hin as ([k' l'] & Hin & Hg').
        cbn in Hg'. destruct (decide _) as [[Hlt' Hl2']|]; [|done].
        assert (Z.to_nat k = Z.to_nat k').
        { eapply (NoDup_lookup E); [exact HnE|exact Hg|exact Hg']. }
        assert (0 <= k) by (eapply Hd0; [by left|done]).
        assert (0 <= k') by (eapply Hd0; [by right|done]).
        apply Hk1. cbn. apply elem_of_list_fmap. exists (k', l'). split; [cbn; lia|done]. }
      assert (Hseld : selected (touches_two lower) E (drained_of E d)).
      { exists (filter (touches_two lower) E). split_and!.
        - apply NoDup_Permutation; [done|by apply NoDup_filter|].
          intros g. rewrite HdE, elem_of_list_filter. split.
          + intros (i & l & Hi & Hl & Hl2). split; [|by eapply elem_of_list_lookup_2].
            apply (Hcount i g Hi). eauto.
          + intros [Ht Hg]. apply elem_of_list_lookup in Hg as [i Hi].
            destruct (proj1 (Hcount i g Hi) Ht) as (l & Hl & Hl2). by exists i, l.
        - apply sublist_filter_sub.
        - intros g Hg. rewrite elem_of_list_filter. tauto. }
      eexists. split; [done|].
      assert (Hif : (if Nat.leb 2 (length hp) then
           if Nat.eqb (es_runoff_nbhds s) (length E)
           then [Feat KSaddle (x, y) (elev m p) (es_multi s) false [] hp]
           else [Feat KSaddle (x, y) (elev m p) (es_multi s) true (es_remaining s) hp] else []) =
         if decide (2 <= length hp)%nat
         then [if decide (length (drained_of E d) = length E)
               then Feat KSaddle (x, y) (elev m p) (es_multi s) false [] hp
               else Feat KSaddle (x, y) (elev m p) (es_multi s) true (es_remaining s) hp]
         else []).
      { rewrite <-Hc. destruct (Nat.leb 2 (length hp)) eqn:H1; destruct (decide (2 <= _)%nat); try done; try lia.
        destruct (Nat.eqb _ _) eqn:H2; destruct (decide (es_runoff_nbhds s = _)); try done; lia. }
      rewrite Hif. eapply area_border_runoffs with (ring := ring) (lower := lower) (borders := E); try done.
      lia.
  Qed.
End area.
