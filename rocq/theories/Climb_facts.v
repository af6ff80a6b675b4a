(** Consequences for the walk that starts from the discovered summits. *)
From Verif Require Import Climb_model Raster_spec Raster_proof Contig_proof Blob_proof Closest_spec
  Feature_spec Network_spec Scan_proof Feature_facts Climb_spec Climb_proof Example_maps Closest_proof.
From Coq Require Import ZifyBool.
Local Open Scope Z_scope.

Definition in_doms (doms : list (list xy)) (d : nat) (t : xy) : Prop :=
  exists cs, doms !! d = Some cs /\ t ∈ cs.

Lemma registered_inv m doms s : registered doms s -> NoDup (concat doms) ->
  (forall c, c ∈ concat doms -> data_cell m c) -> inv m (in_doms doms) s.
Proof.
  intros [Ht Hl] Hnd Hd. split.
  - intros c d H. apply Ht in H. exists c. split; [done|]. apply uphill_refl, Hd.
    destruct H as (cs & H1 & H2). apply elem_of_concat. exists cs. split; [done|].
    by eapply elem_of_list_lookup_2.
  - rewrite Hl. enough (map snd (concat (imap (fun d cs => map (pair d) cs) doms)) = concat doms) as -> by done.
    clear. assert (H : forall k : nat -> nat,
      map snd (concat (imap (fun d cs => map (pair (k d)) cs) doms)) = concat doms).
    { induction doms as [|cs doms IH]; intros k; cbn; [done|].
      rewrite map_app. f_equal; [|apply (IH (fun d => k (S d)))].
      rewrite map_map. cbn. apply map_id. }
    apply (H (fun d => d)).
  - intros d c Hin. left. rewrite Hl in Hin. apply Ht.
    apply elem_of_concat in Hin as (l & Hin & Hin2). apply elem_of_lookup_imap_1 in Hin2 as (i & cs & -> & Hi).
    apply elem_of_list_fmap in Hin as (c' & [= -> ->] & Hin). eauto.
  - intros d t H _. by apply Ht.
Qed.

(** The cells of the summits. *)
Definition cells_of (su : list feature) : list (list xy) := map own_cells su.

Lemma prepopulate_gen m : north_up m -> forall su doms s k,
  length doms = k -> registered doms s -> NoDup (concat doms ++ concat (cells_of su)) ->
  exists s', foldM (fun (i_f : nat * feature) s =>
    let* cells := summit_cells m i_f.2 in
    Ok (sd_extend i_f.1 cells s)) (imap (fun i f => ((k + i)%nat, f)) su) s = Ok s' /\
    registered (doms ++ cells_of su) s'.
Proof.
  intros Hup su. induction su as [|f su IH]; intros doms s k Hk Hr Hnd; cbn [imap foldM].
  - exists s. split; [done|]. cbn. by rewrite app_nil_r.
  - cbn [fst snd]. assert (summit_cells m f = Ok (own_cells f)) as Hc.
    { unfold summit_cells, own_cells. destruct (ft_multi f); [|done].
      unfold ft_latlon. rewrite latlon_round_trip by apply Hup. cbn. by destruct (ft_pos f). }
    rewrite Hc. cbn [rbind]. replace (k + 0)%nat with k by lia.
    assert (Hr' : registered (doms ++ [own_cells f]) (sd_extend k (own_cells f) s)).
    { destruct Hr as [Ht Hl]. split.
      - intros c d. rewrite extend_table. destruct (decide (c ∈ own_cells f)) as [Hin|Hin].
        + split.
          * intros [= <-]. exists (own_cells f). split; [|done]. by rewrite lookup_app_r, Hk, Nat.sub_diag by lia.
          * intros (cs & Hcs & Hc'). destruct (decide (d < k)%nat).
            -- rewrite lookup_app_l in Hcs by lia. exfalso.
               cbn in Hnd. apply NoDup_app in Hnd as (_ & Hdis & _). apply (Hdis c).
               ++ apply elem_of_concat. exists cs. split; [done|]. by eapply elem_of_list_lookup_2.
               ++ apply elem_of_app. by left.
            -- rewrite lookup_app_r in Hcs by lia.
               destruct (d - length doms)%nat eqn:E; [|by rewrite lookup_nil in Hcs || done].
               f_equal. lia.
        + rewrite Ht. split.
          * intros (cs & Hcs & Hc'). exists cs. split; [by apply lookup_app_l_Some|done].
          * intros (cs & Hcs & Hc'). apply lookup_app_Some in Hcs as [Hcs|[Hle Hcs]]; [eauto|].
            destruct (d - length doms)%nat; [|done]. injection Hcs as <-. done.
      - rewrite extend_log, Hl, imap_app, concat_app. f_equal. cbn. rewrite app_nil_r.
        replace (length doms + 0)%nat with k by lia. done. }
    destruct (IH (doms ++ [own_cells f]) (sd_extend k (own_cells f) s) (S k)) as (s' & Hs' & Hr2).
    + rewrite app_length. cbn. lia.
    + done.
    + rewrite concat_app. cbn in *. by rewrite app_nil_r, <-app_assoc.
    + exists s'. split.
      * rewrite <-Hs'. f_equal. apply imap_ext. intros i x _. cbn. f_equal. lia.
      * by rewrite <-app_assoc in Hr2.
Qed.

Lemma prepopulate_ok m su : north_up m -> NoDup (concat (cells_of su)) ->
  exists s, prepopulate m su = Ok s /\ registered (cells_of su) s.
Proof.
  intros Hup Hnd. destruct (prepopulate_gen m Hup su [] (CS ∅ []) 0) as (s & Hs & Hr); [done| |done|].
  - split; [|done]. intros c d. cbn. split; [done|]. intros (cs & H & _). by rewrite lookup_nil in H.
  - by exists s.
Qed.

Lemma own_cells_covers m p f c : exact_for m p f -> c ∈ own_cells f <-> covers f c.
Proof.
  intros He. unfold own_cells, covers. destruct (ft_multi f) as [|z l] eqn:E.
  - rewrite elem_of_list_singleton. split; [intros ->; by left|]. intros [[_ ->]|H]; [done|].
    by apply elem_of_nil in H.
  - rewrite <-E. split.
    + intros Hc. right. apply elem_of_list_fmap in Hc as ([c' o] & -> & Hc).
      pose proof (ex_plain _ _ _ He _ Hc) as Hp. cbn in *. by subst.
    + intros [[H _]|H]; [by rewrite E in H|]. apply elem_of_list_fmap. by exists (c, None).
Qed.

(** The summits found by discovery: disjoint lists of data cells, and every
    peak is in one of them. *)
Lemma summits_cells fp orc m su sa ru : map_ok m -> paths_found fp m ->
  analyze fp orc m = Ok (su, sa, ru) ->
  NoDup (concat (cells_of su)) /\
  (forall d f t, su !! d = Some f -> t ∈ own_cells f <-> covers f t) /\
  (forall d f t, su !! d = Some f -> covers f t -> peak m t) /\
  (forall c, c ∈ concat (cells_of su) <-> peak m c).
Proof.
  intros Hok Hp Ha. destruct (summits_exact fp orc m Hok Hp) as (su' & sa' & ru' & Ha' & H1 & H2).
  rewrite Ha in Ha'. injection Ha' as <- <- <-.
  assert (Hcov : forall d f t, su !! d = Some f -> t ∈ own_cells f <-> covers f t).
  { intros d f t Hd. destruct (H1 f) as (p & _ & He); [by eapply elem_of_list_lookup_2|].
    by eapply own_cells_covers. }
  assert (Hpk : forall d f t, su !! d = Some f -> covers f t -> peak m t).
  { intros d f t Hd Hc. destruct (H1 f) as (p & Hpp & He); [by eapply elem_of_list_lookup_2|].
    eapply same_flat_peak; [|done]. by apply (sf_cells _ _ _ (ex_stands _ _ _ He)). }
  assert (Hmem : forall c, c ∈ concat (cells_of su) <-> exists d f, su !! d = Some f /\ c ∈ own_cells f).
  { intros c. rewrite elem_of_concat. split.
    - intros (l & Hc & Hl). apply elem_of_list_fmap in Hl as (f & -> & Hf).
      apply elem_of_list_lookup in Hf as [d Hd]. eauto.
    - intros (d & f & Hd & Hc). exists (own_cells f). split; [done|]. apply elem_of_list_fmap.
      exists f. split; [done|]. by eapply elem_of_list_lookup_2. }
  split_and!; [|done|done|].
  - (* disjoint *)
    assert (Huniq : forall c i j f g, su !! i = Some f -> su !! j = Some g ->
      c ∈ own_cells f -> c ∈ own_cells g -> i = j).
    { intros c i j f g Hi Hj Hf Hg. rewrite Hcov in Hf by done. rewrite Hcov in Hg by done.
      destruct (H2 c (Hpk _ _ _ Hi Hf)) as (k & a & _ & _ & Hu).
      rewrite (Hu _ _ Hi Hf). symmetry. by apply (Hu _ _ Hj Hg). }
    assert (Hself : forall f, f ∈ su -> NoDup (own_cells f)).
    { intros f Hf. destruct (H1 f Hf) as (p & _ & He). unfold own_cells.
      destruct (ft_multi f) as [|z l] eqn:E; [apply NoDup_singleton|]. rewrite <-E.
      apply NoDup_fmap_2_strong; [|apply (ex_once _ _ _ He)].
      intros [a1 o1] [a2 o2] Hin1 Hin2 Heq. pose proof (ex_plain _ _ _ He _ Hin1).
      pose proof (ex_plain _ _ _ He _ Hin2). cbn in *. by subst. }
    clear -Huniq Hself. unfold cells_of. induction su as [|f su IH]; cbn; [constructor|].
    apply NoDup_app. split_and!.
    + apply Hself. by left.
    + intros c Hc Hc2. apply elem_of_concat in Hc2 as (l & Hcl & Hl).
      apply elem_of_list_fmap in Hl as (g & -> & Hg). apply elem_of_list_lookup in Hg as [j Hj].
      by specialize (Huniq c 0%nat (S j) f g eq_refl Hj Hc Hcl).
    + apply IH.
      * intros c i j g h Hi Hj Hg Hh. specialize (Huniq c (S i) (S j) g h Hi Hj Hg Hh). lia.
      * intros g Hg. apply Hself. by right.
  - intros c. rewrite Hmem. split.
    + intros (d & f & Hd & Hc). apply (Hpk d f); [done|]. by apply Hcov with (d := d).
    + intros Hpc. destruct (H2 c Hpc) as (k & f & Hk & Hc & _). exists k, f. split; [done|].
      by apply Hcov with (d := k).
Qed.

Section claims.
  Variables (near : searches) (m : datamap).
  Hypotheses (Hnear : sound_searches near m) (Hok : map_ok m) (Hup : north_up m)
    (Hlow : climbable m) (Hreach : pixels_in_reach m).

  Lemma climb_any doms s0 s p : registered doms s0 -> NoDup (concat doms) ->
    (forall c, c ∈ concat doms -> data_cell m c) -> walked near m s0 s -> data_cell m p ->
    climb near m (p, elev m p) s <> Err OutOfFuel /\
    forall d s', climb near m (p, elev m p) s = Ok (Some d, s') ->
      exists cs t, doms !! d = Some cs /\ t ∈ cs /\ uphill m p t.
  Proof.
    intros Hr Hnd Hd Hw Hp. pose proof (registered_inv m doms s0 Hr Hnd Hd) as Hi.
    destruct (walked_inv near m Hnear Hok Hup Hlow Hreach _ _ _ Hi Hw) as [Hi' _].
    pose proof (climb_spec near m Hnear Hok Hup Hlow Hreach _ p s Hi' Hp) as H.
    destruct (climb near m (p, elev m p) s) as [[r s']|e].
    - split; [done|]. intros d s'' [= -> <-]. destruct H as (I2 & _ & R2).
      destruct (i_sound _ _ _ I2 _ _ R2) as (t & (cs & H1 & H2) & Hu). eauto.
    - split; [intros [= ->]; by destruct H|done].
  Qed.

  Lemma climb_domains doms s0 s : registered doms s0 -> NoDup (concat doms) ->
    (forall c, c ∈ concat doms -> data_cell m c) -> walked near m s0 s ->
    NoDup (map snd (cs_log s)) /\
    (forall d c, c ∈ domain_points s d -> cs_table s !! c = Some d \/
       exists d' c' q, cs_table s !! c = Some d' /\ same_flat m c c' /\ c' <> c /\ higher_rim m c q) /\
    (forall d c, in_doms doms d c -> peak m c -> cs_table s !! c = Some d) /\
    (forall d c, cs_table s !! c = Some d -> exists t, in_doms doms d t /\ uphill m c t).
  Proof.
    intros Hr Hnd Hd Hw. pose proof (registered_inv m doms s0 Hr Hnd Hd) as Hi.
    destruct (walked_inv near m Hnear Hok Hup Hlow Hreach _ _ _ Hi Hw) as [Hi' _].
    split_and!.
    - apply Hi'.
    - intros d c Hc. unfold domain_points in Hc. apply elem_of_list_fmap in Hc as ([d' c'] & -> & Hc).
      apply elem_of_list_filter in Hc as [E Hc]. cbn in *. subst d'.
      destruct (i_listed _ _ _ Hi' _ _ Hc) as [H|[[d2 H2] [(c2 & H3 & H4) (q & H5)]]]; [by left|].
      right. by exists d2, c2, q.
    - apply Hi'.
    - intros d c H. by apply (i_sound _ _ _ Hi').
  Qed.

  Lemma climb_summit fp orc su sa ru s0 s p : paths_found fp m ->
    analyze fp orc m = Ok (su, sa, ru) -> prepopulate m su = Ok s0 -> walked near m s0 s ->
    data_cell m p ->
    exists d f t s', climb near m (p, elev m p) s = Ok (Some d, s') /\
      cs_table s' !! p = Some d /\ su !! d = Some f /\ covers f t /\ uphill m p t.
  Proof.
    intros Hp Ha Hpre Hw Hd.
    destruct (summits_cells fp orc m su sa ru Hok Hp Ha) as (Hnd & Hcov & Hpk & Hall).
    destruct (prepopulate_ok m su Hup Hnd) as (s1 & Hs1 & Hr).
    assert (s1 = s0) as -> by congruence.
    assert (Hdat : forall c, c ∈ concat (cells_of su) -> data_cell m c).
    { intros c Hc. by apply Hall in Hc as [? _]. }
    pose proof (registered_inv m _ s0 Hr Hnd Hdat) as Hi.
    destruct (walked_inv near m Hnear Hok Hup Hlow Hreach _ _ _ Hi Hw) as [Hi' Hc'].
    assert (Hcm : complete m s0).
    { intros c Hc. apply Hall in Hc. apply elem_of_concat in Hc as (l & Hc & Hl).
      apply elem_of_list_lookup in Hl as [d Hl]. exists d. apply (rg_table _ _ Hr). eauto. }
    specialize (Hc' Hcm).
    pose proof (climb_spec near m Hnear Hok Hup Hlow Hreach _ p s Hi' Hd) as H.
    destruct (climb near m (p, elev m p) s) as [[r s']|e]; [|by destruct H].
    destruct H as (I2 & _ & R2). destruct r as [d|]; [|done].
    destruct (i_sound _ _ _ I2 _ _ R2) as (t & (cs & H1 & H2) & Hu).
    unfold cells_of in H1. rewrite list_lookup_fmap in H1.
    destruct (su !! d) as [f|] eqn:Ed; [|done]. cbn in H1. injection H1 as <-.
    exists d, f, t, s'. split_and!; try done. by apply (Hcov d).
  Qed.

  (** Climbing from several cells collects the domains of all of them. *)
  Lemma climb_many fp orc su sa ru s0 ps : paths_found fp m ->
    analyze fp orc m = Ok (su, sa, ru) -> prepopulate m su = Ok s0 ->
    (forall p, p ∈ ps -> data_cell m p.1 /\ p.2 = elev m p.1) ->
    forall s, walked near m s0 s ->
    exists ds s', climb_points near m ps s = Ok (ds, s') /\ walked near m s0 s' /\ NoDup ds /\
      (forall p, p ∈ ps -> exists d f t, d ∈ ds /\ su !! d = Some f /\ covers f t /\ uphill m p.1 t) /\
      (forall d, d ∈ ds -> exists p f t, p ∈ ps /\ su !! d = Some f /\ covers f t /\ uphill m p.1 t).
  Proof.
    intros Hp Ha Hpre Hd s Hw. unfold climb_points.
    enough (forall ps0 acc s, (forall p, p ∈ ps0 -> p ∈ ps) -> walked near m s0 s -> NoDup acc ->
      (forall d, d ∈ acc -> exists p f t, p ∈ ps /\ su !! d = Some f /\ covers f t /\ uphill m p.1 t) ->
      exists ds s', foldM (fun p (ds : list nat * climb_state) =>
        let* r := climb near m p ds.2 in
        Ok (match r.1 with Some d => set_add d ds.1 | None => ds.1 end, r.2)) ps0 (acc, s) = Ok (ds, s') /\
        walked near m s0 s' /\ NoDup ds /\ (forall d, d ∈ acc -> d ∈ ds) /\
        (forall p, p ∈ ps0 -> exists d f t, d ∈ ds /\ su !! d = Some f /\ covers f t /\ uphill m p.1 t) /\
        (forall d, d ∈ ds -> exists p f t, p ∈ ps /\ su !! d = Some f /\ covers f t /\ uphill m p.1 t)) as HE.
    { destruct (HE ps [] s) as (ds & s' & H1 & H2 & H3 & _ & H4 & H5); [done|done|constructor|by intros d ?%elem_of_nil|].
      exists ds, s'. done. }
    clear s Hw. induction ps0 as [|p ps0 IH]; intros acc s Hsub Hw Hnd Hacc.
    - exists acc, s. split_and!; try done. by intros p ?%elem_of_nil.
    - assert (p ∈ ps) as Hps by (apply Hsub; by left). destruct (Hd p Hps) as [Hdp He].
      destruct (climb_summit fp orc su sa ru s0 s p.1 Hp Ha Hpre Hw Hdp) as (d & f & t & s' & Hc & Ht & Hf & Hcov & Hup').
      rewrite <-He in Hc. rewrite <-surjective_pairing in Hc. cbn [foldM fst snd]. rewrite Hc. cbn [rbind fst snd].
      destruct (IH (set_add d acc) s') as (ds & s2 & H1 & H2 & H3 & H4 & H5 & H6).
      + intros q Hq. apply Hsub. by right.
      + eapply walked_climb; [exact Hw|exact Hdp|]. rewrite <-He, <-surjective_pairing. exact Hc.
      + unfold set_add. destruct (decide _) as [Hin|Hin]; [done|]. apply NoDup_app. split; [done|]. split; [|apply NoDup_singleton].
        intros x Hx ->%elem_of_list_singleton. done.
      + intros d' Hd'. unfold set_add in Hd'. destruct (decide _) as [Hin|Hin]; [by apply Hacc|].
        apply elem_of_app in Hd' as [Hd'|Hd']; [by apply Hacc|]. apply elem_of_list_singleton in Hd' as ->. by exists p, f, t.
      + assert (forall x, x = d \/ x ∈ acc -> x ∈ set_add d acc) as Hset.
        { intros x Hx. unfold set_add. destruct (decide _) as [Hin|Hin]; [by destruct Hx as [->|?]|].
          apply elem_of_app. destruct Hx as [->|?]; [right; by left|by left]. }
        exists ds, s2. split_and!; try done.
        * intros x Hx. apply H4, Hset. by right.
        * intros q [->|Hq]%elem_of_cons; [|by apply H5]. exists d, f, t. split_and!; try done. apply H4, Hset. by left.
  Qed.
End claims.

(** A raster where a cell ends up recorded under another domain than the one
    that lists it. *)
Definition shelf_map : datamap :=
  row_map [[1; 1; 1; 1; 1; 1];
           [1; 1; 5; 1; 1; 1];
           [1; 1; 5; 1; 1; 1];
           [1; 1; 5; 1; 1; 1];
           [1; 1; 5; 6; 20; 1];
           [1; 99; 1; 1; 1; 1];
           [1; 1; 1; 1; 1; 1]] (Some (-99)) unit_gt.

Definition orc_id (p : xy) (k i : nat) : nat := i.
Definition fp_unit0 (m : datamap) (pts : list xy) (a b : xy) : option Q :=
  Some (if decide (a = b) then 0 else 1)%Q.
(** Registers the discovered summits and climbs from the given cells. *)
Definition climb_all (m : datamap) (cs : list xy) : res (list (option nat) * climb_state) :=
  let* (su, _, _) := analyze fp_unit0 orc_id m in
  let* s := prepopulate m su in
  foldM (fun c (a : list (option nat) * climb_state) =>
    let* r := climb search0 m (c, elev m c) a.2 in Ok (a.1 ++ [r.1], r.2)) cs ([], s).

Lemma pixels_in_reach_check m :
  dm_max_x m < 2 ^ 62 -> dm_max_y m < 2 ^ 62 -> pixels_in_reach m.
Proof.
  intros Hx Hy p q [Hp1 Hp2] [Hq1 Hq2]. unfold pixel2, maxsize2. rewrite <-Zlt_Qlt.
  set (a := p.1 - q.1). set (b := p.2 - q.2).
  assert (- 2 ^ 62 < a < 2 ^ 62) by (unfold a; lia). assert (- 2 ^ 62 < b < 2 ^ 62) by (unfold b; lia).
  clearbody a b. assert (a * a < 2 ^ 62 * 2 ^ 62) by nia. assert (b * b < 2 ^ 62 * 2 ^ 62) by nia.
  change (2 ^ 62) with 4611686018427387904 in *. lia.
Qed.

Lemma climbable_check m : north_up m -> slopes_exact m ->
  forallb (fun c => bool_decide (dm_nodata m = Some (elev m c)) ||
    match dm_nodata m with Some v => v <? elev m c | None => true end) (all_cells m) = true ->
  climbable m.
Proof.
  intros Hup Hs H. split; [|by apply exact_ok]. intros v c Hv [Hc Hn]. rewrite forallb_forall in H.
  specialize (H c ltac:(by apply elem_of_list_In, elem_of_all_cells)). rewrite Hv in *.
  apply orb_true_iff in H as [H|H]; [by apply bool_decide_eq_true in H|lia].
Qed.
