(** The features found by discovery can be walked. *)
From Verif Require Import Tree_spec Walk_model Raster_spec Raster_proof Raster_facts Contig_proof Blob_proof
  Closest_spec Closest_proof Feature_spec Scan_proof Feature_facts Nodata_proof Network_spec Rebuild_proof Climb_spec
  Climb_proof Climb_facts Graph_spec Graph_proof Walk_spec Walk_proof Synth_proof Links_proof Steps_proof One_proof
  Walk_facts.
From Coq Require Import ZifyBool.
Local Open Scope Z_scope.

Section found.
  Variable m : datamap.

  (** Any two rim points are linked through the flat area. *)
  Lemma flat_path p multi (nodes : list mpoint) a b : area_cells m p multi -> multi <> [] -> (forall z, z ∈ multi -> z ∈ nodes) ->
    rim m p a -> rim m p b -> (pt_xy a, Some (pt_e a)) ∈ nodes -> (pt_xy b, Some (pt_e b)) ∈ nodes ->
    linked (fun a b : mpoint => adj8 a.1 b.1) (fun z => z ∈ nodes) (pt_xy a, Some (pt_e a)) (pt_xy b, Some (pt_e b)).
  Proof.
    intros [[-> _]|[[_ Hm] _]] Hne Hsub; [done|].
    assert (Hin : forall c, same_flat m p c -> (c, None) ∈ nodes) by (intros c Hc; apply Hsub; by apply Hm).
    assert (Hl : forall c, same_flat m p c ->
      linked (fun a b : mpoint => adj8 a.1 b.1) (fun z => z ∈ nodes) (p, None) (c, None)).
    { intros c Hc. assert (Hp : same_flat m p p) by (apply same_flat_refl; by eapply same_flat_data_l).
      induction Hc as [Hp'|b' c Hb IH Hc [Ha He]]; [constructor; by apply Hin|].
      eapply Raster_spec.linked_step; [exact IH| |exact Ha]. apply Hin. eapply Raster_spec.linked_step; [exact Hb|done|done]. }
    assert (Hr : forall z, rim m p z -> (pt_xy z, Some (pt_e z)) ∈ nodes ->
      linked (fun a b : mpoint => adj8 a.1 b.1) (fun z => z ∈ nodes) (p, None) (pt_xy z, Some (pt_e z))).
    { intros z [(Hd & _ & c & Hc & Hadj) _] Hz. eapply Raster_spec.linked_step; [by apply Hl|done|done]. }
    intros Ha Hb Hna Hnb. eapply linked_trans; [|by apply Hr]. apply linked_sym; [|by apply Hr].
    intros x y [Hxy Hd]. split; [congruence|lia].
  Qed.

  Lemma rim_walk p z : rim m p z -> data_cell m (pt_xy z) /\ pt_e z = elev m (pt_xy z) /\ elev m p < pt_e z.
  Proof. intros [(H1 & H2 & _) H3]. split_and!; [done|done|lia]. Qed.

  Lemma walkable_rim p k pos multi multi' b ep hp : area_cells m p multi -> components (rim m p) hp -> hp <> [] ->
    (exists extra, multi' = multi ++ extra /\ (multi = [] -> extra = [])) -> (forall z, z ∈ multi' -> in_map m z.1) ->
    walkable m (Feat k pos (elev m p) multi' b ep hp).
  Proof.
    intros Hcells Hc Hne (extra & -> & Hex) Hmap.
    assert (Hin : forall g z, g ∈ hp -> z ∈ g -> rim m p z).
    { intros g z Hg Hz. apply (comp_all _ _ Hc). apply elem_of_concat. eauto. }
    split; cbn.
    - apply Hc.
    - intros g z Hg Hz. by eapply rim_walk, Hin.
    - unfold plain_head. cbn. destruct multi as [|z multi]; [by rewrite Hex|]. cbn.
      eapply area_cells_plain; [exact Hcells|]. by left.
    - intros g0 g1 x y -> Hm Hx Hy. apply (flat_path p multi).
      + done.
      + intros ->. by rewrite Hex in Hm.
      + intros z Hz. rewrite !elem_of_app. auto.
      + apply (Hin g0); [by left|done].
      + apply (Hin g1); [by right; left|done].
      + apply elem_of_app. right. apply elem_of_list_fmap. exists x. split; [done|]. apply elem_of_concat. exists g0. split; [done|by left].
      + apply elem_of_app. right. apply elem_of_list_fmap. exists y. split; [done|]. apply elem_of_concat. exists g1. split; [done|by right; left].
    - done.
    - done.
  Qed.

  Lemma area_walkable p fs f : area_result m p fs -> f ∈ fs -> ft_kind f <> KSummit -> walkable m f.
  Proof.
    intros H Hf Hk. pose proof (area_in_map m p fs f H Hf) as Hmap. destruct H as
      [pos multi Hpos Hcells Hr Hb
      |pos multi epts Hpos Hcells Hr Hb He
      |pos multi hp Hpos Hcells Hc Hhp Hb
      |pos multi epts hp ring lower Hpos Hcells Hc Hhp Hb He Hring Hlow Hlen
      |pos multi hp ring lower borders drained runoffs multi' rest Hpos Hcells Hc Hhp Hb Hring
         Hlow Hlen Hborders Hdr Hrun Hmulti Hrest].
    - apply elem_of_list_singleton in Hf as ->. done.
    - apply elem_of_cons in Hf as [->|Hf]; [done|]. apply elem_of_list_singleton in Hf as ->. split; cbn.
      + intros; noelem.
      + intros; noelem.
      + unfold plain_head. cbn. destruct multi as [|z multi]; [done|].
        eapply area_cells_plain; [exact Hcells|]. by left.
      + done.
      + exact Hmap.
      + intros _ _. by apply same_flat_elev.
    - destruct (decide _); [|noelem]. apply elem_of_list_singleton in Hf as ->.
      eapply walkable_rim; eauto. exists []. by rewrite app_nil_r.
    - destruct (decide _); [|noelem]. apply elem_of_list_singleton in Hf as ->.
      eapply walkable_rim; eauto. exists []. by rewrite app_nil_r.
    - apply elem_of_app in Hf as [Hf|Hf].
      + apply elem_of_list_lookup in Hf as [i Hi].
        destruct (Forall2_lookup_r _ _ _ _ _ Hrun Hi) as (g & Hg & mid & Hmid & Hkf & Hp & Hele & Hm & _ & _ & H1 & H2).
        destruct multi as [|z0 multi].
        * assert (Hw : walkable m (Feat (ft_kind f) (ft_pos f) (elev m p) (ft_multi f) (ft_edge f) (ft_edgepts f) (ft_hpn f))).
          { rewrite (H1 eq_refl). apply (walkable_rim p _ _ [] _ _ _ hp); [done|done|done| |exact Hmap]. exists []. by rewrite Hm. }
          rewrite <-Hele in Hw. by destruct f.
        * destruct H2 as (z & Hz & Hh); [done|]. split.
          -- rewrite Hh. by intros x ->%elem_of_list_singleton.
          -- rewrite Hh, Hele. intros x y ->%elem_of_list_singleton ->%elem_of_list_singleton. by apply rim_walk.
          -- unfold plain_head. by rewrite Hm.
          -- congruence.
          -- exact Hmap.
          -- by rewrite Hh.
      + destruct (decide _); [|noelem]. destruct Hmulti as (extra & -> & Hex & _).
        destruct (decide _); apply elem_of_list_singleton in Hf as ->; eapply walkable_rim; eauto.
  Qed.

  Lemma corner_walkable c : walkable m (Feat KRunoff c (elev m c) [] true [(c, elev m c)] []).
  Proof. split; cbn; try (intros; noelem); done. Qed.

  Variables (fp : datamap -> list xy -> xy -> xy -> option Q) (orc : xy -> nat -> nat -> nat).
  Hypotheses (Hok : map_ok m) (Hfp : paths_found fp m).

  Lemma found_walkable su sa ru f : analyze fp orc m = Ok (su, sa, ru) -> f ∈ sa ++ ru -> walkable m f.
  Proof.
    destruct (analyze_all_spec fp orc m Hok Hfp) as (areas & Ha & Hr & _ & _).
    unfold analyze. rewrite Ha. cbn [rbind]. intros [= <- <- <-] Hf.
    assert (Hf' : ft_kind f <> KSummit /\ f ∈ concat (map snd areas)).
    { apply elem_of_app in Hf as [Hf|Hf]; apply elem_of_list_filter in Hf as [-> Hf]; done. }
    destruct Hf' as [Hk (fs & Hfs & Hin)%elem_of_concat].
    apply elem_of_list_fmap in Hin as ([p fs'] & -> & Hin). eapply area_walkable; [by apply Hr|done|done].
  Qed.

  (** The map made by discovery is fit for a walk that registers all peaks. *)
  Lemma start_input su sa ru : run_no_rebuild fp orc m = Ok (su, sa, ru) ->
    let d := dm_start su sa ru in
    walk_input m (mp_world d) (mp_summits d) (mp_saddles d ++ mp_runoffs d) /\
    all_peaks m (mp_world d) (mp_summits d) /\
    (forall d' t, summit_cell (mp_world d) (mp_summits d) d' t <-> exists f, su !! d' = Some f /\ covers f t).
  Proof.
    intros Hrun. destruct (run_corners fp orc m Hok Hfp) as (su' & sa' & ru0 & Ha & Hr).
    assert (Hcw : forall f, f ∈ map (fun c : xy => Feat KRunoff c (elev m c) [] true [(c, elev m c)] [])
      [(dm_max_x m, 0); (dm_max_x m, dm_max_y m); (0, 0); (0, dm_max_y m)] -> walkable m f).
    { intros f Hf. apply elem_of_list_fmap in Hf as (c & -> & _). apply corner_walkable. }
    revert Hr Hcw. generalize (map (fun c : xy => Feat KRunoff c (elev m c) [] true [(c, elev m c)] [])
      [(dm_max_x m, 0); (dm_max_x m, dm_max_y m); (0, 0); (0, dm_max_y m)]). intros corners Hr Hcw.
    rewrite Hrun in Hr. injection Hr as <- <- ->. cbn [dm_start mp_world mp_summits mp_saddles mp_runoffs].
    destruct (summits_cells fp orc m su sa ru0 Hok Hfp Ha) as (N1 & N2 & N3 & N4).
    assert (Hw : forall f, f ∈ sa ++ (ru0 ++ corners) -> walkable m f).
    { intros f Hf. rewrite app_assoc in Hf. apply elem_of_app in Hf as [Hf|Hf]; [by eapply found_walkable|].
      by apply Hcw. }
    assert (Hcell : forall d t, summit_cell (World (map new_saddle (sa ++ (ru0 ++ corners))) (map new_summit su) [])
      (seq 0 (length su)) d t <-> exists f, su !! d = Some f /\ t ∈ own_cells f).
    { intros d t. split.
      - intros (_ & x & Hx & _ & Ht). cbn in Hx. apply list_lookup_fmap_Some in Hx as (f & Hxf & ->). eauto.
      - intros (f & Hf & Ht). split; [apply elem_of_seq; apply lookup_lt_Some in Hf; lia|].
        exists (new_summit f). split; [|done]. cbn. rewrite list_lookup_fmap, Hf. done. }
    split_and!.
    - split.
      + apply NoDup_seq.
      + intros i Hi. cbn. apply elem_of_seq in Hi. apply lookup_lt_is_Some. rewrite map_length. lia.
      + intros d t (f & Hf & Ht)%Hcell. apply (N3 d f t); [done|]. by apply (N2 d).
      + intros d e t (f & Hf & Ht)%Hcell (g & Hg & Hu)%Hcell. clear -N1 Hf Ht Hg Hu.
        destruct (decide (d = e)); [done|]. exfalso. revert d e f g n Hf Ht Hg Hu. unfold cells_of in N1.
        induction su as [|a su IH]; [done|]. cbn in N1. apply NoDup_app in N1 as (_ & Hdis & N1).
        intros [|d] [|e] f g Hne Hf Ht Hg Hu; try done; cbn in Hf, Hg.
        * injection Hf as ->. apply (Hdis t Ht). apply elem_of_concat. exists (own_cells g). split; [done|].
          apply elem_of_list_fmap. exists g. split; [done|]. by eapply elem_of_list_lookup_2.
        * injection Hg as ->. apply (Hdis t Hu). apply elem_of_concat. exists (own_cells f). split; [done|].
          apply elem_of_list_fmap. exists f. split; [done|]. by eapply elem_of_list_lookup_2.
        * eapply (IH N1 d e); [congruence|done..].
      + intros i x Hi Hx _. cbn in Hx. apply list_lookup_fmap_Some in Hx as (f & Hf & ->). cbn. clear -N1 Hf.
        unfold cells_of in N1. revert i Hf. induction su as [|a su IH]; [done|]. cbn in N1.
        apply NoDup_app in N1 as (H1 & _ & N1). intros [|i] Hf; [by injection Hf as ->|by apply (IH N1 i)].
      + intros d t x (f & Hf & Ht)%Hcell Hx. cbn in Hx. apply list_lookup_fmap_Some in Hx as (f' & Hf' & ->).
        assert (f' = f) as -> by congruence. cbn.
        destruct (summits_exact fp orc m Hok Hfp) as (su' & sa' & ru' & Ha' & H1 & _).
        rewrite Ha in Ha'. injection Ha' as <- <- <-. destruct (H1 f) as (p & _ & [He _ _ _ _]); [by eapply elem_of_list_lookup_2|].
        rewrite (sf_ele _ _ _ He). apply same_flat_elev. apply (sf_cells _ _ _ He). by apply (N2 d).
      + apply NoDup_app. split_and!; [apply NoDup_seq| |apply NoDup_seq].
        intros x H1 H2. apply elem_of_seq in H1, H2. lia.
      + intros i Hi. assert (Hlt : (i < length (sa ++ (ru0 ++ corners)))%nat).
        { rewrite app_length. apply elem_of_app in Hi as [Hi|Hi]; apply elem_of_seq in Hi; lia. }
        cbn. apply lookup_lt_is_Some. by rewrite map_length.
      + intros f Hin. unfold feats_of in Hin. cbn in Hin. rewrite map_map in Hin. cbn in Hin. rewrite map_id in Hin. by apply Hw.
      + intros i o k Ho Hk. cbn in Ho. apply list_lookup_fmap_Some in Ho as (f & Hf & ->). cbn in Hk. noelem.
      + intros i o k Ho Hk. cbn in Ho. apply list_lookup_fmap_Some in Ho as (f & Hf & ->). cbn in Hk. noelem.
    - intros t Ht. apply N4 in Ht. apply elem_of_concat in Ht as (l & Ht & Hl).
      apply elem_of_list_fmap in Hl as (f & -> & Hf). apply elem_of_list_lookup in Hf as [d Hd].
      exists d. apply Hcell. eauto.
    - intros d t. rewrite Hcell. split; intros (f & Hf & Ht); exists f; (split; [done|]); by apply (N2 d).
  Qed.
End found.
