(** A tile shows the features of the large raster that lie inside it. *)
From Verif Require Import Base_model Raster_model Analyze_model Tile_spec Anchor_spec Blob_proof Contig_proof
  Scan_proof Analyze_proof Feature_spec Feature_facts Anchor_proof Raster_spec.
Local Open Scope Z_scope.

Section tile.
  Context (o : xy) (m t : datamap) (HT : tile o m t).

  Lemma shift_to_back q : shift o (shift_back o q) = q.
  Proof. destruct q. unfold shift, shift_back. cbn. f_equal; lia. Qed.
  Lemma shift_back_to q : shift_back o (shift o q) = q.
  Proof. destruct q. unfold shift, shift_back. cbn. f_equal; lia. Qed.
  Lemma shift_adj a b : adj8 (shift o a) (shift o b) <-> adj8 a b.
  Proof. unfold adj8, shift. destruct a, b; cbn. split; intros H; repeat split; try lia;
    destruct H as (H1 & H); intros E; injection E; intros; apply H1; f_equal; lia. Qed.
  Lemma shift_inj a b : shift o a = shift o b -> a = b.
  Proof. intros H. rewrite <-(shift_back_to a), H. apply shift_back_to. Qed.

  Lemma tile_up q : data_cell t q -> data_cell m (shift o q).
  Proof. intros H. apply (tile_data _ _ _ HT); [apply H|done]. Qed.
  Lemma tile_flat_up p q : same_flat t p q -> same_flat m (shift o p) (shift o q).
  Proof.
    induction 1 as [H|b c Hl IH Hc [Ha He]]; [by apply linked_here, tile_up|].
    eapply linked_step; [exact IH|by apply tile_up|]. split; [by apply shift_adj|].
    rewrite <-!(tile_elev _ _ _ HT); [done|done|]. by apply (same_flat_data_r t p).
  Qed.
  Lemma tile_higher_up p q : higher_rim t p q -> higher_rim m (shift o p) (shift o q).
  Proof.
    intros (Hd & He & c & Hc & Ha). split; [by apply tile_up|].
    rewrite <-!(tile_elev _ _ _ HT); [|done|by apply (same_flat_data_l t p c)].
    split; [done|]. exists (shift o c). split; [by apply tile_flat_up|by apply shift_adj].
  Qed.

  (** Next to an inner cell the tile shows everything. *)
  Lemma inner_next b c : inner_cell t b -> adj8 (shift o b) c -> data_cell m c ->
    data_cell t (shift_back o c).
  Proof.
    intros Hb Ha Hc. apply (tile_data _ _ _ HT); [|by rewrite shift_to_back].
    rewrite <-(shift_to_back c), shift_adj in Ha.
    destruct (shift_back o c) as [x y], b as [u v]. unfold inner_cell, adj8, in_map in *. cbn in *. lia.
  Qed.
  Lemma inner_not_edge c : data_cell t c -> ~ on_border t c <-> inner_cell t c.
  Proof.
    intros [[Hx Hy] _]. unfold on_border, inner_cell, in_map. split; [|lia].
    intros H. assert (c.1 <> 0 /\ c.2 <> 0 /\ c.1 <> dm_max_x t /\ c.2 <> dm_max_y t); [|lia].
    split_and!; intros E; apply H; lia.
  Qed.

  Section area.
    Context (p : xy) (Hp : data_cell t p).
    Context (Hin : forall c, same_flat t p c -> inner_cell t c).

    Lemma tile_flat_down q : same_flat m (shift o p) q -> same_flat t p (shift_back o q).
    Proof.
      induction 1 as [H|b c Hl IH Hc [Ha He]]; [rewrite shift_back_to; by apply linked_here|].
      assert (Hdc : data_cell t (shift_back o c)).
      { eapply inner_next; [by apply Hin| |done]. by rewrite shift_to_back. }
      eapply linked_step; [exact IH|done|]. split.
      - apply shift_adj. by rewrite !shift_to_back.
      - rewrite !(tile_elev _ _ _ HT), !shift_to_back; try done. by apply (same_flat_data_r t p).
    Qed.
    Lemma tile_flat c : same_flat t p c <-> same_flat m (shift o p) (shift o c).
    Proof.
      split; [apply tile_flat_up|]. intros H. apply tile_flat_down in H. by rewrite shift_back_to in H.
    Qed.
    Lemma tile_higher q : higher_rim t p q <-> higher_rim m (shift o p) (shift o q).
    Proof.
      split; [apply tile_higher_up|]. intros (Hd & He & c & Hc & Ha).
      apply tile_flat_down in Hc.
      assert (Hq : data_cell t q).
      { rewrite <-(shift_back_to q). eapply inner_next; [by apply Hin| |done]. by rewrite shift_to_back. }
      split; [done|]. rewrite !(tile_elev _ _ _ HT) by done. split; [done|].
      exists (shift_back o c). split; [done|]. apply shift_adj. by rewrite shift_to_back.
    Qed.
    Lemma tile_higher_back q : higher_rim m (shift o p) q -> higher_rim t p (shift_back o q).
    Proof. intros H. apply tile_higher. by rewrite shift_to_back. Qed.
    Lemma tile_peak : peak t p <-> peak m (shift o p).
    Proof.
      split; intros [_ H]; (split; [by try apply tile_up|]); intros q Hq.
      - by apply (H (shift_back o q)), tile_higher_back.
      - by apply (H (shift o q)), tile_higher.
    Qed.
    Lemma tile_link a b : linked adj8 (higher_rim t p) a b <->
      linked adj8 (higher_rim m (shift o p)) (shift o a) (shift o b).
    Proof.
      split.
      - induction 1 as [H|b c Hl IH Hc Ha]; [by apply linked_here, tile_higher|].
        eapply linked_step; [exact IH|by apply tile_higher|by apply shift_adj].
      - enough (H : forall u v, linked adj8 (higher_rim m (shift o p)) u v ->
          linked adj8 (higher_rim t p) (shift_back o u) (shift_back o v)).
        { intros Hl. apply H in Hl. by rewrite !shift_back_to in Hl. }
        induction 1 as [H|b' c Hl IH Hc Ha]; [by apply linked_here, tile_higher_back|].
        eapply linked_step; [exact IH|by apply tile_higher_back|].
        apply shift_adj. by rewrite !shift_to_back.
    Qed.
    Lemma tile_two : two_sided t p <-> two_sided m (shift o p).
    Proof.
      split; intros (a & b & Ha & Hb & Hn).
      - exists (shift o a), (shift o b). rewrite <-!tile_higher, <-tile_link. done.
      - exists (shift_back o a), (shift_back o b). rewrite tile_link, !shift_to_back.
        split_and!; [by apply tile_higher_back..|done].
    Qed.
    Lemma tile_rim z : rim t p z <-> rim m (shift o p) (shift_pt o z).
    Proof.
      unfold rim, shift_pt. cbn. change (pt_xy (shift o (pt_xy z), pt_e z)) with (shift o (pt_xy z)).
      change (pt_e (shift o (pt_xy z), pt_e z)) with (pt_e z).
      split; intros [H E]; pose proof H as H'.
      - split; [by apply tile_higher|]. rewrite <-(tile_elev _ _ _ HT); [done|apply H'].
      - apply tile_higher in H. split; [done|]. rewrite (tile_elev _ _ _ HT); [done|apply H].
    Qed.
    Lemma tile_rim_link a b :
      linked (fun a b => adj8 (pt_xy a) (pt_xy b)) (rim t p) a b <->
      linked (fun a b => adj8 (pt_xy a) (pt_xy b)) (rim m (shift o p)) (shift_pt o a) (shift_pt o b).
    Proof.
      split.
      - induction 1 as [H|b c Hl IH Hc Ha]; [by apply linked_here, tile_rim|].
        eapply linked_step; [exact IH|by apply tile_rim|by apply shift_adj].
      - set (bk := fun z : pte => (shift_back o (pt_xy z), pt_e z) : pte).
        assert (Hbk : forall z, shift_pt o (bk z) = z).
        { intros z. unfold shift_pt, bk. destruct z as [q e]. unfold pt_xy, pt_e. cbn [fst snd].
          by rewrite shift_to_back. }
        assert (Hkb : forall z, bk (shift_pt o z) = z).
        { intros z. unfold shift_pt, bk. destruct z as [q e]. unfold pt_xy, pt_e. cbn [fst snd].
          by rewrite shift_back_to. }
        enough (H : forall u v,
          linked (fun a b => adj8 (pt_xy a) (pt_xy b)) (rim m (shift o p)) u v ->
          linked (fun a b => adj8 (pt_xy a) (pt_xy b)) (rim t p) (bk u) (bk v)).
        { intros Hl. apply H in Hl. by rewrite !Hkb in Hl. }
        induction 1 as [H|b' c Hl IH Hc Ha]; [apply linked_here, tile_rim; by rewrite Hbk|].
        eapply linked_step; [exact IH|apply tile_rim; by rewrite Hbk|].
        apply shift_adj. exact (eq_ind_r (fun x => adj8 x _) (eq_ind_r (fun y => adj8 _ y) Ha
          (shift_to_back (pt_xy c))) (shift_to_back (pt_xy b'))).
    Qed.

    Lemma tile_place q : place_of_flat t p q -> place_of_flat m (shift o p) (shift o q).
    Proof.
      intros [[_ Hf] H]. split.
      - split; [by apply tile_up|]. intros d Hd Hlt. apply tile_flat_down in Hd. apply (Hf _ Hd).
        destruct p, d. unfold rm_lt, shift, shift_back in *. cbn in *. lia.
      - destruct H as [[Hs ->]|(b & a & Hl & Hq & Hb)].
        + left. split; [|done]. intros c. split.
          * intros Hc. apply tile_flat_down, Hs in Hc. by rewrite <-Hc, shift_to_back.
          * intros ->. by apply same_flat_refl, tile_up.
        + right. exists (map (shift o) b), (map (shift o) a). split_and!.
          * transitivity (map (shift o) (later_cells p)).
            -- unfold later_cells, shift. cbn [map fst snd].
               repeat (apply (f_equal2 cons); [apply (f_equal2 pair); lia|]). done.
            -- by rewrite Hl, map_app.
          * by apply tile_flat.
          * intros c (d & -> & Hd)%elem_of_list_fmap Hc. apply tile_flat in Hc. by apply (Hb d).
    Qed.

    Lemma piece_linked S gs g a z : components S gs -> g ∈ gs -> a ∈ g ->
      z ∈ g <-> linked (fun a b => adj8 (pt_xy a) (pt_xy b)) S a z.
    Proof.
      intros HC Hg Ha. apply elem_of_list_lookup in Hg as [i Hi]. split.
      - intros Hz. by apply (comp_linked _ _ HC i i g g).
      - intros Hl. pose proof (linked_in_r _ _ _ _ Hl) as Hz. apply (comp_all _ _ HC) in Hz.
        apply elem_of_list_In, in_concat in Hz as (h & Hh & Hz). apply elem_of_list_In in Hh, Hz.
        apply elem_of_list_lookup in Hh as [j Hj].
        assert (i = j) as <- by (by apply (comp_linked _ _ HC i j g h a z)). congruence.
    Qed.
    Lemma piece_of S gs z : components S gs -> S z -> exists g, g ∈ gs /\ z ∈ g.
    Proof.
      intros HC Hz. apply (comp_all _ _ HC) in Hz. apply elem_of_list_In, in_concat in Hz as (h & Hh & Hz).
      exists h. by split; apply elem_of_list_In.
    Qed.
  End area.

    Lemma tile_same p f' f : data_cell t p -> (forall c, same_flat t p c -> inner_cell t c) ->
      stands_for t p f' -> stands_for m (shift o p) f ->
      components (rim t p) (ft_hpn f') -> components (rim m (shift o p)) (ft_hpn f) ->
      (exists r, place_of_flat t r (ft_pos f')) -> (exists r, place_of_flat m r (ft_pos f)) ->
      same_place o f' f.
    Proof.
      intros Hp Hin [Hc' Hp' He'] [Hc Hpm He] HC' HC [r' Hr'] [r Hr0].
      pose proof (tile_flat p Hp Hin) as tile_flat. pose proof (tile_rim p Hp Hin) as tile_rim.
      pose proof (tile_rim_link p Hp Hin) as tile_rim_link. split.
      - apply (place_unique m (shift o r') _ r); [|done|].
        + apply place_in in Hr' as Hi. assert (Hs : same_flat t p r').
          { eapply same_flat_trans; [done|]. by apply same_flat_sym. }
          apply tile_place; [exact (same_flat_data_r _ _ _ Hs)| |done].
          intros c H. apply Hin. by eapply same_flat_trans.
        + apply tile_flat_up in Hp'. eapply same_flat_trans; [|done]. by apply same_flat_sym.
      - rewrite He', He. by apply (tile_elev _ _ _ HT).
      - intros c. rewrite Hc', Hc. apply tile_flat.
      - intros g Hg. pose proof (comp_nonempty _ _ HC' g Hg). destruct g as [|a g0] eqn:Eg; [done|].
        rewrite <-Eg in *. assert (Ha : a ∈ g) by (rewrite Eg; by left).
        assert (Hr : rim t p a). { apply (comp_all _ _ HC'), elem_of_list_In, in_concat. exists g.
          by split; apply elem_of_list_In. }
        destruct (piece_of _ _ (shift_pt o a) HC) as (h & Hh & Hah); [by apply tile_rim|].
        exists h. split; [done|]. intros z. rewrite (piece_linked _ _ g a z HC' Hg Ha).
        rewrite (piece_linked _ _ h _ _ HC Hh Hah). apply tile_rim_link.
      - intros h Hh. pose proof (comp_nonempty _ _ HC h Hh). destruct h as [|b h0] eqn:Eh; [done|].
        rewrite <-Eh in *. assert (Hb : b ∈ h) by (rewrite Eh; by left).
        assert (Hr : rim m (shift o p) b). { apply (comp_all _ _ HC), elem_of_list_In, in_concat. exists h.
          by split; apply elem_of_list_In. }
        set (a := (shift_back o (pt_xy b), pt_e b) : pte).
        assert (Eb : shift_pt o a = b).
        { unfold shift_pt, a. destruct b as [q e]. unfold pt_xy, pt_e. cbn [fst snd]. by rewrite shift_to_back. }
        rewrite <-Eb in Hr, Hb. apply tile_rim in Hr.
        destruct (piece_of _ _ a HC' Hr) as (g & Hg & Hag).
        exists g. split; [done|]. intros z. rewrite (piece_linked _ _ g a z HC' Hg Hag).
        rewrite (piece_linked _ _ h _ _ HC Hh Hb). apply tile_rim_link.
    Qed.

  (** A cell of a large peak is a peak of the tile. *)
  Lemma tile_peak_kept p : in_map t p -> peak m (shift o p) -> peak t p.
  Proof.
    intros Hp [Hd H]. split; [by apply (tile_data _ _ _ HT)|]. intros q Hq. by apply (H (shift o q)), tile_higher_up.
  Qed.
End tile.

Lemma only_one {A} (P Q : A -> Prop) l a : exactly_one P l -> a ∈ l -> Q a -> (forall b, Q b -> P b) ->
  exactly_one Q l.
Proof.
  intros (i & b & Hi & Hb & Hu) Ha HQ H. apply elem_of_list_lookup in Ha as [j Hj].
  pose proof (Hu j a Hj (H _ HQ)) as ->. exists i, a. split_and!; try done. intros k c Hk Hc. eapply Hu; eauto.
Qed.

Section analyses.
  Context (fp : datamap -> list xy -> xy -> xy -> option Q) (orc orc' : xy -> nat -> nat -> nat).
  Context (o : xy) (m t : datamap).

  Lemma summit_hpn g su sa ru : map_ok g -> paths_found fp g -> analyze fp orc g = Ok (su, sa, ru) ->
    forall f, f ∈ su -> ft_hpn f = [].
  Proof.
    intros Hok Hfp. destruct (analyze_all_spec fp orc g Hok Hfp) as (areas & Heq & Hres & Hfirst & _).
    unfold analyze. rewrite Heq. cbn [rbind]. intros [= <- _ _] f Hf. rewrite filter_concat_map in Hf.
    apply elem_of_list_In, in_concat in Hf as (l & Hl & Hf).
    apply in_map_iff in Hl as ([p fs] & <- & Hp). apply elem_of_list_In in Hp, Hf. cbn in Hf.
    assert (Hd : data_cell g p).
    { apply (proj1 (Hfirst p)). apply elem_of_list_fmap. by exists (p, fs). }
    destruct (area_summit g p fs Hd (Hres _ _ Hp)) as [Hy Hn].
    assert (Hpk : peak g p).
    { split; [done|]. intros q Hq. rewrite Hn in Hf; [by apply elem_of_nil in Hf|]. intros [_ H]. by apply H in Hq. }
    destruct (Hy Hpk) as (f' & Hf' & _ & Hh). rewrite Hf' in Hf.
    by apply elem_of_list_singleton in Hf as ->.
  Qed.
End analyses.

Lemma parts_same m p d gs : same_flat m p d -> components (rim m p) gs -> components (rim m d) gs.
Proof.
  intros H. apply components_ext. intros z. unfold rim. by rewrite (rim_same m p d _ H).
Qed.
Lemma peak_components m p hp : peak m p -> hp = [] -> components (rim m p) hp.
Proof.
  intros [_ H] ->. split.
  - constructor.
  - intros z. cbn. split; [intros E; by apply elem_of_nil in E|]. intros [Hz _]. by apply H in Hz.
  - intros g E. by apply elem_of_nil in E.
  - intros i j g h a b E. by rewrite lookup_nil in E.
Qed.

Section analyses.
  Context (fp : datamap -> list xy -> xy -> xy -> option Q) (orc orc' : xy -> nat -> nat -> nat).
  Context (o : xy) (m t : datamap).

  Lemma tile_inner f q : tile o m t -> stands_for m q f -> inside_tile o t f ->
    data_cell t (shift_back o q) /\
    forall c, same_flat t (shift_back o q) c -> inner_cell t c.
  Proof.
    intros HT Hs Hin.
    assert (Hq : same_flat m q q).
    { apply same_flat_refl. exact (same_flat_data_l _ _ _ (sf_pos _ _ _ Hs)). }
    pose proof (Hin q (proj2 (sf_cells _ _ _ Hs q) Hq)) as Hi. split.
    - apply (tile_data _ _ _ HT); [destruct Hi; split; lia|]. rewrite shift_to_back.
      exact (same_flat_data_l _ _ _ Hq).
    - intros c Hc. apply (tile_flat_up o m t HT) in Hc. rewrite shift_to_back in Hc.
      apply (sf_cells _ _ _ Hs) in Hc. apply Hin in Hc. by rewrite shift_back_to in Hc.
  Qed.

  Theorem tile_features : map_ok m -> map_ok t -> paths_found fp m -> paths_found fp t -> tile o m t ->
    exists su sa ru su' sa' ru',
      analyze fp orc m = Ok (su, sa, ru) /\ analyze fp orc' t = Ok (su', sa', ru') /\
      (forall f', f' ∈ su' -> (forall c, covers f' c -> inner_cell t c) ->
         exactly_one (same_place o f') su) /\
      (forall f, f ∈ su -> inside_tile o t f -> exactly_one (fun f' => same_place o f' f) su') /\
      (forall f', f' ∈ sa' -> (forall c, covers f' c -> inner_cell t c) ->
         exactly_one (same_place o f') sa) /\
      (forall f, f ∈ sa -> inside_tile o t f -> exactly_one (fun f' => same_place o f' f) sa') /\
      (forall f c, f ∈ su -> in_map t c -> covers f (shift o c) ->
         exactly_one (fun f' => covers f' c) su').
  Proof.
    intros Hm Ht Fm Ft HT.
    destruct (summits_exact fp orc m Hm Fm) as (su & sa & ru & Em & Su1 & Su2).
    destruct (saddles_exact fp orc m Hm Fm) as (? & ? & ? & Em2 & Sa1 & Sa2).
    rewrite Em in Em2. injection Em2 as <- <- <-.
    destruct (summits_exact fp orc' t Ht Ft) as (su' & sa' & ru' & Et & Tu1 & Tu2).
    destruct (saddles_exact fp orc' t Ht Ft) as (? & ? & ? & Et2 & Ta1 & Ta2).
    rewrite Et in Et2. injection Et2 as <- <- <-.
    pose proof (features_placed fp orc m Hm Fm su sa ru Em) as Pm.
    pose proof (features_placed fp orc' t Ht Ft su' sa' ru' Et) as Pt.
    pose proof (summit_hpn fp orc m su sa ru Hm Fm Em) as Hm0.
    pose proof (summit_hpn fp orc' t su' sa' ru' Ht Ft Et) as Ht0.
    exists su, sa, ru, su', sa', ru'. split; [done|]. split; [done|]. split_and!.
    - intros f' Hf' Hin. destruct (Tu1 f' Hf') as (p & Hp & Hx). pose proof (ex_stands _ _ _ Hx) as Hs.
      assert (Hin' : forall c, same_flat t p c -> inner_cell t c).
      { intros c Hc. by apply Hin, (sf_cells _ _ _ Hs). }
      pose proof (proj1 (tile_peak o m t HT p (proj1 Hp) Hin') Hp) as Hpm.
      pose proof (Su2 _ Hpm) as H1. destruct H1 as (i & f & Hi & Hcf & Hu) eqn:E1. clear E1.
      assert (Hf : f ∈ su) by (by eapply elem_of_list_lookup_2).
      destruct (Su1 f Hf) as (q & Hq & Hxq).
      assert (Hsm : stands_for m (shift o p) f).
      { apply (exact_same m q); [|done]. by apply (sf_cells _ _ _ (ex_stands _ _ _ Hxq)). }
      apply (only_one (fun f => covers f (shift o p)) _ su f); [by exists i, f|done| |].
      + eapply tile_same; try done; [apply Hp|apply peak_components; eauto..|eauto|eauto].
      + intros b Hb. apply (sp_cells _ _ _ Hb). apply (sf_cells _ _ _ Hs), same_flat_refl, Hp.
    - intros f Hf Hin. destruct (Su1 f Hf) as (q & Hq & Hx). pose proof (ex_stands _ _ _ Hx) as Hs.
      destruct (tile_inner f q HT Hs Hin) as [Hd Hin'].
      assert (Hpt : peak t (shift_back o q)).
      { apply (tile_peak o m t HT _ Hd Hin'). by rewrite shift_to_back. }
      destruct (Tu2 _ Hpt) as (i & f' & Hi & Hcf & Hu).
      assert (Hf' : f' ∈ su') by (by eapply elem_of_list_lookup_2).
      destruct (Tu1 f' Hf') as (p & Hp & Hxp).
      assert (Hst : stands_for t (shift_back o q) f').
      { apply (exact_same t p); [|done]. by apply (sf_cells _ _ _ (ex_stands _ _ _ Hxp)). }
      apply (only_one (fun f => covers f (shift_back o q)) _ su' f'); [by exists i, f'|done| |].
      + eapply (tile_same o m t HT (shift_back o q)); rewrite ?shift_to_back; try done;
          [apply peak_components; eauto..|eauto|eauto].
      + intros b Hb. apply (sp_cells _ _ _ Hb). rewrite shift_to_back.
        apply (sf_cells _ _ _ Hs), same_flat_refl, Hq.
    - intros f' Hf' Hin. destruct (Ta1 f' Hf') as (p & Hp & H2 & Hs & HC & _).
      assert (Hin' : forall c, same_flat t p c -> inner_cell t c).
      { intros c Hc. by apply Hin, (sf_cells _ _ _ Hs). }
      pose proof (proj1 (tile_two o m t HT p Hp Hin') H2) as H2m.
      destruct (Sa2 _ (tile_up o m t HT p Hp) H2m) as (i & f & Hi & Hcf & Hu).
      assert (Hf : f ∈ sa) by (by eapply elem_of_list_lookup_2).
      destruct (Sa1 f Hf) as (q & Hq & _ & Hsq & HCq & _).
      assert (Hqp : same_flat m q (shift o p)) by (by apply (sf_cells _ _ _ Hsq)).
      apply (only_one (fun f => covers f (shift o p)) _ sa f); [by exists i, f|done| |].
      + eapply tile_same; try done; [by eapply stands_same|by eapply parts_same|eauto|eauto].
      + intros b Hb. apply (sp_cells _ _ _ Hb). by apply (sf_cells _ _ _ Hs), same_flat_refl.
    - intros f Hf Hin. destruct (Sa1 f Hf) as (q & Hq & H2 & Hs & HC & _).
      destruct (tile_inner f q HT Hs Hin) as [Hd Hin'].
      assert (H2t : two_sided t (shift_back o q)).
      { apply (tile_two o m t HT _ Hd Hin'). by rewrite shift_to_back. }
      destruct (Ta2 _ Hd H2t) as (i & f' & Hi & Hcf & Hu).
      assert (Hf' : f' ∈ sa') by (by eapply elem_of_list_lookup_2).
      destruct (Ta1 f' Hf') as (p & Hp & _ & Hsp & HCp & _).
      assert (Hqp : same_flat t p (shift_back o q)) by (by apply (sf_cells _ _ _ Hsp)).
      apply (only_one (fun f => covers f (shift_back o q)) _ sa' f'); [by exists i, f'|done| |].
      + eapply (tile_same o m t HT (shift_back o q)); rewrite ?shift_to_back; try done;
          [by eapply stands_same|by eapply parts_same|eauto|eauto].
      + intros b Hb. apply (sp_cells _ _ _ Hb). rewrite shift_to_back.
        by apply (sf_cells _ _ _ Hs), same_flat_refl.
    - intros f c Hf Hc Hcov. destruct (Su1 f Hf) as (q & Hq & Hx).
      apply Tu2. apply (tile_peak_kept o m t HT c Hc).
      apply (peak_same m q (shift o c)); [|done]. by apply (sf_cells _ _ _ (ex_stands _ _ _ Hx)).
  Qed.
End analyses.

Lemma cut_out_tile o w h m : 0 <= o.1 -> 0 <= o.2 -> o.1 + w <= dm_max_x m -> o.2 + h <= dm_max_y m ->
  tile o m (cut_out o w h m).
Proof.
  intros H1 H2 H3 H4. split; [|done]. intros [x y] Hq. unfold data_cell, in_map, shift, elev, cut_out in *. cbn in *.
  split; intros [_ H]; (split; [lia|done]).
Qed.

Lemma framed_tile v m : dm_nodata m = Some v -> tile (-1, -1) m (framed v m).
Proof.
  intros Hv.
  assert (HE : forall q, in_map m (shift (-1, -1) q) -> elev (framed v m) q = elev m (shift (-1, -1) q)).
  { intros [x y] H. unfold elev, framed, shift in *. cbn in *. by rewrite decide_True. }
  assert (HN : forall q, ~ in_map m (shift (-1, -1) q) -> elev (framed v m) q = v).
  { intros [x y] H. unfold elev, framed, shift in *. cbn in *. by rewrite decide_False. }
  split.
  - intros q Hq. unfold data_cell. rewrite Hv. change (dm_nodata (framed v m)) with (Some v).
    destruct (decide (in_map m (shift (-1, -1) q))) as [Hi|Hi].
    + rewrite (HE q Hi). split; intros [_ H]; by split.
    + rewrite (HN q Hi). split; intros [H H']; by destruct Hi || done.
  - intros q [_ Hq]. apply HE. destruct (decide (in_map m (shift (-1, -1) q))) as [Hi|Hi]; [done|].
    rewrite (HN q Hi) in Hq. done.
Qed.

Lemma framed_inner v m c : data_cell (framed v m) c -> inner_cell (framed v m) c.
Proof.
  intros [_ H]. change (dm_nodata (framed v m)) with (Some v) in H.
  destruct c as [x y]. unfold elev, framed in H. cbn in H.
  destruct (decide (in_map m (x - 1, y - 1))) as [[Hx Hy]|]; [|done].
  unfold inner_cell, framed. cbn in *. lia.
Qed.

Lemma framed_runoffs fp orc v m su sa ru : map_ok m -> paths_found fp (framed v m) ->
  analyze fp orc (framed v m) = Ok (su, sa, ru) -> ru = [].
Proof.
  intros Hok Hfp. set (t := framed v m) in *.
  assert (Ht : map_ok t) by (destruct Hok; split; cbn; lia).
  destruct (analyze_all_spec fp orc t Ht Hfp) as (areas & Heq & Hres & Hfirst & _).
  unfold analyze. rewrite Heq. cbn [rbind]. intros [= _ _ <-].
  apply elem_of_nil_inv. intros f Hf. rewrite filter_concat_map in Hf.
  apply elem_of_list_In, in_concat in Hf as (l & Hl & Hf).
  apply in_map_iff in Hl as ([p fs] & <- & Hp). apply elem_of_list_In in Hp, Hf. cbn in Hf.
  assert (Hd : data_cell t p).
  { apply (proj1 (Hfirst p)). apply elem_of_list_fmap. by exists (p, fs). }
  destruct (area_runoff t p fs Hd (Hres _ _ Hp)) as [Hn _].
  unfold of_kind in Hn. rewrite Hn in Hf; [by apply elem_of_nil in Hf|].
  intros (c & Hc & Hb). apply same_flat_data_r in Hc. pose proof (framed_inner v m c Hc) as Hi.
  by apply (inner_not_edge t c Hc) in Hi.
Qed.

Theorem framed_features fp orc orc' v m : map_ok m -> dm_nodata m = Some v ->
  paths_found fp m -> paths_found fp (framed v m) ->
  exists su sa ru su' sa',
    analyze fp orc m = Ok (su, sa, ru) /\ analyze fp orc' (framed v m) = Ok (su', sa', []) /\
    (forall f', f' ∈ su' -> exactly_one (same_place (-1, -1) f') su) /\
    (forall f, f ∈ su -> exactly_one (fun f' => same_place (-1, -1) f' f) su') /\
    (forall f', f' ∈ sa' -> exactly_one (same_place (-1, -1) f') sa) /\
    (forall f, f ∈ sa -> exactly_one (fun f' => same_place (-1, -1) f' f) sa').
Proof.
  intros Hok Hv F1 F2.
  assert (Ht : map_ok (framed v m)) by (destruct Hok; split; cbn; lia).
  destruct (summits_exact fp orc' (framed v m) Ht F2) as (? & ? & ? & E1 & Tu & _).
  destruct (saddles_exact fp orc' (framed v m) Ht F2) as (? & ? & ? & E2 & Ta & _).
  destruct (summits_exact fp orc m Hok F1) as (? & ? & ? & E3 & Su & _).
  destruct (saddles_exact fp orc m Hok F1) as (? & ? & ? & E4 & Sa & _).
  destruct (tile_features fp orc orc' (-1, -1) m (framed v m) Hok Ht F1 F2 (framed_tile v m Hv))
    as (su & sa & ru & su' & sa' & ru' & Em & Et & P1 & P2 & P3 & P4 & _).
  rewrite Et in E1, E2. rewrite Em in E3, E4.
  injection E1 as <- <- <-. injection E2 as <- <- <-. injection E3 as <- <- <-. injection E4 as <- <- <-.
  pose proof (framed_runoffs fp orc' v m su' sa' ru' Hok F2 Et) as ->.
  assert (HI : forall f q, stands_for m q f -> inside_tile (-1, -1) (framed v m) f).
  { intros f q Hs c Hc. apply (sf_cells _ _ _ Hs), same_flat_data_r in Hc as [[Hx Hy] _].
    unfold inner_cell, shift_back, framed. cbn. lia. }
  assert (HJ : forall f p, stands_for (framed v m) p f -> forall c, covers f c -> inner_cell (framed v m) c).
  { intros f p Hs c Hc. apply (sf_cells _ _ _ Hs), same_flat_data_r in Hc. by apply framed_inner. }
  exists su, sa, ru, su', sa'. split_and!; try done.
  - intros f' Hf. destruct (Tu f' Hf) as (p & _ & Hx). apply (P1 f' Hf). exact (HJ f' p (ex_stands _ _ _ Hx)).
  - intros f Hf. destruct (Su f Hf) as (p & _ & Hx). apply (P2 f Hf). exact (HI f p (ex_stands _ _ _ Hx)).
  - intros f' Hf. destruct (Ta f' Hf) as (p & _ & _ & Hx & _). apply (P3 f' Hf). exact (HJ f' p Hx).
  - intros f Hf. destruct (Sa f Hf) as (p & _ & _ & Hx & _). apply (P4 f Hf). exact (HI f p Hx).
Qed.
