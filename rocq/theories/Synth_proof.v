(** Synthetic saddles. *)
From Verif Require Import Tree_spec Tree_proof Walk_model Raster_spec Raster_proof Raster_facts Contig_proof Closest_spec
  Closest_proof Feature_spec Network_spec Network_proof Rebuild_proof Climb_spec Climb_proof Graph_spec Graph_proof
  Walk_spec Walk_proof.
From Coq Require Import ZifyBool.
Local Open Scope Z_scope.

Section synth.
  Variables (fpath : datamap -> list mpoint -> mpoint -> mpoint -> option (list mpoint * Q)).
  Variables (near : searches) (m : datamap).
  Hypotheses (Hf : mpaths_found fpath m) (Hnear : sound_searches near m) (Hreach : map_in_reach m).

  (** The objects other than [i] are as before. *)
  Definition frame (i : nat) (w w' : world) : Prop :=
    forall j o, w_saddles w !! j = Some o -> j <> i -> w_saddles w' !! j = Some o.

  Lemma frame_refl i w : frame i w w.
  Proof. by intros j o H _. Qed.
  Lemma frame_trans i w1 w2 w3 : frame i w1 w2 -> frame i w2 w3 -> frame i w1 w3.
  Proof. intros H1 H2 j o H Hj. apply H2; [|done]. by apply H1. Qed.

  (** A new saddle: no links, the given parent. *)
  Definition fresh_piece (w : world) (par : option nat) (p : nat) : Prop :=
    exists o, w_saddles w !! p = Some o /\ sa_links o = [] /\ sa_parent o = par /\ walkable m (sa_feat o).

  Lemma walkable_piece f pos ga gb g h : walkable m f -> g ∈ ft_hpn f -> h ∈ ft_hpn f ->
    ga <> [] -> gb <> [] -> (forall z, z ∈ ga -> z ∈ h) -> (forall z, z ∈ gb -> z ∈ g) ->
    walkable m (piece f pos [ga; gb]).
  Proof.
    intros Hw Hg Hh Ha Hb Hsa Hsb. split; cbn.
    - intros x [->|[->|[]%elem_of_nil]%elem_of_cons]%elem_of_cons; done.
    - intros x z [->|[->|[]%elem_of_nil]%elem_of_cons]%elem_of_cons Hz.
      + by apply (wk_higher _ _ Hw h); [|apply Hsa].
      + by apply (wk_higher _ _ Hw g); [|apply Hsb].
    - done.
    - done.
    - intros z Hz. by apply elem_of_nil in Hz.
    - done.
  Qed.

  Lemma walkable_reach f : walkable m f -> in_reach m (ft_hpn f).
  Proof.
    intros Hw g h p q Hg Hh Hp Hq. apply Hreach.
    - by destruct (wk_higher _ _ Hw g p Hg Hp) as [[? _] _].
    - by destruct (wk_higher _ _ Hw h q Hh Hq) as [[? _] _].
  Qed.

  Lemma walkable_answered f : walkable m f -> answered near m f.
  Proof.
    intros Hw. apply sound_answered; [done|apply Hw|apply Hw|by apply walkable_reach| |apply Hw].
    intros g z Hg Hz. by destruct (wk_higher _ _ Hw g z Hg Hz) as [[? _] _].
  Qed.

  Lemma alloc_lookup s w j : w_saddles (alloc_saddle s w).1 !! j =
    if decide (j = length (w_saddles w)) then Some s else w_saddles w !! j.
  Proof.
    unfold alloc_saddle; cbn [fst w_saddles]. destruct (decide _) as [->|Hj].
    - by rewrite lookup_app_r, Nat.sub_diag by lia.
    - destruct (decide (j < length (w_saddles w))%nat).
      + by rewrite lookup_app_l by lia.
      + rewrite lookup_app_r by lia. rewrite !(proj2 (lookup_ge_None _ _)); [done|lia|cbn; lia].
  Qed.

  (** Only the list of children of [i] differs. *)
  Definition same_but_children (i : nat) (w w' : world) : Prop :=
    w_summits w' = w_summits w /\ w_links w' = w_links w /\ frame i w w' /\
    forall o, w_saddles w !! i = Some o -> exists l, w_saddles w' !! i = Some (set_children l o).

  Lemma sbc_refl i w : same_but_children i w w.
  Proof.
    split_and!; [done|done|apply frame_refl|]. intros o Ho. exists (sa_children o). rewrite Ho. by destruct o.
  Qed.
  Lemma sbc_trans i w1 w2 w3 : same_but_children i w1 w2 -> same_but_children i w2 w3 -> same_but_children i w1 w3.
  Proof.
    intros (A1 & A2 & A3 & A4) (B1 & B2 & B3 & B4). split_and!; [congruence|congruence|by eapply frame_trans|].
    intros o Ho. destruct (A4 o Ho) as [l Hl]. destruct (B4 _ Hl) as [l' Hl']. by exists l'.
  Qed.

  Lemma alloc_children_spec i f rs es : walkable m f -> Forall2 (split_saddle f) rs es -> forall w,
    (i < length (w_saddles w))%nat ->
    exists w' js, alloc_children i f rs w = (w', js) /\
      js = seq (length (w_saddles w)) (length rs) /\
      length (w_saddles w') = (length (w_saddles w) + length rs)%nat /\
      same_but_children i w w' /\ (ft_edge f = false -> w_saddles w' !! i = w_saddles w !! i) /\
      Forall2 (split_piece w' f) js es /\
      forall p, p ∈ js -> fresh_piece w' (if ft_edge f then Some i else None) p.
  Proof.
    intros Hw H. induction H as [|r e rs es Hr H IH]; intros w Hi.
    - exists w, []. split; [done|]. split; [done|]. split; [cbn; lia|]. split; [apply sbc_refl|].
      split; [done|]. split; [constructor|]. by intros p ?%elem_of_nil.
    - destruct Hr as (pos & ga & gb & g & h & -> & Hpos & Hne & Hg & Hh & Hga & Hgb & Hsa & Hsb).
      cbn [alloc_children]. set (n := length (w_saddles w)).
      set (s := new_saddle (piece f pos [ga; gb])).
      change (alloc_saddle s w) with ((alloc_saddle s w).1, n).
      cbn beta iota. set (w1 := (alloc_saddle s w).1).
      assert (Hl1 : length (w_saddles w1) = S n) by (unfold w1; cbn; rewrite app_length; cbn; unfold n; lia).
      match goal with |- context [match (if ft_edge f then Some f else None) with Some _ => ?a | None => ?b end] =>
        set (w2 := match (if ft_edge f then Some f else None) with Some _ => a | None => b end) end.
      assert (Hw2 : w2 = if ft_edge f then upd_saddle i (fun s => set_children (sa_children s ++ [n]) s)
                               (upd_saddle n (set_parent (Some i)) w1) else w1)
        by (unfold w2; by destruct (ft_edge f)).
      clearbody w2.
      assert (Hl2 : length (w_saddles w2) = S n).
      { rewrite Hw2. destruct (ft_edge f); [|done]. cbn [w_saddles upd_saddle]. by rewrite !alter_length. }
      assert (Hlk : forall j, w_saddles w2 !! j =
        if decide (j = n) then Some (if ft_edge f then set_parent (Some i) s else s)
        else if decide (j = i) then (fun o => if ft_edge f then set_children (sa_children o ++ [n]) o else o) <$> w_saddles w !! j
        else w_saddles w !! j).
      { intros j. rewrite Hw2. destruct (ft_edge f).
        - rewrite !upd_saddle_lookup. unfold w1. rewrite alloc_lookup. fold n.
          repeat destruct (decide _); subst; try lia; done.
        - unfold w1. rewrite alloc_lookup. fold n. destruct (decide (j = n)); [done|].
          destruct (decide (j = i)); [|done]. by destruct (w_saddles w !! j). }
      assert (Hsb2 : same_but_children i w w2).
      { split_and!.
        - rewrite Hw2. by destruct (ft_edge f).
        - rewrite Hw2. by destruct (ft_edge f).
        - intros j o Ho Hj. rewrite Hlk. rewrite decide_False by (apply lookup_lt_Some in Ho; lia).
          by rewrite decide_False by done.
        - intros o Ho. rewrite Hlk. rewrite decide_False by lia. rewrite decide_True by done. rewrite Ho. cbn.
          destruct (ft_edge f); [by eexists|]. exists (sa_children o). by destruct o. }
      destruct (IH w2) as (w' & js & -> & Hjs & Hlen & Hsb' & He' & Hsp & Hfr); [lia|].
      rewrite Hl2 in *.
      assert (Hn : w_saddles w' !! n = Some (if ft_edge f then set_parent (Some i) s else s)).
      { destruct Hsb' as (_ & _ & Hfr' & _). apply Hfr'; [|lia]. rewrite Hlk. by rewrite decide_True by done. }
      exists w', (n :: js). split_and!.
      + done.
      + cbn. by rewrite Hjs.
      + cbn. lia.
      + by eapply sbc_trans.
      + intros E. rewrite (He' E), Hlk, E. rewrite decide_False by lia. rewrite decide_True by done.
        by destruct (w_saddles w !! i).
      + constructor; [|done]. eexists _, pos, ga, gb, g, h. split_and!; try done.
        * by destruct (ft_edge f).
        * by left.
      + intros p [->|Hp]%elem_of_cons; [|by apply Hfr]. eexists. split; [exact Hn|].
        assert (walkable m (piece f pos [ga; gb])).
        { eapply walkable_piece; [done|by eapply elem_of_list_lookup_2; exact Hg|
            by eapply elem_of_list_lookup_2; exact Hh|done..]. }
        destruct (ft_edge f); done.
  Qed.

  Lemma one_piece_tree : spanning_tree 2 [(1, 0)%nat].
  Proof.
    split_and!; [done| |].
    - intros a b Hab%elem_of_list_singleton. injection Hab as -> ->. cbn. lia.
    - assert (H01 : joined [(1, 0)%nat] 1%nat 0%nat) by (apply joined_edge; by left).
      intros a b Ha Hb. destruct a as [|[|a]]; [| |cbn in Ha; lia]; (destruct b as [|[|b]]; [| |cbn in Hb; lia]);
        first [apply joined_refl|done|by apply joined_sym].
  Qed.

  (** The inner path of a walkable saddle with two groups. *)
  Lemma inner_path f g0 g1 : walkable m f -> ft_hpn f = [g0; g1] -> ft_multi f <> [] ->
    exists a b mid, hpn_shortest_path fpath m f = Ok (as_mpoint a, as_mpoint b, mid) /\ a ∈ g0 /\ b ∈ g1 /\
      (mid.1 ∈ own_cells f \/ exists z, z ∈ concat (ft_hpn f) /\ mid.1 = pt_xy z).
  Proof.
    intros Hw Hh Hm.
    assert (Hn : hpath_nodes m f = Ok (ft_multi f ++ map as_mpoint (concat (ft_hpn f)))).
    { unfold hpath_nodes. by destruct (ft_multi f). }
    assert (Hp : forall u t, u ∈ g0 -> t ∈ g1 -> exists ns c,
      fpath m (ft_multi f ++ map as_mpoint (concat (ft_hpn f))) (as_mpoint u) (as_mpoint t) = Some (ns, c) /\
      head ns = Some (as_mpoint u) /\ last ns = Some (as_mpoint t) /\
      forall z, z ∈ ns -> z ∈ ft_multi f ++ map as_mpoint (concat (ft_hpn f))).
    { intros u t Hu Ht. apply Hf. by apply (wk_path _ _ Hw g0 g1). }
    destruct (hpn_path_spec fpath m f g0 g1 [] (ft_multi f ++ map as_mpoint (concat (ft_hpn f))) Hh) as (r & u & t & ns & c & Hr & Hu & Ht & Hpu & (E1 & E2 & E3) & _).
    - apply (wk_groups _ _ Hw). rewrite Hh. by left.
    - apply (wk_groups _ _ Hw). rewrite Hh. by right; left.
    - exact Hn.
    - intros u t Hu Ht. destruct (Hp u t Hu Ht) as (ns & c & H1 & H2 & _). exists ns, c. split; [done|].
      by destruct ns.
    - destruct (Hp u t Hu Ht) as (ns' & c' & H1 & H2 & H3 & H4). rewrite Hpu in H1. injection H1 as <- <-.
      destruct r as [[a b] mid]. cbn in E1, E2, E3. rewrite E1 in H2. injection H2 as ->.
      rewrite E2 in H3. injection H3 as ->. exists u, t, mid. split_and!; try done.
      apply elem_of_list_lookup_2 in E3. apply H4 in E3. apply elem_of_app in E3 as [E3|E3].
      + left. unfold own_cells. destruct (ft_multi f); [done|]. apply elem_of_list_fmap. by exists mid.
      + right. apply elem_of_list_fmap in E3 as (z & -> & Hz). by exists z.
  Qed.

  Lemma alloc_one i f pos ga gb g0 g1 w : walkable m f -> (i < length (w_saddles w))%nat ->
    ft_hpn f = [g0; g1] -> ga <> [] -> gb <> [] -> (forall z, z ∈ ga -> z ∈ g0) -> (forall z, z ∈ gb -> z ∈ g1) ->
    (length (ft_hpn f) <> 2%nat \/ ft_multi f = [] -> pos ∈ own_cells f) ->
    (pos ∈ own_cells f \/ exists z, z ∈ concat (ft_hpn f) /\ pos = pt_xy z) ->
    exists w' js, alloc_saddle (new_saddle (piece f pos [ga; gb])) w = (w', length (w_saddles w)) /\
      js = [length (w_saddles w)] /\ length (w_saddles w') = S (length (w_saddles w)) /\
      same_but_children i w w' /\ w_saddles w' !! i = w_saddles w !! i /\
      Forall2 (split_piece w' f) js [(1, 0)%nat] /\ forall p, p ∈ js -> fresh_piece w' None p.
  Proof.
    intros Hw Hi Hh Ha Hb Hsa Hsb Hp1 Hp2.
    exists (alloc_saddle (new_saddle (piece f pos [ga; gb])) w).1, [length (w_saddles w)].
    assert (Hlk := alloc_lookup (new_saddle (piece f pos [ga; gb])) w).
    set (w' := (alloc_saddle (new_saddle (piece f pos [ga; gb])) w).1) in *.
    assert (Hother : forall j, (j < length (w_saddles w))%nat -> w_saddles w' !! j = w_saddles w !! j).
    { intros j Hj. rewrite Hlk. by rewrite decide_False by lia. }
    assert (Hnew : w_saddles w' !! length (w_saddles w) = Some (new_saddle (piece f pos [ga; gb]))).
    { rewrite Hlk. by rewrite decide_True by done. }
    split; [done|]. split; [done|]. split; [unfold w'; cbn; rewrite app_length; cbn; lia|]. split; [|split; [|split]].
    - split; [done|]. split; [done|]. split.
      + intros j o Ho _. rewrite Hother; [done|]. by eapply lookup_lt_Some.
      + intros o Ho. exists (sa_children o). rewrite Hother by done. rewrite Ho. by destruct o.
    - by apply Hother.
    - constructor; [|constructor]. eexists _, pos, ga, gb, g1, g0. rewrite Hh in *. split_and!; try done.
    - intros p ->%elem_of_list_singleton. eexists. split; [exact Hnew|]. split_and!; [done|done|].
      apply (walkable_piece f pos ga gb g1 g0); rewrite ?Hh; try done; [by right; left|by left].
  Qed.

  Lemma synth_spec i w o : w_saddles w !! i = Some o -> walkable m (sa_feat o) ->
    exists w' ks, generate_synthetic_saddles fpath near m i w = Ok (w', ks) /\
      ((w' = w /\ ks = [i] /\ (length (ft_hpn (sa_feat o)) < 2)%nat) \/
       ((2 <= length (ft_hpn (sa_feat o)))%nat /\
        ks = seq (length (w_saddles w)) (length ks) /\
        length (w_saddles w') = (length (w_saddles w) + length ks)%nat /\
        same_but_children i w w' /\ (ft_edge (sa_feat o) = false -> w_saddles w' !! i = w_saddles w !! i) /\
        (exists es, spanning_tree (length (ft_hpn (sa_feat o))) es /\ Forall2 (split_piece w' (sa_feat o)) ks es) /\
        exists par, (par = None \/ (par = Some i /\ ft_edge (sa_feat o) = true)) /\
        forall p, p ∈ ks -> fresh_piece w' par p)).
  Proof.
    intros Ho Hw. unfold generate_synthetic_saddles. rewrite Ho. set (f := sa_feat o) in *.
    pose proof (lookup_lt_Some _ _ _ Ho) as Hi.
    destruct (ft_hpn f) as [|g0 [|g1 [|g2 gs]]] eqn:Eh.
    - exists w, [i]. split; [done|]. left. cbn. auto with lia.
    - exists w, [i]. split; [done|]. left. cbn. auto with lia.
    - assert (Hg0 : g0 <> []) by (apply (wk_groups _ _ Hw); rewrite Eh; by left).
      assert (Hg1 : g1 <> []) by (apply (wk_groups _ _ Hw); rewrite Eh; by right; left).
      destruct (ft_multi f) as [|z0 mu] eqn:Em.
      + destruct (highest_sub g0 Hg0) as (h0 & -> & Hh0 & Hs0).
        destruct (highest_sub g1 Hg1) as (h1 & -> & Hh1 & Hs1). cbn [rbind].
        destruct (alloc_one i f (ft_pos f) h0 h1 g0 g1 w Hw Hi Eh Hh0 Hh1 Hs0 Hs1)
          as (w' & js & -> & -> & A1 & A2 & A3 & A4 & A5).
        { intros _. unfold own_cells. rewrite Em. by left. }
        { left. unfold own_cells. rewrite Em. by left. }
        exists w', [length (w_saddles w)]. split; [done|]. right.
        split; [rewrite ?Eh; cbn; lia|]. split; [done|]. split; [cbn [length]; lia|]. split; [done|].
        split; [intros _; congruence|]. split.
        * exists [(1, 0)%nat]. split; [apply one_piece_tree|done].
        * exists None. split; [by left|done].
      + assert (Hm : ft_multi f <> []) by (by rewrite Em).
        destruct (inner_path f g0 g1 Hw Eh Hm) as (a & b & mid & -> & Ha & Hb & Hmid). cbn [rbind].
        unfold as_pte at 1 2, as_mpoint; cbn [fst snd rbind].
        destruct (alloc_one i f mid.1 [a] [b] g0 g1 w Hw Hi Eh)
          as (w' & js & Hal & -> & A1 & A2 & A3 & A4 & A5); try done.
        { by intros z ->%elem_of_list_singleton. }
        { by intros z ->%elem_of_list_singleton. }
        { rewrite Eh. intros [?|?]; done. }
        assert (Ea : (pt_xy a, pt_e a) = a) by (by destruct a). assert (Eb : (pt_xy b, pt_e b) = b) by (by destruct b).
        rewrite Ea, Eb, Hal.
        exists w', [length (w_saddles w)]. split; [done|]. right.
        split; [rewrite ?Eh; cbn; lia|]. split; [done|]. split; [cbn [length]; lia|]. split; [done|].
        split; [intros _; congruence|]. split.
        * exists [(1, 0)%nat]. split; [apply one_piece_tree|done].
        * exists None. split; [by left|done].
    - rewrite <-Eh in *.
      destruct (children_ok near m f) as (rs & es & -> & Hst & Hsp).
      + by apply walkable_answered.
      + rewrite Eh. cbn. lia.
      + cbn [rbind]. destruct (alloc_children_spec i f rs es Hw Hsp w Hi)
          as (w' & js & -> & Hjs & Hlen & Hsb & He & Hpc & Hfr).
        exists w', js. split; [done|]. right.
        assert (Hl : length js = length rs) by (rewrite Hjs, seq_length; done).
        split; [rewrite Eh; cbn; lia|]. split; [by rewrite Hl|]. split; [by rewrite Hl|]. split; [done|].
        split; [intros E; rewrite (He E); done|]. split.
        * by exists es.
        * eexists. split; [|exact Hfr]. destruct (ft_edge f); auto.
  Qed.
End synth.
