(** Proofs about splitting saddles. *)
From Verif Require Import Tree_spec Network_model Raster_spec Closest_spec Feature_spec Network_spec
  Blob_proof Closest_proof Tree_proof Contig_proof Touch_proof Network_proof Analyze_proof Scan_proof Feature_facts Nodata_proof.
From Coq Require Import ZifyBool Lqa.
Local Open Scope nat_scope.

(** The network in exact arithmetic. *)
Section exact.
  Context (near : list xy -> xy -> nat) (m : datamap).
  Hypothesis Hnear : nearest_query near.

  Lemma network_tree hpn : 2 <= length hpn -> (forall g, g ∈ hpn -> g <> []) -> in_reach m hpn ->
    exists links es, build_internal_tree (exact_searches near) m hpn = Ok links /\
      Forall2 (joins m hpn) links es /\ spanning_tree (length hpn) es.
  Proof.
    intros Hn Hne Hr. exact (build_tree_spanning (true_distance m) _ m hpn (closest_members near m hpn Hnear Hne Hr) Hn).
  Qed.

  Lemma network_minimal hpn T : 2 <= length hpn -> (forall g, g ∈ hpn -> g <> []) -> in_reach m hpn ->
    (forall g h, g ∈ hpn -> h ∈ hpn -> length g + length h < 100 \/ square_pixels m) ->
    spanning_tree (length hpn) (map fst T) ->
    (forall i j p q, (i, j, (p, q)) ∈ T ->
       exists g h, hpn !! i = Some g /\ hpn !! j = Some h /\ p ∈ g /\ q ∈ h) ->
    exists links, build_internal_tree (exact_searches near) m hpn = Ok links /\
    dominated (fun l (t : (nat * nat) * (pte * pte)) =>
      (vl_d2 l <= distance2 m (pt_xy t.2.1) (pt_xy t.2.2))%Q) links T.
  Proof.
    intros Hn Hne Hr Hs HT Hm. destruct (network_tree hpn Hn Hne Hr) as (links & es & Hb & _).
    exists links. split; [done|]. exact (build_tree_minimal near m hpn Hnear Hne Hr Hn Hs T links Hb HT Hm).
  Qed.
End exact.

(** The searches answer for the saddle [f]. *)
Definition answered (near : searches) (m : datamap) (f : feature) : Prop :=
  pairs_found (fun _ _ _ => True) near m (ft_hpn f) /\
  forall tx ty, ft_multi f <> [] -> exists pos, s_member near tx ty (ft_multi f) = Ok pos /\ pos ∈ own_cells f.

Lemma exact_answered near m f : nearest_query near -> plain_head f ->
  (forall g, g ∈ ft_hpn f -> g <> []) -> in_reach m (ft_hpn f) -> answered (exact_searches near) m f.
Proof.
  intros Hn Hp Hne Hr. split.
  - intros us them Hus Hth. destruct (closest_members near m _ Hn Hne Hr us them Hus Hth) as (p & t & d2 & H1 & H2 & H3 & H4 & _).
    by exists p, t, d2.
  - intros tx ty Hm. unfold plain_head, own_cells in *. destruct (ft_multi f) as [|p l]; [done|].
    destruct (closestPoint_spec tx ty p l Hp) as (q & Eq & Hq & _). by exists q.
Qed.

Lemma sound_answered near m f : sound_searches near m -> plain_head f ->
  (forall g, g ∈ ft_hpn f -> g <> []) -> in_reach m (ft_hpn f) ->
  (forall g z, g ∈ ft_hpn f -> z ∈ g -> in_map m (pt_xy z)) -> (forall z, z ∈ ft_multi f -> in_map m z.1) ->
  answered near m f.
Proof.
  intros Hn Hp Hne Hr Hin Hm. split.
  - intros us them Hus Hth. destruct (ss_pair _ _ Hn us them) as (p & t & d2 & H1 & H2 & H3 & H4); [exact (fun p' Hp' => Hin us p' Hus Hp')|exact (fun t' Ht' => Hin them t' Hth Ht')|by apply Hne|by apply Hne| |].
    + intros p t Hp' Ht'. exact (Hr _ _ _ _ Hus Hth Hp' Ht').
    + by exists p, t, d2.
  - intros tx ty Hne'. unfold plain_head, own_cells in *. destruct (ft_multi f) as [|p l]; [done|]. by apply (ss_member _ _ Hn).
Qed.

Section split.
  Context (near : searches) (m : datamap).

  Lemma child_ok f l e : answered near m f -> link_joins (fun _ _ _ => True) (ft_hpn f) l e ->
    exists c, child_saddle near f l = Ok c /\ split_saddle f c e.
  Proof.
    intros Hp (Hne & g & h & p & q & Hg & Hh & Hpg & Hqh & Hr & Hl & _).
    unfold child_saddle. rewrite Hl, Hr.
    assert (Hpos : exists pos, (if decide (ft_multi f = []) then Ok (ft_pos f)
      else s_member near (inject_Z (pt_x q + pt_x p) / 2)%Q (inject_Z (pt_y q + pt_y p) / 2)%Q (ft_multi f)) = Ok pos /\
      pos ∈ own_cells f).
    { destruct (decide (ft_multi f = [])) as [E|E]; [|by apply Hp].
      exists (ft_pos f). split; [done|]. unfold own_cells. rewrite E. by apply elem_of_list_singleton. }
    destruct Hpos as (pos & Heq & Hin). cbn zeta. rewrite Heq. cbn [rbind].
    eexists. split; [reflexivity|]. exists pos, [q], [p], g, h. split_and!; try done.
    - by intros z ->%elem_of_list_singleton.
    - by intros z ->%elem_of_list_singleton.
  Qed.

  Lemma children_ok f : answered near m f -> 2 <= length (ft_hpn f) ->
    exists cs es, generate_child_saddles near m f = Ok cs /\
      spanning_tree (length (ft_hpn f)) es /\ Forall2 (split_saddle f) cs es.
  Proof.
    intros Hp Hn. destruct (build_tree_spanning _ near m (ft_hpn f) (proj1 Hp) Hn) as (links & es & Hb & Hj & Hs).
    unfold generate_child_saddles. rewrite Hb. cbn [rbind].
    enough (H : exists cs, mapM_res (child_saddle near f) links = Ok cs /\ Forall2 (split_saddle f) cs es).
    { destruct H as (cs & -> & H). by exists cs, es. }
    clear Hb Hs. induction Hj as [|l e links es Hl Hj IH]; cbn [mapM_res].
    - exists []. split; [done|constructor].
    - destruct (child_ok f l e Hp Hl) as (c & -> & Hc). destruct IH as (cs & -> & Hcs).
      exists (c :: cs). split; [done|by constructor].
  Qed.

  Lemma highest_sub g : g <> [] -> exists h, highest g = Ok h /\ h <> [] /\ forall z, z ∈ h -> z ∈ g.
  Proof.
    intros Hg. destruct (highest_spec g Hg) as (e & Hin & Hmax & Hh).
    eexists. split; [exact Hh|]. split.
    - destruct Hin as (z & Hz & Hze). intros Hn.
      assert (Hin : z ∈ filter (fun p : pte => pt_e p = e) g) by (by apply elem_of_list_filter).
      rewrite Hn in Hin. by apply elem_of_nil in Hin.
    - intros z Hz. by apply elem_of_list_filter in Hz as [_ ?].
  Qed.

  Lemma rebuild_one_ok f : answered near m f -> 2 <= length (ft_hpn f) ->
    (forall g, g ∈ ft_hpn f -> g <> []) ->
    exists out, rebuild_one near m f = Ok out /\ split_into f out.
  Proof.
    intros Hp Hn Hne. unfold rebuild_one.
    destruct (ft_hpn f) as [|g0 [|g1 [|g2 gs]]] eqn:Eh; [cbn in Hn; lia..| |].
    - destruct (highest_sub g0) as (h0 & -> & Hh0 & Hs0); [apply Hne; by left|].
      destruct (highest_sub g1) as (h1 & -> & Hh1 & Hs1); [apply Hne; by right; left|].
      cbn [rbind].
      assert (Hpos : exists pos, (if decide (ft_multi f = []) then Ok (ft_pos f)
           else
             let* c := s_pair near m g0 g1 in
             match cp_mine c, cp_theirs c with
             | Some a, Some b =>
                 s_member near (inject_Z (int_half (pt_x a + pt_x b)))
                              (inject_Z (int_half (pt_y a + pt_y b))) (ft_multi f)
             | _, _ => Err TypeError
             end) = Ok pos /\ pos ∈ own_cells f).
      { destruct (decide (ft_multi f = [])) as [E|E].
        - exists (ft_pos f). split; [done|]. unfold own_cells. rewrite E. by apply elem_of_list_singleton.
        - destruct (proj1 Hp g0 g1) as (p & t & d2 & -> & _); [rewrite Eh; by left|rewrite Eh; by right; left|].
          cbn [rbind cp_mine cp_theirs]. by apply Hp. }
      destruct Hpos as (pos & -> & Hin). cbn [rbind]. eexists. split; [reflexivity|].
      exists [New pos (ft_ele f) [h0; h1] (if ft_edge f then Some f else None)], [(1, 0)].
      split; [done|]. rewrite Eh. split.
      + split_and!; [done| |].
        * intros a b Hab%elem_of_list_singleton. injection Hab as -> ->. cbn. lia.
        * assert (H01 : joined [(1, 0)] 1 0) by (apply joined_edge; by left).
          intros a b Ha Hb. destruct a as [|[|a]]; [| |cbn in Ha; lia]; (destruct b as [|[|b]]; [| |cbn in Hb; lia]);
            first [apply joined_refl|done|by apply joined_sym].
      + constructor; [|constructor]. exists pos, h0, h1, g1, g0. rewrite Eh. split_and!; done.
    - rewrite <-Eh in *. destruct (children_ok f Hp Hn) as (cs & es & -> & Hs & Hf).
      cbn [rbind]. eexists. split; [reflexivity|]. by exists cs, es.
  Qed.

  Lemma rebuildSaddles_ok fs :
    (forall f, f ∈ fs -> answered near m f /\ 2 <= length (ft_hpn f) /\
       (forall g, g ∈ ft_hpn f -> g <> [])) ->
    exists parts, rebuildSaddles near m fs = Ok (concat parts) /\ Forall2 split_into fs parts.
  Proof.
    intros H. unfold rebuildSaddles.
    destruct (mapM_res_ok (rebuild_one near m) split_into fs) as (parts & -> & Hf).
    - intros f Hf. destruct (H f Hf) as (H1 & H2 & H3). by apply rebuild_one_ok.
    - by exists parts.
  Qed.
  (** Any container: saddles with fewer than two groups stay as they are. *)
  Lemma rebuild_any fs :
    (forall f, f ∈ fs -> 2 <= length (ft_hpn f) ->
       answered near m f /\ (forall g, g ∈ ft_hpn f -> g <> [])) ->
    exists parts, rebuildSaddles near m fs = Ok (concat parts) /\
      Forall2 (fun f out => (length (ft_hpn f) < 2 /\ out = [Kept f false]) \/
                            (2 <= length (ft_hpn f) /\ split_into f out)) fs parts.
  Proof.
    intros H. unfold rebuildSaddles.
    assert (exists parts, mapM_res (rebuild_one near m) fs = Ok parts /\
      Forall2 (fun f out => (length (ft_hpn f) < 2 /\ out = [Kept f false]) \/
                            (2 <= length (ft_hpn f) /\ split_into f out)) fs parts) as (parts & E & F).
    { induction fs as [|f fs IH]; [by exists []|].
      destruct IH as (parts & E & F); [intros g Hg; apply H; by right|].
      assert (exists out, rebuild_one near m f = Ok out /\ ((length (ft_hpn f) < 2 /\ out = [Kept f false]) \/
                            (2 <= length (ft_hpn f) /\ split_into f out))) as (out & Eo & Ho).
      { destruct (decide (2 <= length (ft_hpn f))) as [Hl|Hl].
        - destruct (H f (elem_of_list_here _ _) Hl) as (H1 & H3).
          destruct (rebuild_one_ok f H1 Hl H3) as (out & Eo & Ho). exists out. auto.
        - unfold rebuild_one. destruct (ft_hpn f) as [|g0 [|g1 gs]]; cbn in *; [|  |lia];
            (eexists; split; [done|left; split; [lia|done]]). }
      exists (out :: parts). split; [|by constructor]. cbn [mapM_res]. rewrite Eo. cbn [rbind]. by rewrite E. }
    exists parts. by rewrite E.
  Qed.
End split.

(** Saddles found by discovery are fit for splitting. *)
Lemma area_plain_head m p fs f : area_result m p fs -> f ∈ fs -> ft_kind f = KSaddle -> plain_head f.
Proof.
  intros H Hf Hk.
  assert (Hcells : exists multi extra, ft_multi f = multi ++ extra /\ (multi = [] -> extra = []) /\
    area_cells m p multi).
  { destruct H as
    [pos multi Hpos Hcells Hr Hb
    |pos multi epts Hpos Hcells Hr Hb He
    |pos multi hp Hpos Hcells Hc Hhp Hb
    |pos multi epts hp ring lower Hpos Hcells Hc Hhp Hb He Hring Hlow Hlen
    |pos multi hp ring lower borders drained runoffs multi' rest Hpos Hcells Hc Hhp Hb Hring
       Hlow Hlen Hborders Hdr Hrun Hmulti Hrest].
    - apply elem_of_list_singleton in Hf as ->. done.
    - apply elem_of_cons in Hf as [->|Hf]; [done|]. apply elem_of_list_singleton in Hf as ->. done.
    - destruct (decide _); [|by apply elem_of_nil in Hf]. apply elem_of_list_singleton in Hf as ->.
      exists multi, []. by rewrite app_nil_r.
    - destruct (decide _); [|by apply elem_of_nil in Hf]. apply elem_of_list_singleton in Hf as ->.
      exists multi, []. by rewrite app_nil_r.
    - apply elem_of_app in Hf as [Hf|Hf].
      + exfalso. apply elem_of_list_lookup in Hf as [i Hi].
        destruct (Forall2_lookup_r _ _ _ _ _ Hrun Hi) as (g & _ & mid & _ & Hkr & _). congruence.
      + destruct Hmulti as (extra & -> & Hex & _).
        destruct (decide _); [|by apply elem_of_nil in Hf]. apply elem_of_list_singleton in Hf as ->.
        exists multi, extra. by destruct (decide _). }
  destruct Hcells as (multi & extra & Heq & Hex & Hcells). unfold plain_head. rewrite Heq.
  destruct multi as [|z multi]; [by rewrite (Hex eq_refl)|]. cbn.
  eapply area_cells_plain; [exact Hcells|]. by left.
Qed.

(** The cells of a feature are on the map. *)
Lemma area_cells_map m p multi : area_cells m p multi -> forall z, z ∈ multi -> in_map m z.1.
Proof.
  intros [[-> _]|[[_ H] _]] z Hz; [by apply elem_of_nil in Hz|]. apply H in Hz as [_ Hz]. by destruct (same_flat_data_r _ _ _ Hz).
Qed.
Lemma area_in_map m p fs f : area_result m p fs -> f ∈ fs -> forall z, z ∈ ft_multi f -> in_map m z.1.
Proof.
  intros H Hf. destruct H as
    [pos multi Hpos Hcells Hr Hb
    |pos multi epts Hpos Hcells Hr Hb He
    |pos multi hp Hpos Hcells Hc Hhp Hb
    |pos multi epts hp ring lower Hpos Hcells Hc Hhp Hb He Hring Hlow Hlen
    |pos multi hp ring lower borders drained runoffs multi' rest Hpos Hcells Hc Hhp Hb Hring
       Hlow Hlen Hborders Hdr Hrun Hmulti Hrest]; pose proof (area_cells_map _ _ _ Hcells) as Hin.
  - apply elem_of_list_singleton in Hf as ->. done.
  - apply elem_of_cons in Hf as [->|Hf]; [done|]. apply elem_of_list_singleton in Hf as ->. done.
  - destruct (decide _); [|by apply elem_of_nil in Hf]. apply elem_of_list_singleton in Hf as ->. done.
  - destruct (decide _); [|by apply elem_of_nil in Hf]. apply elem_of_list_singleton in Hf as ->. done.
  - apply elem_of_app in Hf as [Hf|Hf].
    + apply elem_of_list_lookup in Hf as [i Hi].
      destruct (Forall2_lookup_r _ _ _ _ _ Hrun Hi) as (g & _ & mid & _ & _ & _ & _ & -> & _). intros z Hz. by apply elem_of_nil in Hz.
    + assert (Hm : forall z, z ∈ multi' -> in_map m z.1).
      { destruct Hmulti as (extra & -> & _ & Hex). intros z [Hz|Hz]%elem_of_app; [by apply Hin|].
        destruct (Hex z Hz) as (q & Hq & ->). cbn. apply Hq. }
      destruct (decide _); [|by apply elem_of_nil in Hf]. destruct (decide _); by apply elem_of_list_singleton in Hf as ->.
Qed.

Lemma saddles_fit fp orc m : map_ok m -> paths_found fp m ->
  exists su sa ru, analyze fp orc m = Ok (su, sa, ru) /\
    forall f, f ∈ sa -> plain_head f /\ forall z, z ∈ ft_multi f -> in_map m z.1.
Proof.
  intros Hok Hp. destruct (analyze_all_spec fp orc m Hok Hp) as (areas & Ha & Hr & _ & _).
  unfold analyze. rewrite Ha. cbn [rbind]. eexists _, _, _. split; [reflexivity|].
  intros f Hf. apply elem_of_list_filter in Hf as [Hk Hf].
  apply elem_of_list_In, in_concat in Hf as (fs & Hfs & Hf).
  apply in_map_iff in Hfs as ([p fs'] & <- & Hin). cbn in Hf.
  split.
  - eapply area_plain_head; [apply Hr; by apply elem_of_list_In|by apply elem_of_list_In|done].
  - eapply area_in_map; [apply Hr; by apply elem_of_list_In|by apply elem_of_list_In].
Qed.

Lemma run_rebuild_ok fp orc near m : map_ok m -> paths_found fp m -> sound_searches near m -> map_in_reach m ->
  exists su sa ru parts, analyze fp orc m = Ok (su, sa, ru) /\
    run_rebuild fp orc near m = Ok (su, concat parts, ru ++ map (fun c : xy =>
      Feat KRunoff c (elev m c) [] true [(c, elev m c)] [])
      [(dm_max_x m, 0%Z); (dm_max_x m, dm_max_y m); (0%Z, 0%Z); (0%Z, dm_max_y m)]) /\
    Forall2 split_into sa parts /\
    forall i f out, sa !! i = Some f -> parts !! i = Some out ->
      exists p, data_cell m p /\ two_sided m p /\ stands_for m p f /\ components (rim m p) (ft_hpn f) /\
      (~ on_edge m p -> forall pos e h c, New pos e h c ∈ out -> same_flat m p pos /\ e = elev m pos).
Proof.
  intros Hok Hp Hnear Hreach.
  destruct (saddles_exact fp orc m Hok Hp) as (su & sa & ru & Ha & Hsa & _).
  destruct (run_corners fp orc m Hok Hp) as (su1 & sa1 & ru1 & Ha1 & Hrun).
  rewrite Ha in Ha1. injection Ha1 as <- <- <-.
  destruct (saddles_fit fp orc m Hok Hp) as (su1 & sa1 & ru1 & Ha1 & Hfit).
  rewrite Ha in Ha1. injection Ha1 as <- <- <-.
  unfold run_rebuild. rewrite Hrun. cbn [rbind].
  destruct (rebuildSaddles_ok near m sa) as (parts & Hparts & Hf2).
  { intros f Hf. destruct (Hsa f Hf) as (p & Hd & Htwo & Hst & Hc & _). destruct (Hfit f Hf) as [Hfp Hfm].
    assert (Hin : forall g z, g ∈ ft_hpn f -> z ∈ g -> in_map m (pt_xy z)).
    { intros g z Hg Hz. assert (Hr : rim m p z). { apply (comp_all _ _ Hc). apply elem_of_list_In, in_concat. exists g.
          split; by apply elem_of_list_In. }
      apply Hr. }
    split_and!.
    - apply sound_answered; [done|done|apply (comp_nonempty _ _ Hc)| |done|done].
      intros g h a b Hg Hh Hag Hbh. apply Hreach; eauto.
    - by apply (components_two _ _ _ Hc).
    - apply (comp_nonempty _ _ Hc). }
  rewrite Hparts. cbn [rbind]. exists su, sa, ru, parts. split_and!; try done.
  intros i f out Hi Ho. pose proof (elem_of_list_lookup_2 _ _ _ Hi) as Hf.
  destruct (Hsa f Hf) as (p & Hd & Htwo & Hst & Hc & Hex). exists p. split_and!; try done.
  intros Hne pos e h c Hnew. specialize (Hex Hne).
  destruct (Forall2_lookup_lr _ _ _ _ _ _ Hf2 Hi Ho) as (news & es & -> & _ & Hsp).
  apply elem_of_app in Hnew as [Hnew|Hnew].
  2:{ destruct (ft_edge f); [|by apply elem_of_nil in Hnew]. by apply elem_of_list_singleton in Hnew. }
  apply elem_of_list_lookup in Hnew as [k Hk].
  destruct (Forall2_lookup_l _ _ _ _ _ Hsp Hk) as (ed & _ & pos' & ga & gb & g & h' & Heq & Hpos & _).
  injection Heq as <- -> _ _.
  assert (Hcov : covers f pos).
  { unfold own_cells in Hpos. unfold covers. destruct (ft_multi f) as [|z l] eqn:E.
    - left. split; [done|]. by apply elem_of_list_singleton in Hpos.
    - right. apply elem_of_list_fmap in Hpos as (w & -> & Hw). rewrite <-E in Hw |- *.
      pose proof (ex_plain _ _ _ Hex w Hw) as Hn. destruct w as [w o]. cbn in *. by subst o. }
  apply (sf_cells _ _ _ Hst) in Hcov. split; [done|].
  rewrite (sf_ele _ _ _ Hst). clear -Hcov. induction Hcov as [|b c _ IH Hc [_ Hbc]]; [done|]. congruence.
Qed.
