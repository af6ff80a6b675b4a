(** Where new saddles are placed. *)
From Verif Require Import Tree_spec Base_model Network_model Closest_model Closest_spec Closest_proof Feature_spec Network_spec
  Network_proof Tree_proof Contig_proof Blob_proof Rebuild_proof Touch_proof Analyze_proof Scan_proof Feature_facts Nodata_proof Placed_spec Raster_spec.
From Coq Require Import ZifyBool Lqa.
Local Open Scope Z_scope.

(** The searches find near points for the saddle [f], for coordinates below [B]. *)
Record placing (B : Z) (close : list pte -> list pte -> pte -> pte -> Prop) (near : searches) (m : datamap) (f : feature) : Prop := {
  pl_pair : forall g0 g1, ft_hpn f = [g0; g1] -> exists a b d2,
    s_pair near m g0 g1 = Ok (CP (Some a) (Some b) d2) /\ a ∈ g0 /\ b ∈ g1 /\ close g0 g1 a b;
  pl_member : forall k l tx ty, 0 <= k < 2 * B -> 0 <= l < 2 * B -> (tx == k # 2)%Q -> (ty == l # 2)%Q -> ft_multi f <> [] ->
    exists pos, s_member near tx ty (ft_multi f) = Ok pos /\ nearest_own f tx ty pos;
  pl_cells : forall g z, g ∈ ft_hpn f -> z ∈ g -> 0 <= pt_x z < B /\ 0 <= pt_y z < B }.

Section placing.
  Context (B : Z) (close : list pte -> list pte -> pte -> pte -> Prop) (near : searches) (m : datamap).

  Lemma away_comp tx tx' ty ty' p : (tx == tx')%Q -> (ty == ty')%Q -> (away2 tx ty p == away2 tx' ty' p)%Q.
  Proof. intros E1 E2. unfold away2. by rewrite E1, E2. Qed.
  Lemma nearest_comp f tx tx' ty ty' p : (tx == tx')%Q -> (ty == ty')%Q -> nearest_own f tx ty p -> nearest_own f tx' ty' p.
  Proof.
    intros E1 E2 [H1 H2]. split; [done|]. intros q Hq. rewrite <- !(away_comp tx tx' ty ty') by done. by apply H2.
  Qed.
  Lemma nearest_single f tx ty : ft_multi f = [] -> nearest_own f tx ty (ft_pos f).
  Proof.
    intros E. unfold nearest_own, own_cells. rewrite E. split; [by apply elem_of_list_singleton|].
    intros q ->%elem_of_list_singleton. apply Qle_refl.
  Qed.

  Lemma half_middle a b : (inject_Z (a + b) / 2 == middle a b)%Q.
  Proof. unfold middle, Qdiv, Qeq, Qmult, Qinv, inject_Z; cbn [Qnum Qden]. lia. Qed.

  (** Links join points of the groups. *)
  Lemma child_placed f l c a b g h : placing B close near m f -> vl_local l = Some a -> vl_remote l = Some b ->
    g ∈ ft_hpn f -> h ∈ ft_hpn f -> a ∈ g -> b ∈ h ->
    child_saddle near f l = Ok c -> forall pos e hp co, c = New pos e hp co ->
    hp = [[a]; [b]] /\ nearest_own f (middle (pt_x a) (pt_x b)) (middle (pt_y a) (pt_y b)) pos.
  Proof.
    intros Hp Ha Hb Hg Hh Hag Hbh Hc pos e hp co ->. unfold child_saddle in Hc. rewrite Ha, Hb in Hc. cbv zeta in Hc.
    destruct (pl_cells _ _ _ _ _ Hp g a Hg Hag) as [A1 A2]. destruct (pl_cells _ _ _ _ _ Hp h b Hh Hbh) as [B1 B2].
    destruct (decide (ft_multi f = [])) as [E|E].
    - cbn [rbind] in Hc. injection Hc as <- <- <- <-. split; [done|]. by apply nearest_single.
    - destruct (pl_member _ _ _ _ _ Hp (pt_x a + pt_x b) (pt_y a + pt_y b) (inject_Z (pt_x a + pt_x b) / 2) (inject_Z (pt_y a + pt_y b) / 2))
        as (pos' & Em & Hn); [lia|lia|apply half_middle|apply half_middle|done|].
      rewrite Em in Hc. cbn [rbind] in Hc. injection Hc as <- <- <- <-. split; [done|].
      eapply nearest_comp; [apply half_middle|apply half_middle|done].
  Qed.

  Lemma tops_of g h : g <> [] -> highest g = Ok h -> tops g h.
  Proof.
    intros Hg Hh. destruct (highest_sub g Hg) as (h' & E & Hne & _). assert (h' = h) as -> by congruence.
    destruct (highest_spec g Hg) as (e & (w & Hw & Hwe) & Hmax & Hh'). rewrite Hh in Hh'. injection Hh' as ->.
    split; [done|]. intros z. rewrite elem_of_list_filter. split.
    - intros [Hz Hzg]. split; [done|]. intros w' Hw'. pose proof (Hmax w' Hw'). lia.
    - intros [Hzg Hz]. split; [|done]. pose proof (Hmax z Hzg). pose proof (Hz w Hw). lia.
  Qed.

  Lemma rebuild_placed f out : placing B close near m f -> answered near m f -> (2 <= length (ft_hpn f))%nat -> (forall g, g ∈ ft_hpn f -> g <> []) ->
    rebuild_one near m f = Ok out -> placed close f out.
  Proof.
    intros Hp Ha Hn Hne Hr pos e h c Hin. unfold rebuild_one in Hr.
    destruct (ft_hpn f) as [|g0 [|g1 [|g2 gs]]] eqn:Eh; [cbn in Hn; lia..| |].
    - destruct (highest g0) as [h0|] eqn:E0; [|done]. destruct (highest g1) as [h1|] eqn:E1; [|done]. cbn [rbind] in Hr.
      assert (Hpos : exists p, Ok p = (if decide (ft_multi f = []) then Ok (ft_pos f)
           else
             let* c := s_pair near m g0 g1 in
             match cp_mine c, cp_theirs c with
             | Some a, Some b =>
                 s_member near (inject_Z (int_half (pt_x a + pt_x b)))
                              (inject_Z (int_half (pt_y a + pt_y b))) (ft_multi f)
             | _, _ => Err TypeError
             end) /\ ((ft_multi f = [] /\ p = ft_pos f) \/ exists a b, close g0 g1 a b /\
           nearest_own f (middle_down (pt_x a) (pt_x b)) (middle_down (pt_y a) (pt_y b)) p)).
      { destruct (decide (ft_multi f = [])) as [E|E]; [exists (ft_pos f); split; [done|by left]|].
        destruct (pl_pair _ _ _ _ _ Hp g0 g1 Eh) as (a & b & d2 & -> & Ha0 & Hb1 & Hc). cbn [rbind cp_mine cp_theirs].
        destruct (pl_cells _ _ _ _ _ Hp g0 a) as [A1 A2]; [rewrite Eh; by left|done|].
        destruct (pl_cells _ _ _ _ _ Hp g1 b) as [B1 B2]; [rewrite Eh; right; by left|done|].
        unfold int_half. rewrite !Z.quot_div_nonneg by lia.
        pose proof (Z.div_mod (pt_x a + pt_x b) 2 ltac:(lia)). pose proof (Z.mod_pos_bound (pt_x a + pt_x b) 2 ltac:(lia)).
        pose proof (Z.div_mod (pt_y a + pt_y b) 2 ltac:(lia)). pose proof (Z.mod_pos_bound (pt_y a + pt_y b) 2 ltac:(lia)).
        destruct (pl_member _ _ _ _ _ Hp (2 * ((pt_x a + pt_x b) / 2)) (2 * ((pt_y a + pt_y b) / 2)) (inject_Z ((pt_x a + pt_x b) / 2)) (inject_Z ((pt_y a + pt_y b) / 2)))
          as (pos' & -> & Hnear); [lia|lia| | |done|].
        - unfold Qeq, inject_Z; cbn [Qnum Qden]. lia.
        - unfold Qeq, inject_Z; cbn [Qnum Qden]. lia.
        - exists pos'. split; [done|]. right. by exists a, b. }
      destruct Hpos as (p & Ep & Hpos). rewrite <- Ep in Hr. cbn [rbind] in Hr. injection Hr as <-.
      apply elem_of_cons in Hin as [Hin|Hin]; [|destruct (ft_edge f); [by apply elem_of_list_singleton in Hin|by apply elem_of_nil in Hin]].
      injection Hin as -> -> -> ->. split; [|done]. exists h0, h1. split; [done|].
      split; (apply tops_of; [apply Hne|done]); [by left|right; by left].
    - destruct (generate_child_saddles near m f) as [cs|] eqn:Eg; [|done]. cbn [rbind] in Hr. injection Hr as <-.
      apply elem_of_app in Hin as [Hin|Hin]; [|destruct (ft_edge f); [by apply elem_of_list_singleton in Hin|by apply elem_of_nil in Hin]].
      rewrite <- Eh in Hn. destruct (build_tree_spanning _ near m (ft_hpn f) (proj1 Ha) Hn) as (links & es & Hb & Hj & _).
      unfold generate_child_saddles in Eg. rewrite Hb in Eg. cbn [rbind] in Eg. clear Hb Hn Hne.
      revert cs Eg Hin. induction Hj as [|l ed links es Hl Hj IH]; intros cs Eg Hin; cbn [mapM_res] in Eg.
      + injection Eg as <-. by apply elem_of_nil in Hin.
      + destruct (child_saddle near f l) as [c0|] eqn:Ec; [|done]. cbn [rbind] in Eg.
        destruct (mapM_res (child_saddle near f) links) as [cs'|] eqn:Em; [|done]. cbn [rbind] in Eg. injection Eg as <-.
        apply elem_of_cons in Hin as [<-|Hin]; [|by eapply IH].
        destruct Hl as (_ & g & hh & p & q & Hg & Hh & Hpg & Hqh & Hr & Hlo & _).
        exists q, p. eapply (child_placed f l _ q p hh g); try done; by eapply elem_of_list_lookup_2.
  Qed.

  Lemma rebuilt_placed fs out :
    (forall f, f ∈ fs -> placing B close near m f /\ answered near m f /\ (2 <= length (ft_hpn f))%nat /\ (forall g, g ∈ ft_hpn f -> g <> [])) ->
    rebuildSaddles near m fs = Ok out -> exists parts, out = concat parts /\ Forall2 (placed close) fs parts.
  Proof.
    intros Hf. unfold rebuildSaddles. destruct (mapM_res (rebuild_one near m) fs) as [parts|] eqn:E; [|done]. cbn [rbind].
    intros [= <-]. exists parts. split; [done|]. revert parts E. induction fs as [|f fs IH]; intros parts E; cbn [mapM_res] in E.
    - injection E as <-. constructor.
    - destruct (rebuild_one near m f) as [o|] eqn:E1; [|done]. cbn [rbind] in E.
      destruct (mapM_res _ fs) as [os|] eqn:E2; [|done]. cbn [rbind] in E. injection E as <-.
      constructor; [|apply IH; [intros f' Hf'; apply Hf; by right|done]].
      destruct (Hf f (elem_of_list_here _ _)) as (H1 & H2 & H3 & H4). by apply rebuild_placed.
  Qed.
End placing.

(** In exact arithmetic, for the saddles found by discovery. *)
Lemma exact_placing B near m f : nearest_query near -> plain_head f -> (forall g, g ∈ ft_hpn f -> g <> []) -> in_reach m (ft_hpn f) ->
  (forall g z, g ∈ ft_hpn f -> z ∈ g -> 0 <= pt_x z < B /\ 0 <= pt_y z < B) ->
  placing B (closest_in m) (exact_searches near) m f.
Proof.
  intros Hn Hp Hne Hr Hc. split; [| |done].
  - intros g0 g1 E. assert (H0 : g0 ∈ ft_hpn f) by (rewrite E; by left). assert (H1 : g1 ∈ ft_hpn f) by (rewrite E; right; by left).
    destruct (closest_members near m _ Hn Hne Hr g0 g1 H0 H1) as (p & t & d2 & E' & Hp0 & Ht1 & _).
    exists p, t, d2. split; [done|]. split; [done|]. split; [done|]. split; [done|]. split; [done|]. intros Hs.
    destruct (find_closest_spec near m g0 g1 p t Hn Hp0 Ht1) as (p' & t' & E2 & _ & _ & Hmin); [exact (Hr _ _ _ _ H0 H1 Hp0 Ht1)|done|].
    cbn [s_pair exact_searches] in E'. rewrite E2 in E'. injection E' as -> -> _. exact Hmin.
  - intros k l tx ty _ _ _ _ Hm. unfold plain_head, nearest_own, own_cells in *. destruct (ft_multi f) as [|p0 pts]; [done|].
    exact (closestPoint_spec tx ty p0 pts Hp).
Qed.

Lemma run_placed B (close : list pte -> list pte -> pte -> pte -> Prop) fp orc near m :
  map_ok m -> paths_found fp m -> sound_searches near m -> map_in_reach m ->
  (forall f, plain_head f -> (forall g, g ∈ ft_hpn f -> g <> []) -> (forall g z, g ∈ ft_hpn f -> z ∈ g -> in_map m (pt_xy z)) ->
     (forall z, z ∈ ft_multi f -> in_map m z.1) -> placing B close near m f) ->
  exists su sa ru parts ru', analyze fp orc m = Ok (su, sa, ru) /\ run_rebuild fp orc near m = Ok (su, concat parts, ru') /\
    Forall2 (placed close) sa parts.
Proof.
  intros Hok Hp Hnear Hreach Hpl.
  destruct (saddles_exact fp orc m Hok Hp) as (su & sa & ru & Ha & Hsa & _).
  destruct (saddles_fit fp orc m Hok Hp) as (su1 & sa1 & ru1 & Ha1 & Hfit). rewrite Ha in Ha1. injection Ha1 as <- <- <-.
  destruct (run_corners fp orc m Hok Hp) as (su1 & sa1 & ru1 & Ha1 & Hrun). rewrite Ha in Ha1. injection Ha1 as <- <- <-.
  assert (Hall : forall f, f ∈ sa -> placing B close near m f /\ answered near m f /\ (2 <= length (ft_hpn f))%nat /\ (forall g, g ∈ ft_hpn f -> g <> [])).
  { intros f Hf. destruct (Hsa f Hf) as (p & Hd & Htwo & Hst & Hc & _). destruct (Hfit f Hf) as [Hfp Hfm].
    assert (Hin : forall g z, g ∈ ft_hpn f -> z ∈ g -> in_map m (pt_xy z)).
    { intros g z Hg Hz. assert (Hr : rim m p z). { apply (comp_all _ _ Hc). apply elem_of_list_In, in_concat. exists g.
          split; by apply elem_of_list_In. }
      apply Hr. }
    split_and!.
    - apply Hpl; [done|apply (comp_nonempty _ _ Hc)|done|done].
    - apply sound_answered; [done|done|apply (comp_nonempty _ _ Hc)| |done|done].
      intros g h a b Hg Hh Hag Hbh. apply Hreach; eauto.
    - by apply (components_two _ _ _ Hc).
    - apply (comp_nonempty _ _ Hc). }
  destruct (rebuildSaddles_ok near m sa) as (parts & Hparts & _); [intros f Hf; by destruct (Hall f Hf)|].
  destruct (rebuilt_placed B close near m sa _ Hall Hparts) as (parts' & Eq & Hpp).
  unfold run_rebuild. rewrite Hrun. cbn [rbind]. rewrite Hparts. cbn [rbind]. rewrite Eq. by eexists su, sa, ru, parts', _.
Qed.
