(** The walk depends on the order of the elevations and the slopes only. *)
From Verif Require Import Network_model Walk_model Feature_spec Climb_spec Raster_proof Basin_model Basin_spec Relief_spec Relief_proof
  Heights_spec Heights_proof Datum_spec Datum_climb Datum_net Raster_spec.
From Coq Require Import ZifyBool.
Local Open Scope Z_scope.

Section walk.
  Context (fpath : datamap -> list mpoint -> mpoint -> mpoint -> option pathinfo) (near : searches).
  Context (m1 m2 : datamap) (Hs : same_relief m1 m2) (Hsl : same_slopes m1 m2).
  Context (L1 : nodata_low m1) (L2 : nodata_low m2) (Hn : blind_searches near m1 m2) (Hp : blind_paths fpath m1 m2).
  Local Notation pt := (Relief_proof.pt m1 m2).
  Local Notation pts := (Relief_proof.pts m1 m2).
  Local Notation mpt := (Relief_proof.mpt m1 m2).
  Local Notation fw := (Datum_net.fw m1 m2).

  Lemma elev_order p q : in_map m1 p -> in_map m1 q -> (elev m1 p < elev m1 q <-> elev m2 p < elev m2 q).
  Proof.
    intros Ip Iq. assert (forall r, in_map m1 r -> in_map m2 r) as I2.
    { intros r. unfold in_map. by rewrite (sr_x _ _ Hs), (sr_y _ _ Hs). }
    assert (forall r, in_map m1 r -> ~ data_cell m1 r -> dm_nodata m1 = Some (elev m1 r) /\ dm_nodata m2 = Some (elev m2 r)) as Nd.
    { intros r Ir Nr. split.
      - destruct (decide (dm_nodata m1 = Some (elev m1 r))); [done|]. by destruct Nr.
      - destruct (decide (dm_nodata m2 = Some (elev m2 r))); [done|]. destruct Nr. apply (sr_data _ _ Hs). split; [by apply I2|done]. }
    destruct (decide (data_cell m1 p)) as [Dp|Np], (decide (data_cell m1 q)) as [Dq|Nq].
    - by apply Hs.
    - destruct (Nd q Iq Nq) as [N1 N2]. pose proof (L1 _ _ N1 Dp). pose proof (L2 _ _ N2 (proj1 (sr_data _ _ Hs p) Dp)). lia.
    - destruct (Nd p Ip Np) as [N1 N2]. pose proof (L1 _ _ N1 Dq). pose proof (L2 _ _ N2 (proj1 (sr_data _ _ Hs q) Dq)). lia.
    - destruct (Nd q Iq Nq) as [N1 N2], (Nd p Ip Np) as [N3 N4]. rewrite N1 in N3. rewrite N2 in N4. injection N3 as ->. injection N4 as ->. lia.
  Qed.
  Lemma eles_order a a' b b' : eles m1 m2 a a' -> eles m1 m2 b b' -> (a < b <-> a' < b').
  Proof. intros (p & Ip & -> & ->) (q & Iq & -> & ->). by apply elev_order. Qed.

  (** *** Objects *)
  Record sdr (s s' : saddle) : Prop := {
    sd_feat : fw (sa_feat s) (sa_feat s');
    sd_links : sa_links s = sa_links s';
    sd_parent : sa_parent s = sa_parent s';
    sd_children : sa_children s = sa_children s';
    sd_single : sa_single s = sa_single s';
    sd_basin : sa_basin s = sa_basin s';
    sd_alts : sa_alts s = sa_alts s';
    sd_over : sa_over s = sa_over s' }.
  Record smr (s s' : summit) : Prop := {
    sm_feat : fw (su_feat s) (su_feat s');
    sm_links : su_links s = su_links s';
    sm_domain : su_domain s = su_domain s' }.
  Record wr (w w' : world) : Prop := {
    wr_saddles : Forall2 sdr (w_saddles w) (w_saddles w');
    wr_summits : Forall2 smr (w_summits w) (w_summits w');
    wr_links : w_links w = w_links w' }.
  Lemma at_saddle w w' i : wr w w' -> orel sdr (w_saddles w !! i) (w_saddles w' !! i).
  Proof. intros W. apply Forall2_at, W. Qed.
  Lemma at_summit w w' i : wr w w' -> orel smr (w_summits w !! i) (w_summits w' !! i).
  Proof. intros W. apply Forall2_at, W. Qed.
  Lemma ele_wr w w' n : wr w w' -> there w n -> eles m1 m2 (ele_at w n) (ele_at w' n).
  Proof.
    intros W Hn0. destruct n as [i|a]; cbn in *.
    - pose proof (at_saddle _ _ i W) as H. destruct (w_saddles w !! i) eqn:E.
      + destruct (w_saddles w' !! i); [|done]. apply H.
      + apply lookup_ge_None in E. lia.
    - pose proof (at_summit _ _ a W) as H. destruct (w_summits w !! a) eqn:E.
      + destruct (w_summits w' !! a); [|done]. apply H.
      + apply lookup_ge_None in E. lia.
  Qed.
  Lemma wr_heights w w' : wr w w' -> same_heights w w'.
  Proof.
    intros W. split.
    - eapply Forall2_impl; [apply W|]. intros s s' [F ? ? ? ? ? ? ?]. unfold like_saddle. rewrite (w_pos _ _ _ _ F), (w_edge _ _ _ _ F). done.
    - eapply Forall2_impl; [apply W|]. intros s s' [F ? ?]. unfold like_summit. rewrite (w_pos _ _ _ _ F), (w_edge _ _ _ _ F). done.
    - apply W.
    - intros a b Ha Hb. by apply eles_order; apply ele_wr.
  Qed.
  Lemma upd_wr w w' i f f' : wr w w' -> (forall s s', sdr s s' -> sdr (f s) (f' s')) -> wr (upd_saddle i f w) (upd_saddle i f' w').
  Proof. intros W Hf. split; cbn; [|apply W..]. apply Forall2_alter; [apply W|]. intros. by apply Hf. Qed.
  Lemma upd_su_wr w w' i f f' : wr w w' -> (forall s s', smr s s' -> smr (f s) (f' s')) -> wr (upd_summit i f w) (upd_summit i f' w').
  Proof. intros W Hf. split; cbn; [apply W| |apply W]. apply Forall2_alter; [apply W|]. intros. by apply Hf. Qed.

  (** *** Shortest internal paths *)
  Definition pr (p p' : pathinfo) : Prop := Forall2 mpt p.1 p'.1 /\ p.2 = p'.2.
  Lemma as_mpt z z' : pt z z' -> mpt (as_mpoint z) (as_mpoint z').
  Proof. destruct z as [p e], z' as [p' e']. intros H. pose proof (pt_xy_eq _ _ _ _ H) as E. cbn in E. subst p'. by split. Qed.
  Lemma path_alike ns ns' a a' b b' : Forall2 mpt ns ns' -> mpt a a' -> mpt b b' -> a ∈ ns -> b ∈ ns ->
    orel pr (fpath m1 ns a b) (fpath m2 ns' a' b').
  Proof.
    intros Hns Ha Hb Ia Ib. apply mpts_true in Hns as [Hns ->]. apply mpt_true in Ha as [_ ->], Hb as [_ ->].
    destruct (Hp ns a b Hns Ia Ib) as [-> Hin]. destruct (fpath m1 ns a b) as [p|]; [|done]. cbn. split; [|done]. cbn.
    apply mpts_true. split; [|done]. rewrite Forall_forall in Hns |- *. intros z Hz. apply Hns. by eapply Hin.
  Qed.
  Lemma latlon_eq f f' : fw f f' -> ft_latlon m1 f = ft_latlon m2 f'.
  Proof. intros F. unfold ft_latlon, xy_to_latlon. by rewrite (w_pos _ _ _ _ F), (ss_gt _ _ Hsl). Qed.
  Lemma toxy_eq a b : latlong_to_xy m1 a b = latlong_to_xy m2 a b.
  Proof. unfold latlong_to_xy. by rewrite (ss_gt _ _ Hsl). Qed.
  Lemma map_as l l' : pts l l' -> Forall2 mpt (map as_mpoint l) (map as_mpoint l').
  Proof. induction 1; constructor; [by apply as_mpt|done]. Qed.
  Lemma nodes_alike f f' : fw f f' -> alike (Forall2 mpt) (hpath_nodes m1 f) (hpath_nodes m2 f').
  Proof.
    intros F. unfold hpath_nodes. rewrite (latlon_eq _ _ F), toxy_eq. apply (alike_bind (Forall2 mpt)).
    - destruct (w_multi _ _ _ _ F) as [|z z' l l' Hz Hl].
      + apply (alike_bind eq); [apply alike_same|]. intros c ? <-. constructor; [by split|constructor].
      + by constructor.
    - intros l l' Hl. apply Forall2_app; [done|]. apply map_as. apply Forall2_concat. apply F.
  Qed.
  Lemma to_alike ns ns' u u' t t' best best' lst lst' : Forall2 mpt ns ns' -> pt u u' -> pts t t' ->
    as_mpoint u ∈ ns -> (forall z, z ∈ t -> as_mpoint z ∈ ns) -> orel pr best best' -> orel pr lst lst' ->
    alike (fun r r' => orel pr r.1 r'.1 /\ orel pr r.2 r'.2) (shortest_to fpath m1 ns u t best lst) (shortest_to fpath m2 ns' u' t' best' lst').
  Proof.
    intros Hns Hu Ht Iu. revert best best' lst lst'. induction Ht as [|z z' t t' Hz _ IH]; intros best best' lst lst' It Hb Hl; [done|].
    cbn [shortest_to]. assert (as_mpoint z ∈ ns) as Iz by (apply It; left).
    pose proof (path_alike _ _ _ _ _ _ Hns (as_mpt _ _ Hu) (as_mpt _ _ Hz) Iu Iz) as Hpa.
    destruct (fpath m1 ns _ _) as [p|], (fpath m2 ns' _ _) as [p'|]; try done. cbv zeta. apply IH; [|clear IH|done].
    - intros x Hx. apply It. by right.
    - cbn in Hpa. destruct best as [b|], best' as [b'|]; try done. cbn in Hb. destruct Hpa as [H1 H2], Hb as [H3 H4]. rewrite H2, H4.
      by destruct (Qlt_bool _ _).
  Qed.
  Lemma all_short ns ns' u u' t t' lst lst' : Forall2 mpt ns ns' -> pts u u' -> pts t t' ->
    (forall z, z ∈ u -> as_mpoint z ∈ ns) -> (forall z, z ∈ t -> as_mpoint z ∈ ns) -> orel pr lst lst' ->
    alike (fun r r' => Forall2 (orel pr) r.1 r'.1 /\ orel pr r.2 r'.2) (all_shortest fpath m1 ns u t lst) (all_shortest fpath m2 ns' u' t' lst').
  Proof.
    intros Hns Hu Ht. revert lst lst'. induction Hu as [|z z' u u' Hz _ IH]; intros lst lst' Iu It Hl; [by split; [constructor|]|].
    cbn [all_shortest]. apply (alike_bind (fun r r' => orel pr r.1 r'.1 /\ orel pr r.2 r'.2)).
    - apply to_alike; try done. apply Iu. left.
    - intros [b l1] [b' l1'] [H1 H2]. cbn in H1, H2.
      apply (alike_bind (fun r r' => Forall2 (orel pr) r.1 r'.1 /\ orel pr r.2 r'.2)).
      + apply IH; try done. intros x Hx. apply Iu. by right.
      + intros [bs l2] [bs' l2'] [H3 H4]. cbn [alike fst snd] in *. split; [by constructor|done].
  Qed.
  Definition tr (r r' : mpoint * mpoint * mpoint) : Prop := mpt r.1.1 r'.1.1 /\ mpt r.1.2 r'.1.2 /\ mpt r.2 r'.2.
  Lemma hpn_path f f' : fw f f' -> alike tr (hpn_shortest_path fpath m1 f) (hpn_shortest_path fpath m2 f').
  Proof.
    intros F. unfold hpn_shortest_path. pose proof (nodes_alike _ _ F) as Hno. 
    assert (forall ns, hpath_nodes m1 f = Ok ns -> forall z g, z ∈ g -> g ∈ ft_hpn f -> as_mpoint z ∈ ns) as Hin.
    { intros ns E z g Hz Hg. unfold hpath_nodes in E. destruct (match ft_multi f with [] => _ | _ => _ end) as [own|]; [|done].
      cbn in E. injection E as <-. apply elem_of_app. right. apply elem_of_list_fmap. exists z. split; [done|].
      apply elem_of_list_In, in_concat. exists g. by rewrite <-!elem_of_list_In. }
    destruct (w_hpn _ _ _ _ F) as [|g0 g0' h h' H0 H]; [done|]. destruct H as [|g1 g1' h h' H1 H]; [done|].
    destruct (hpath_nodes m1 f) as [ns|], (hpath_nodes m2 f') as [ns'|]; try done. cbn [rbind]. cbn in Hno.
    apply (alike_bind (fun r r' => Forall2 (orel pr) r.1 r'.1 /\ orel pr r.2 r'.2)).
    - apply all_short; try done; intros z Hz; eapply (Hin ns); try done; [left|right; left].
    - intros [bs l1] [bs' l1'] [B1 B2]. cbn [fst snd] in *. apply (alike_bind (orel pr)).
      + apply (alike_fold (orel pr) (orel pr)); [done| |done]. intros a b s t Hab Hst. unfold overall_step.
        destruct s as [s|], t as [t|]; try done.
        * destruct a as [a|], b as [b|]; try done. destruct Hab as [A1 A2], Hst as [S1 S2]. rewrite A2, S2. by destruct (Qlt_bool _ _).
        * by destruct l1, l1'.
      + intros [[r c]|] [[r' c']|] R; try done. destruct R as [R _]. cbn in R. rewrite !head_lookup, !last_lookup, <-(Forall2_length _ _ _ R).
        pose proof (Forall2_at _ _ _ 0%nat R) as R0. pose proof (Forall2_at _ _ _ (pred (length r)) R) as R1.
        pose proof (Forall2_at _ _ _ (length r `div` 2)%nat R) as R2.
        destruct (r !! 0%nat), (r' !! 0%nat); try done. destruct (r !! pred _), (r' !! pred _); try done.
        destruct (r !! (_ `div` _)%nat), (r' !! (_ `div` _)%nat); try done. 
  Qed.
  Lemma as_pt z z' : mpt z z' -> alike pt (as_pte z) (as_pte z').
  Proof.
    destruct z as [p o], z' as [p' o']. intros [E H]. cbn in E. subst p'. unfold as_pte. cbn in *. by destruct o, o'.
  Qed.

  (** *** Synthetic saddles *)
  Lemma piece_fw f f' pos h h' : fw f f' -> Forall2 pts h h' -> fw (piece f pos h) (piece f' pos h').
  Proof. intros F H. split; cbn; try done. apply F. Qed.
  Lemma new_sdr f f' : fw f f' -> sdr (new_saddle f) (new_saddle f').
  Proof. intros F. by split. Qed.
  Lemma alloc_wr w w' s s' : wr w w' -> sdr s s' -> wr (alloc_saddle s w).1 (alloc_saddle s' w').1 /\ (alloc_saddle s w).2 = (alloc_saddle s' w').2.
  Proof.
    intros W S. split; [|cbn; apply (Forall2_length _ _ _ (wr_saddles _ _ W))]. split; cbn; [|apply W..].
    apply Forall2_app; [apply W|]. constructor; [done|constructor].
  Qed.
  Definition made (r r' : world * list nat) : Prop := wr r.1 r'.1 /\ r.2 = r'.2.
  Lemma alloc_kids i f f' rs rs' : fw f f' -> Forall2 (rsd m1 m2) rs rs' -> forall w w', wr w w' -> made (alloc_children i f rs w) (alloc_children i f' rs' w').
  Proof.
    intros F H. induction H as [|r r' rs rs' Hr _ IH]; intros w w' W; [by split|].
    destruct r as [g d|pos e h c], r' as [g' d'|pos' e' h' c']; try done; [by apply IH|].
    destruct Hr as (<- & _ & Hh & Hc). cbn [alloc_children].
    destruct (alloc_wr _ _ _ _ W (new_sdr _ _ (piece_fw f f' pos h h' F Hh))) as [W1 J].
    destruct (alloc_saddle _ w) as [w1 j], (alloc_saddle _ w') as [w1' j']. cbn [fst snd] in *. subst j'.
    match goal with |- made (let (_, _) := alloc_children i f rs ?x in _) (let (_, _) := alloc_children i f' rs' ?y in _) =>
      assert (wr x y) as W2 end.
    { destruct c, c'; try done. apply upd_wr; [apply upd_wr; [done|]|].
      - intros s s' [? ? ? ? ? ? ? ?]. by split.
      - intros s s' [? ? ? E ? ? ? ?]. split; cbn; try done. by rewrite E. }
    specialize (IH _ _ W2). destruct (alloc_children i f rs _) as [w3 js], (alloc_children i f' rs' _) as [w3' js'].
    destruct IH as [W3 J3]. cbn in *. split; [done|]. cbn. by rewrite J3.
  Qed.
  Lemma synth_alike i w w' : wr w w' -> alike made (generate_synthetic_saddles fpath near m1 i w) (generate_synthetic_saddles fpath near m2 i w').
  Proof.
    intros W. unfold generate_synthetic_saddles. pose proof (at_saddle _ _ i W) as S.
    destruct (w_saddles w !! i) as [s|], (w_saddles w' !! i) as [s'|]; try done. cbv zeta. pose proof (sd_feat _ _ S) as F.
    pose proof (w_hpn _ _ _ _ F) as H. remember (sa_feat s) as f. remember (sa_feat s') as f'. clear Heqf Heqf' S s s'.
    assert (alike made (let* rs := generate_child_saddles near m1 f in Ok (alloc_children i f rs w))
      (let* rs := generate_child_saddles near m2 f' in Ok (alloc_children i f' rs w'))) as K.
    { apply (alike_bind (Forall2 (rsd m1 m2))); [by apply children_alike|]. intros rs rs' Hr. by apply alloc_kids. }
    destruct H as [|g0 g0' h h' H0 H]; [by split|]. destruct H as [|g1 g1' h h' H1 H]; [by split|].
    destruct H as [|g2 g2' h h' H2 H]; [|exact K]. clear K.
    assert (forall pos k k', Forall2 pts k k' -> alike made
      (let (w, j) := alloc_saddle (new_saddle (piece f pos k)) w in Ok (w, [j]))
      (let (w, j) := alloc_saddle (new_saddle (piece f' pos k')) w' in Ok (w, [j]))) as K.
    { intros pos k k' Hk. destruct (alloc_wr _ _ _ _ W (new_sdr _ _ (piece_fw f f' pos k k' F Hk))) as [W1 J].
      destruct (alloc_saddle _ w), (alloc_saddle _ w'). cbn [fst snd alike] in *. split; [done|]. cbn. by rewrite J. }
    destruct (w_multi _ _ _ _ F) as [|z z' l l' Hz Hl].
    - apply (alike_bind pts); [by apply highest_alike|]. intros a a' Ha. apply (alike_bind pts); [by apply highest_alike|]. intros b b' Hb.
      rewrite <-(w_pos _ _ _ _ F). by apply K, two_groups.
    - apply (alike_bind tr); [by apply hpn_path|]. intros [[a b] c] [[a' b'] c'] (Ta & Tb & Tc). cbn in Ta, Tb, Tc.
      apply (alike_bind pt); [by apply as_pt|]. intros x x' Hx. apply (alike_bind pt); [by apply as_pt|]. intros y y' Hy.
      destruct Tc as [-> _]. apply K. by apply two_groups; apply one_pt.
  Qed.

  (** *** The walk *)
  Record st (s s' : walk_state) : Prop := {
    st_world : wr (ws_world s) (ws_world s');
    st_climb : ws_climb s = ws_climb s';
    st_feats : ws_feats s = ws_feats s';
    st_linkers : ws_linkers s = ws_linkers s';
    st_doms : ws_doms s = ws_doms s' }.
  Lemma link_eq w w' k l : wr w w' -> link_same m1 w k l = link_same m2 w' k l.
  Proof.
    intros W. unfold link_same. rewrite (wr_links _ _ W). destruct (w_links w' !! k), (w_links w' !! l); try done.
    rewrite (summits_eq m1 m2 (ss_gt _ _ Hsl) _ _ _ _ (wr_heights _ _ W)), (saddles_eq m1 m2 (ss_gt _ _ Hsl) _ _ _ _ (wr_heights _ _ W)). done.
  Qed.
  Lemma links_eq w w' k l : wr w w' -> existsb (link_same m1 w k) l = existsb (link_same m2 w' k) l.
  Proof. intros W. induction l as [|x l IH]; [done|]. cbn. by rewrite IH, (link_eq _ _ k x W). Qed.
  Lemma remote_wr b k w w' : wr w w' -> wr (add_to_remote m1 b k w) (add_to_remote m2 b k w').
  Proof.
    intros W. unfold add_to_remote. rewrite <-(wr_links _ _ W). destruct (w_links w !! k) as [l|]; [|done]. cbv zeta.
    assert (match w_summits w !! ln_summit l with Some s => existsb (link_same m1 w k) (su_links s) | None => false end =
      match w_summits w' !! ln_summit l with Some s => existsb (link_same m2 w' k) (su_links s) | None => false end) as ->.
    { pose proof (at_summit _ _ (ln_summit l) W) as H. destruct (w_summits w !! _), (w_summits w' !! _); try done.
      rewrite (sm_links _ _ H). by apply links_eq. }
    assert (match w_saddles w !! ln_saddle l with Some s => existsb (link_same m1 w k) (sa_links s) | None => false end =
      match w_saddles w' !! ln_saddle l with Some s => existsb (link_same m2 w' k) (sa_links s) | None => false end) as ->.
    { pose proof (at_saddle _ _ (ln_saddle l) W) as H. destruct (w_saddles w !! _), (w_saddles w' !! _); try done.
      rewrite (sd_links _ _ H). by apply links_eq. }
    match goal with |- wr (if ?c then ?x else _) (if ?c' then ?y else _) => assert (wr x y) as W2 end.
    { destruct (b && _); [done|]. apply upd_su_wr; [done|]. intros s s' [? E ?]. split; cbn; try done. by rewrite E. }
    destruct (b && match w_saddles w' !! ln_saddle l with Some s => existsb (link_same m2 w' k) (sa_links s) | None => false end); [exact W2|]. apply upd_wr; [exact W2|]. intros s s' [? E ? ? ? ? ? ?]. split; cbn; try done. by rewrite E.
  Qed.
  Lemma link_st b d k s s' : st s s' -> st (link_saddle m1 b d k s) (link_saddle m2 b d k s').
  Proof.
    intros [W C Fe Li D]. unfold link_saddle. cbv zeta.
    assert (length (w_links (ws_world s)) = length (w_links (ws_world s'))) as E by (by rewrite (wr_links _ _ W)).
    split; cbn [ws_world ws_climb ws_feats ws_linkers ws_doms w_links upd_summit]; [|done|done|by rewrite Li, E|by rewrite D].
    rewrite E. apply remote_wr. split; cbn; [apply W| |by rewrite (wr_links _ _ W)].
    apply Forall2_alter; [apply W|]. intros u u' _ _ [? ? Ed]. split; cbn; try done. by rewrite Ed.
  Qed.
  Lemma edge_alike b k g g' s s' : pts g g' -> st s s' -> alike st (link_edge m1 b k g s) (link_edge m2 b k g' s').
  Proof.
    intros Hg S. unfold link_edge. destruct Hg as [|z z' g g' Hz _]; [done|]. rewrite <-(pt_xy_eq _ _ _ _ Hz), <-(st_climb _ _ S).
    destruct (cs_table _ !! _); [|exact S]. by apply link_st.
  Qed.
  Lemma hpn_alike k s s' : st s s' -> alike (Forall2 pts) (hpn_of k s) (hpn_of k s').
  Proof.
    intros S. unfold hpn_of. pose proof (at_saddle _ _ k (st_world _ _ S)) as H.
    destruct (w_saddles (ws_world s) !! k), (w_saddles (ws_world s') !! k); try done. apply (w_hpn _ _ _ _ (sd_feat _ _ H)).
  Qed.
  Lemma edges_alike k s s' : st s s' -> alike st (climb_edges near m1 k s) (climb_edges near m2 k s').
  Proof.
    intros S. unfold climb_edges. apply (alike_bind (Forall2 pts)); [by apply hpn_alike|]. intros hs hs' H. apply (alike_bind eq).
    - apply (alike_fold pts eq); [done| |apply S]. intros g g' c ? Hg <-. rewrite (climbs_alike near m1 m2 Hs Hsl L1 L2 Hn g g' c Hg).
      destruct (climb_points near m2 g' c); done.
    - intros c ? <-. split; cbn; [apply S|done|apply S..].
  Qed.
  Lemma world_st w w' s s' : wr w w' -> st s s' -> st (set_world w s) (set_world w' s').
  Proof. intros W [? ? ? ? ?]. by split. Qed.
  Lemma feat_st k s s' : st s s' -> st (add_feat k s) (add_feat k s').
  Proof. intros [? ? E ? ?]. split; cbn; try done. by rewrite E. Qed.
  Lemma links_st b k hs hs' s s' : Forall2 pts hs hs' -> st s s' -> alike st (foldM (link_edge m1 b k) hs s) (foldM (link_edge m2 b k) hs' s').
  Proof. intros H S. apply (alike_fold pts st); [done| |done]. intros. by apply edge_alike. Qed.
  Lemma edge_saddle_st j k s s' : st s s' -> alike st (edge_saddle m1 j k s) (edge_saddle m2 j k s').
  Proof.
    intros S. unfold edge_saddle. apply (alike_bind (Forall2 pts)); [by apply hpn_alike|]. intros hs hs' H.
    apply (alike_bind st); [by apply links_st|]. intros t t' T. cbv zeta. cbn [alike]. apply feat_st, world_st; [|done].
    apply upd_wr; [apply upd_wr; [apply upd_wr; [apply T|]|]|].
    - intros ? ? [? ? ? ? ? ? ? ?]. by split.
    - intros ? ? [? ? ? E ? ? ? ?]. split; cbn; try done. by rewrite E.
    - intros ? ? [? ? ? ? ? ? ? ?]. by split.
  Qed.
  Lemma finish_st i ks s s' : st s s' ->
    alike st (let* s := foldM (edge_saddle m1 i) ks s in
              Ok (add_feat i (set_world (upd_saddle i (set_over (Some true)) (ws_world s)) s)))
             (let* s := foldM (edge_saddle m2 i) ks s' in
              Ok (add_feat i (set_world (upd_saddle i (set_over (Some true)) (ws_world s)) s))).
  Proof.
    intros S. apply (alike_bind st).
    - apply (alike_fold eq st); [apply Forall2_same| |done]. intros k ? t t' <- T. by apply edge_saddle_st.
    - intros t t' T. cbn [alike]. apply feat_st, world_st; [|done]. apply upd_wr; [apply T|]. intros ? ? [? ? ? ? ? ? ? ?]. by split.
  Qed.
  Lemma border_st i s s' : st s s' -> alike st (walk_border fpath near m1 i s) (walk_border fpath near m2 i s').
  Proof.
    intros S. unfold walk_border. apply (alike_bind st); [by apply edges_alike|]. clear s s' S. intros s s' S.
    pose proof (at_saddle _ _ i (st_world _ _ S)) as H.
    destruct (w_saddles (ws_world s) !! i) as [o|], (w_saddles (ws_world s') !! i) as [o'|]; try done. cbv zeta. pose proof (sd_feat _ _ H) as F.
    assert (forall t t', st t t' -> alike st
      (let* (w, ks) := generate_synthetic_saddles fpath near m1 i (ws_world t) in
       let* s := foldM (edge_saddle m1 i) ks (set_world w t) in
       Ok (add_feat i (set_world (upd_saddle i (set_over (Some true)) (ws_world s)) s)))
      (let* (w, ks) := generate_synthetic_saddles fpath near m2 i (ws_world t') in
       let* s := foldM (edge_saddle m2 i) ks (set_world w t') in
       Ok (add_feat i (set_world (upd_saddle i (set_over (Some true)) (ws_world s)) s)))) as Sy.
    { intros t t' T. apply (alike_bind made); [by apply synth_alike, T|]. intros [w ks] [w' ks'] [W K]. cbn in W, K. subst ks'.
      apply finish_st. by apply world_st. }
    rewrite <-(w_kind _ _ _ _ F). destruct (decide _); [|by apply Sy].
    assert (ft_hpn (sa_feat o) = [] <-> ft_hpn (sa_feat o') = []) as Eh.
    { pose proof (w_hpn _ _ _ _ F) as Hh. split; intros E; rewrite E in Hh; by inversion Hh. }
    destruct (decide (ft_hpn (sa_feat o) = [])), (decide (ft_hpn (sa_feat o') = [])); try tauto; [|by apply finish_st].
    rewrite (latlon_eq _ _ F), toxy_eq. apply (alike_bind eq); [apply alike_same|]. intros c ? <-. rewrite <-(st_climb _ _ S).
    destruct (cs_table _ !! c); [|by apply feat_st]. by apply Sy, link_st.
  Qed.
  Lemma synthetic_st k s s' : st s s' -> alike st (walk_synthetic near m1 k s) (walk_synthetic near m2 k s').
  Proof.
    intros S. unfold walk_synthetic. apply (alike_bind st); [by apply edges_alike|]. clear s s' S. intros s s' S.
    apply (alike_bind (Forall2 pts)); [by apply hpn_alike|]. intros hs hs' H.
    apply (alike_bind st); [by apply links_st|]. intros t t' T. by apply feat_st.
  Qed.
  Lemma one_st i s s' : st s s' -> alike st (walk_one fpath near m1 i s) (walk_one fpath near m2 i s').
  Proof.
    intros S. unfold walk_one. pose proof (at_saddle _ _ i (st_world _ _ S)) as H.
    destruct (w_saddles (ws_world s) !! i) as [o|], (w_saddles (ws_world s') !! i) as [o'|]; try done.
    rewrite <-(w_edge _ _ _ _ (sd_feat _ _ H)). destruct (ft_edge _); [by apply border_st|].
    apply (alike_bind made); [by apply synth_alike, S|]. intros [w ks] [w' ks'] [W K]. cbn in W, K. subst ks'.
    apply (alike_fold eq st); [apply Forall2_same| |by apply world_st]. intros k ? t t' <- T. by apply synthetic_st.
  Qed.
  Lemma cells_eq f f' : fw f f' -> summit_cells m1 f = summit_cells m2 f'.
  Proof.
    intros F. unfold summit_cells. rewrite (latlon_eq _ _ F), toxy_eq. pose proof (mpts_fst m1 m2 _ _ (w_multi _ _ _ _ F)) as E.
    destruct (w_multi _ _ _ _ F); [done|]. by rewrite E.
  Qed.
  Lemma init_st w w' l : wr w w' -> alike st (walk_init m1 w l) (walk_init m2 w' l).
  Proof.
    intros W. unfold walk_init. apply (alike_fold eq st); [apply Forall2_same| |by split]. intros i ? s s' <- S.
    pose proof (at_summit _ _ i (st_world _ _ S)) as H.
    destruct (w_summits (ws_world s) !! i) as [o|], (w_summits (ws_world s') !! i) as [o'|]; try done.
    rewrite <-(sm_domain _ _ H), (cells_eq _ _ (sm_feat _ _ H)). destruct (su_domain o); [done|].
    apply (alike_bind eq); [apply alike_same|]. intros cs ? <-. cbn [alike]. destruct S as [? Ec ? ? ?]. split; cbn [ws_world ws_climb ws_feats ws_linkers ws_doms]; try done.
    - apply upd_su_wr; [done|]. intros ? ? [? ? ?]. by split.
    - by rewrite Ec.
  Qed.
  Definition dr (d d' : dmap) : Prop := wr (mp_world d) (mp_world d') /\
    (mp_summits d, mp_saddles d, mp_runoffs d, mp_linkers d) = (mp_summits d', mp_saddles d', mp_runoffs d', mp_linkers d').
  Lemma walk_alike d d' : dr d d' -> alike (fun r r' => dr r.1 r'.1 /\ st r.2 r'.2) (dm_walk fpath near m1 d) (dm_walk fpath near m2 d').
  Proof.
    intros [W E]. injection E as E1 E2 E3 E4. unfold dm_walk, climb_from_saddles. rewrite E1, E2, E3.
    apply (alike_bind st).
    - apply (alike_bind st); [by apply init_st|]. intros s s' S. apply (alike_fold eq st); [apply Forall2_same| |done].
      intros k ? t t' <- T. by apply one_st.
    - intros s s' S. cbv zeta. cbn [alike fst snd]. split; [|done]. split; [apply S|]. cbn [mp_summits mp_saddles mp_runoffs mp_linkers].
      assert (forall i, Walk_model.is_runoff (ws_world s) i = Walk_model.is_runoff (ws_world s') i) as R.
      { intros i. unfold Walk_model.is_runoff. pose proof (at_saddle _ _ i (st_world _ _ S)) as H.
        destruct (w_saddles (ws_world s) !! i), (w_saddles (ws_world s') !! i); try done. by rewrite (w_kind _ _ _ _ (sd_feat _ _ H)). }
      rewrite (st_feats _ _ S), (st_linkers _ _ S). f_equal. f_equal; [f_equal|]; apply list_filter_iff; intros i; by rewrite R.
  Qed.
End walk.
