(** The analysis with the saddles rebuilt. *)
From Verif Require Import Tree_spec Walk_model Run_model Raster_spec Raster_proof Raster_facts Contig_proof Blob_proof
  Closest_spec Closest_proof Feature_spec Scan_proof Feature_facts Nodata_proof Network_spec Rebuild_proof Climb_spec
  Climb_proof Climb_facts Graph_spec Graph_proof Walk_spec Walk_proof Synth_proof Links_proof Steps_proof One_proof
  Walk_facts Found_proof Again_proof Walked_proof Mesh_proof Start_proof Terrain_spec Terrain_proof Run_proof Rebuilt_spec.
From Verif Require Basin_spec.
From Coq Require Import ZifyBool.
Local Open Scope Z_scope.

Lemma objects_made rs : forall n ch, Forall2 made rs (rebuilt_objects n ch rs).
Proof.
  induction rs as [|[f dq|pos e hpn [c|]] rs IH]; intros n ch; cbn; constructor; try apply IH; done.
Qed.
Lemma next_kept_news l f dq rs : forall n, (forall r, r ∈ l -> exists pos e hpn c, r = New pos e hpn c) ->
  next_kept n (l ++ Kept f dq :: rs) = (n + length l)%nat.
Proof.
  induction l as [|r l IH]; intros n H; cbn; [lia|]. destruct (H r) as (pos & e & hpn & c & ->); [by left|].
  rewrite IH; [lia|]. intros r' Hr'. apply H. by right.
Qed.
Lemma objects_app rs1 rs2 : forall n ch, exists ch', 
  rebuilt_objects n ch (rs1 ++ rs2) = take (length rs1) (rebuilt_objects n ch (rs1 ++ rs2)) ++ rebuilt_objects (n + length rs1) ch' rs2.
Proof.
  induction rs1 as [|r rs1 IH]; intros n ch; [exists ch; cbn; by rewrite Nat.add_0_r|].
  destruct r as [f dq|pos e hpn [c|]]; cbn; rewrite Nat.add_succ_r.
  - destruct (IH (S n) []) as [ch' H]. exists ch'. f_equal. exact H.
  - destruct (IH (S n) (ch ++ [n])) as [ch' H]. exists ch'. f_equal. exact H.
  - destruct (IH (S n) ch) as [ch' H]. exists ch'. f_equal. exact H.
Qed.

Section rebuilt.
  Variables (fpath : datamap -> list mpoint -> mpoint -> mpoint -> option (list mpoint * Q)).
  Variables (fp : datamap -> list xy -> xy -> xy -> option Q) (orc : xy -> nat -> nat -> nat).
  Variables (near : searches) (m : datamap).
  Hypotheses (Hf : mpaths_found fpath m) (Hnear : sound_searches near m) (Hok : map_ok m) (Hup : north_up m)
    (Hlow : climbable m) (Hpix : pixels_in_reach m) (Hreach : map_in_reach m) (Hfp : paths_found fp m)
    (Hfine : fine_grid m).

  Lemma rebuilt_parts su sa ru : run_no_rebuild fp orc m = Ok (su, sa, ru) ->
    exists parts, run_rebuild fp orc near m = Ok (su, concat parts, ru) /\ Forall2 split_into sa parts.
  Proof.
    intros Hrun. destruct (run_rebuild_ok fp orc near m Hok Hfp Hnear Hreach) as (su' & sa' & ru' & parts & Ha & Hr & Hp & _).
    destruct (run_corners fp orc m Hok Hfp) as (su2 & sa2 & ru2 & Ha2 & Hr2). rewrite Ha in Ha2. injection Ha2 as <- <- <-.
    rewrite Hrun in Hr2. injection Hr2 as <- <- ->. eauto.
  Qed.

  Lemma started_rebuilt su sa ru : run_no_rebuild fp orc m = Ok (su, sa, ru) -> forall parts, Forall2 split_into sa parts ->
    started m sa (rebuilt_objects 0 [] (concat parts)).
  Proof.
    intros Hrun parts Hparts. destruct (start_input m fp orc Hok Hfp su sa ru Hrun) as (I & _ & _).
    destruct (saddle_facts fp orc m Hok Hfp su sa ru Hrun) as (SF & _).
    assert (Hw : forall f, f ∈ sa -> walkable m f).
    { intros f Hin. apply (in_walk _ _ _ _ I). unfold feats_of. cbn. rewrite map_map. cbn. rewrite map_id. apply elem_of_app. by left. }
    assert (Hof : forall o, o ∈ rebuilt_objects 0 [] (concat parts) -> exists f, f ∈ sa /\ sa_links o = [] /\
      sa_single o = false /\ sa_basin o = false /\
      ((sa_feat o = f /\ sa_over o = Some true /\ ft_edge f = true) \/
       (sa_over o = None /\ exists pos ga gb g h, sa_feat o = Feat KSaddle pos (ft_ele f) [] false [] [ga; gb] /\ ga <> [] /\ gb <> [] /\
          g ∈ ft_hpn f /\ h ∈ ft_hpn f /\ (forall z, z ∈ ga -> z ∈ h) /\ (forall z, z ∈ gb -> z ∈ g)))).
    { intros o Ho. apply elem_of_list_lookup in Ho as [i Ho].
      destruct (Forall2_lookup_r _ _ _ _ _ (objects_made (concat parts) 0 []) Ho) as (r & Hr & M1 & M2 & M3 & M4).
      apply elem_of_list_lookup_2 in Hr. apply elem_of_concat in Hr as (out & Hr & (j & Hj)%elem_of_list_lookup).
      destruct (Forall2_lookup_r _ _ _ _ _ Hparts Hj) as (f & Hfj & news & es & -> & _ & Hes).
      exists f. split; [by eapply elem_of_list_lookup_2|]. do 3 (split; [done|]). apply elem_of_app in Hr as [Hr|Hr].
      - right. apply elem_of_list_lookup in Hr as [k Hk].
        destruct (Forall2_lookup_l _ _ _ _ _ Hes Hk) as (e & _ & pos & ga & gb & g & h & -> & _ & _ & Hg & Hh & H1 & H2 & H3 & H4).
        destruct M4 as [M4 M5]. split; [done|]. exists pos, ga, gb, g, h. split_and!; try done; by eapply elem_of_list_lookup_2.
      - left. destruct (ft_edge f) eqn:Ee; [|by apply elem_of_nil in Hr]. apply elem_of_list_singleton in Hr as ->.
        destruct M4 as [M4 M5]. done. }
    split.
    - intros o (f & _ & ? & _)%Hof. done.
    - intros o (f & _ & _ & H1 & H2 & [(<- & ? & ?)|(? & _)])%Hof; auto.
    - intros o (f & Hin & _ & _ & _ & [(<- & _)|(_ & pos & ga & gb & g & h & -> & H1 & H2 & Hg & Hh & H3 & H4)])%Hof; [by apply Hw|].
      split; cbn; try done.
      + intros x [->|[->|?%elem_of_nil]%elem_of_cons]%elem_of_cons; done.
      + intros x z [->|[->|?%elem_of_nil]%elem_of_cons]%elem_of_cons Hz; try done.
        * apply (wk_higher _ _ (Hw f Hin) h); [done|by apply H3].
        * apply (wk_higher _ _ (Hw f Hin) g); [done|by apply H4].
      + intros z Hz. by apply elem_of_nil in Hz.
    - intros o (f & Hin & _ & _ & _ & Hcase)%Hof. destruct (SF f Hin) as (Hk & p & Hp & Hts & Hst & Hc).
      assert (Hrim : forall g z, g ∈ ft_hpn f -> z ∈ g -> rim m p z).
      { intros g z Hg Hz. apply (comp_all _ _ Hc). apply elem_of_concat. eauto. }
      destruct Hcase as [(E & _)|(_ & pos & ga & gb & g & h & E & H1 & H2 & Hg & Hh & H3 & H4)]; rewrite E; cbn [ft_kind ft_hpn ft_edge ft_ele length].
      + split; [done|]. split; [by apply (components_two _ _ _ Hc)|]. exists f, p. split_and!; try done. by apply Hst.
      + split; [done|]. split; [lia|]. exists f, p. split_and!; try done; [by apply Hst|].
        intros x z [->|[->|?%elem_of_nil]%elem_of_cons]%elem_of_cons Hz; try done.
        * apply (Hrim h); [done|by apply H3].
        * apply (Hrim g); [done|by apply H4].
    - intros f [j Hj]%elem_of_list_lookup. right. destruct (Forall2_lookup_l _ _ _ _ _ Hparts Hj) as (out & Ho & news & es & -> & Htree & Hes).
      exists es. split; [done|]. intros a b [k Hk]%elem_of_list_lookup.
      destruct (Forall2_lookup_r _ _ _ _ _ Hes Hk) as (r & Hr & pos & ga & gb & g & h & -> & _ & _ & Hg & Hh & H1 & H2 & H3 & H4).
      assert (Hin : New pos (ft_ele f) [ga; gb] (if ft_edge f then Some f else None) ∈ concat parts).
      { apply elem_of_concat. eexists. split; [|by eapply elem_of_list_lookup_2]. apply elem_of_app. left. by eapply elem_of_list_lookup_2. }
      apply elem_of_list_lookup in Hin as [i Hi].
      destruct (Forall2_lookup_l _ _ _ _ _ (objects_made (concat parts) 0 []) Hi) as (o & Ho' & _ & _ & _ & M1 & _).
      exists o, ga, gb, g, h. rewrite M1. split; [by eapply elem_of_list_lookup_2|]. done.
  Qed.
End rebuilt.

(** ** Families *)

Lemma objects_news_none news : forall n ch rs, (forall r, r ∈ news -> exists pos e hpn, r = New pos e hpn None) ->
  exists G, length G = length news /\ (forall o, o ∈ G -> exists f, o = new_saddle f) /\
    rebuilt_objects n ch (news ++ rs) = G ++ rebuilt_objects (n + length news) ch rs.
Proof.
  induction news as [|r news IH]; intros n ch rs H.
  - exists []. cbn. rewrite Nat.add_0_r. split; [done|]. split; [|done]. by intros o ?%elem_of_nil.
  - destruct (H r) as (pos & e & hpn & ->); [by left|].
    destruct (IH (S n) ch rs) as (G & HG & HG' & E); [intros r' Hr'; apply H; by right|].
    exists (new_saddle (Feat KSaddle pos e [] false [] hpn) :: G). cbn. rewrite HG, E. split; [done|]. split.
    + intros o [->|Ho]%elem_of_cons; [by eexists|by apply HG'].
    + by rewrite Nat.add_succ_r.
Qed.
Lemma objects_news_some news fk dq rs : forall n ch (N : nat), (forall r, r ∈ news -> exists pos e hpn f, r = New pos e hpn (Some f)) ->
  N = (n + length news)%nat ->
  rebuilt_objects n ch (news ++ Kept fk dq :: rs) =
  imap (fun k r => match r with
                   | New pos e hpn _ => set_parent (Some N) (new_saddle (Feat KSaddle pos e [] false [] hpn))
                   | Kept f _ => new_saddle f
                   end) news ++
  set_over (if dq then Some true else None) (set_children (ch ++ seq n (length news)) (new_saddle fk)) :: rebuilt_objects (S N) [] rs.
Proof.
  induction news as [|r news IH]; intros n ch N H HN.
  - cbn in *. rewrite app_nil_r. subst. by rewrite Nat.add_0_r.
  - destruct (H r) as (pos & e & hpn & f & ->); [by left|]. cbn [app rebuilt_objects]. cbn in HN.
    rewrite next_kept_news.
    2: { intros r' Hr'. destruct (H r') as (? & ? & ? & ? & ->); [by right|]. eauto. }
    rewrite (IH (S n) (ch ++ [n]) N); [|intros r' Hr'; apply H; by right|lia].
    cbn. replace (S (n + length news)) with N by lia. f_equal. f_equal. by rewrite <-app_assoc.
Qed.

Definition related (n : nat) (L : list saddle) : Prop := forall k o, L !! k = Some o ->
  (forall q, sa_parent o = Some q -> exists k' op, q = (n + k')%nat /\ L !! k' = Some op /\ (n + k)%nat ∈ sa_children op) /\
  NoDup (sa_children o) /\
  (forall c, c ∈ sa_children o -> (exists k' oc, c = (n + k')%nat /\ L !! k' = Some oc /\ sa_parent oc = Some (n + k)%nat) /\
     disqualified o = true /\ ft_edge (sa_feat o) = true).
Lemma related_app n G L : related n G -> related (n + length G) L -> related n (G ++ L).
Proof.
  intros HG HL k o [Hk|[Hge Hk]]%lookup_app_Some.
  - destruct (HG k o Hk) as (H1 & H2 & H3). split_and!; [|done|].
    + intros q Hq. destruct (H1 q Hq) as (k' & op & -> & Hop & Hc). exists k', op. split_and!; [done| |done]. by apply lookup_app_l_Some.
    + intros c Hc. destruct (H3 c Hc) as ((k' & oc & -> & Hoc & Hp) & H4). split; [|done]. exists k', oc. split_and!; [done| |done].
      by apply lookup_app_l_Some.
  - destruct (HL _ o Hk) as (H1 & H2 & H3). replace (n + length G + (k - length G))%nat with (n + k)%nat in * by lia.
    assert (Hlook : forall k' x, L !! k' = Some x -> (G ++ L) !! (length G + k')%nat = Some x).
    { intros k' x Hx. rewrite lookup_app_r by lia. by replace (length G + k' - length G)%nat with k' by lia. }
    split_and!; [|done|].
    + intros q Hq. destruct (H1 q Hq) as (k' & op & -> & Hop & Hc). exists (length G + k')%nat, op. split_and!; [lia|auto|done].
    + intros c Hc. destruct (H3 c Hc) as ((k' & oc & -> & Hoc & Hp) & H4). split; [|done]. exists (length G + k')%nat, oc.
      split_and!; [lia|auto|done].
Qed.
Lemma objects_related sa parts : Forall2 split_into sa parts -> forall n, related n (rebuilt_objects n [] (concat parts)).
Proof.
  induction 1 as [|f out sa parts (news & es & -> & _ & Hes) _ IH]; intros n; [by intros k o|]. cbn [concat].
  assert (Hnew : forall r, r ∈ news -> exists pos e hpn, r = New pos e hpn (if ft_edge f then Some f else None)).
  { intros r [k Hk]%elem_of_list_lookup. destruct (Forall2_lookup_l _ _ _ _ _ Hes Hk) as (e & _ & pos & ga & gb & g & h & -> & _). eauto. }
  rewrite <-app_assoc. destruct (ft_edge f) eqn:Ee.
  - cbn [app]. rewrite (objects_news_some news f true (concat parts) n [] (n + length news)); [|intros r Hr; destruct (Hnew r Hr) as (? & ? & ? & ->); eauto|done].
    set (G := imap _ news). assert (HGl : length G = length news) by (unfold G; by rewrite imap_length).
    set (K := set_over _ _). replace (G ++ K :: _) with ((G ++ [K]) ++ rebuilt_objects (S (n + length news)) [] (concat parts)) by (by rewrite <-app_assoc).
    apply related_app.
    + intros k o [Hk|[Hge Hk]]%lookup_app_Some.
      * unfold G in Hk. rewrite list_lookup_imap in Hk. destruct (news !! k) as [r|] eqn:Er; [|done]. cbn in Hk. injection Hk as <-.
        destruct (Hnew r) as (pos & e & hpn & ->); [by eapply elem_of_list_lookup_2|]. cbn.
        split_and!; [|constructor|by intros c ?%elem_of_nil]. intros q [= <-]. exists (length news), K. split; [done|]. split.
        -- rewrite lookup_app_r by lia. by rewrite HGl, Nat.sub_diag.
        -- cbn. apply elem_of_seq. apply lookup_lt_Some in Er. lia.
      * destruct (k - length G)%nat eqn:Ek; [|done]. cbn in Hk. injection Hk as <-. cbn. split_and!; [done|apply NoDup_seq|].
        intros c Hc%elem_of_seq. split; [|done]. assert (Hlt : (c - n < length news)%nat) by lia.
        apply lookup_lt_is_Some in Hlt as [r Hr]. destruct (Hnew r) as (pos & e & hpn & ->); [by eapply elem_of_list_lookup_2|].
        exists (c - n)%nat. eexists. split; [lia|]. split.
        -- apply lookup_app_l_Some. unfold G. rewrite list_lookup_imap, Hr. reflexivity.
        -- cbn. f_equal. lia.
    + rewrite app_length. cbn. rewrite HGl. replace (n + (length news + 1))%nat with (S (n + length news)) by lia. apply IH.
  - cbn [app]. destruct (objects_news_none news n [] (concat parts)) as (G & HGl & HG & ->).
    { intros r Hr. destruct (Hnew r Hr) as (? & ? & ? & ->). eauto. }
    rewrite <-HGl. apply related_app; [|apply IH]. intros k o Hk. destruct (HG o) as [g ->]; [by eapply elem_of_list_lookup_2|]. cbn.
    split_and!; [done|constructor|by intros c ?%elem_of_nil].
Qed.
Lemma related_plain n (fs : list feature) : related n (map new_saddle fs).
Proof.
  intros k o Hk. apply list_lookup_fmap_Some in Hk as (f & _ & ->). cbn. split_and!; [done|constructor|by intros c ?%elem_of_nil].
Qed.
Lemma related_families su objs ru : related 0 objs -> families (mp_world (dm_objects su objs ru)).
Proof.
  intros H. assert (HR : related 0 (w_saddles (mp_world (dm_objects su objs ru)))) by (apply related_app; [done|apply related_plain]).
  set (w := mp_world _) in *. split_and!.
  - intros p i. unfold parent_of, children_of. split.
    + intros Hp. destruct (w_saddles w !! p) as [o|] eqn:Eo; [|done]. cbn in Hp.
      destruct (HR p o Eo) as (H1 & _). destruct (H1 i Hp) as (k' & op & -> & Hop & Hc). cbn in *. by rewrite Hop.
    + intros Hc. destruct (w_saddles w !! i) as [o|] eqn:Eo; [|by apply elem_of_nil in Hc]. cbn in Hc.
      destruct (HR i o Eo) as (_ & _ & H3). destruct (H3 p Hc) as ((k' & oc & -> & Hoc & Hp) & _). cbn in *. by rewrite Hoc.
  - intros i. unfold children_of. destruct (w_saddles w !! i) as [o|] eqn:Eo; [|constructor]. cbn. by apply (HR i o Eo).
  - intros i p Hc. unfold children_of in Hc. destruct (w_saddles w !! i) as [o|] eqn:Eo; [|by apply elem_of_nil in Hc]. cbn in Hc.
    exists o. split; [done|]. by apply (HR i o Eo) in Hc as [_ ?].
Qed.

Section with_start.
  Variables (fpath : datamap -> list mpoint -> mpoint -> mpoint -> option (list mpoint * Q)).
  Variables (fp : datamap -> list xy -> xy -> xy -> option Q) (orc : xy -> nat -> nat -> nat).
  Variables (near : searches) (m : datamap).
  Hypotheses (Hf : mpaths_found fpath m) (Hnear : sound_searches near m) (Hok : map_ok m) (Hup : north_up m)
    (Hlow : climbable m) (Hpix : pixels_in_reach m) (Hreach : map_in_reach m) (Hfp : paths_found fp m)
    (Hfine : fine_grid m).

  Definition dm_begin (r : bool) : res dmap :=
    if r then dm_rebuilt fp orc near m
    else let* (su, sa, ru) := run_no_rebuild fp orc m in Ok (dm_start su sa ru).

  Lemma begin_objects su sa ru r : run_no_rebuild fp orc m = Ok (su, sa, ru) ->
    exists objs, dm_begin r = Ok (dm_objects su objs ru) /\ started m sa objs /\ related 0 objs /\
      if r then exists parts, Forall2 split_into sa parts /\ Forall2 made (concat parts) objs else map sa_feat objs = sa.
  Proof.
    intros Hrun. destruct r.
    - destruct (rebuilt_parts fp orc near m Hnear Hok Hreach Hfp su sa ru Hrun) as (parts & Hr & Hp).
      exists (rebuilt_objects 0 [] (concat parts)). cbn. unfold dm_rebuilt. rewrite Hr. cbn. split; [done|].
      split; [by eapply (started_rebuilt fp orc)|]. split; [by eapply objects_related|]. exists parts. split; [done|]. apply objects_made.
    - exists (map new_saddle sa). cbn. rewrite Hrun. cbn. rewrite start_objects. split; [done|].
      split; [by eapply (started_found fp orc)|]. split; [apply related_plain|]. rewrite map_map. apply map_id.
  Qed.

  Lemma begin_fits r : exists su sa ru objs, run_no_rebuild fp orc m = Ok (su, sa, ru) /\
    dm_begin r = Ok (dm_objects su objs ru) /\ started m sa objs.
  Proof.
    destruct (found_run fp orc m Hok Hfp) as (su & sa & ru & Hrun).
    destruct (begin_objects su sa ru r Hrun) as (objs & H1 & H2 & _). eauto 10.
  Qed.

  Lemma with_walk fuel r su sa ru d : run_no_rebuild fp orc m = Ok (su, sa, ru) ->
    dm_run_with fpath fp orc near fuel true false r m = Ok d ->
    exists objs s, started m sa objs /\ dm_walk fpath near m (dm_objects su objs ru) = Ok (d, s).
  Proof.
    intros Hrun Hd. destruct (begin_objects su sa ru r Hrun) as (objs & Hb & Hs & _). exists objs.
    unfold dm_run_with in Hd. fold (dm_begin r) in Hd. rewrite Hb in Hd. cbn [rbind] in Hd.
    destruct (dm_walk _ _ _ _) as [[d1 s]|]; [|done]. cbn in Hd. injection Hd as ->. by exists s.
  Qed.
  Lemma with_detect fuel r d d' : dm_run_with fpath fp orc near fuel true false r m = Ok d -> dm_detect fuel m d = Ok d' ->
    dm_run_with fpath fp orc near fuel false false r m = Ok d'.
  Proof.
    unfold dm_run_with. destruct (if r then _ else _) as [d0|]; [|done]. cbn [rbind].
    destruct (dm_walk _ _ _ _) as [[d1 s]|]; [|done]. cbn. by intros [= ->].
  Qed.
End with_start.

Lemma with_default fpath fp orc near fuel m :
  dm_run_with fpath fp orc near fuel false false false m = dm_run fpath fp orc near fuel m.
Proof.
  unfold dm_run_with, dm_run, dm_run_sparse. destruct (run_no_rebuild fp orc m) as [[[su sa] ru]|]; [|done]. cbn [rbind].
  by destruct (dm_walk _ _ _ _) as [[d s]|].
Qed.
Lemma objects_unlinked m su sa ru objs : started m sa objs -> unlinked (mp_world (dm_objects su objs ru)).
Proof.
  intros Hs. destruct (objects_bare m su sa ru objs Hs) as (B1 & B2 & _ & B4). split; [done|]. split; [done|].
  intros a u Hu. split; [by apply (B4 a)|]. cbn in Hu. by apply list_lookup_fmap_Some in Hu as (f & _ & ->).
Qed.
