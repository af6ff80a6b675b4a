(** Proofs about the divide tree of a finished analysis. *)
From Verif Require Import Run_model Walk_model Raster_spec Closest_spec Feature_spec Network_spec Climb_spec Graph_spec
  Walk_spec Basin_model Basin_spec Terrain_spec Run_spec Rebuilt_spec Mesh_proof Start_proof Terrain_proof Run_proof Rebuilt_proof
  Basin_proof Forest_proof Detect_proof Climb_facts Closest_proof Divide_model Divide_spec Region_spec Divide_proof Region_proof.
From Verif Require Contig_proof.
Local Open Scope Z_scope.

Lemma omap_length_all {A B} (f : A -> option B) l : (forall x, x ∈ l -> is_Some (f x)) -> length (omap f l) = length l.
Proof.
  induction l as [|x l IH]; intros H; [done|]. cbn. destruct (H x) as [y ->]; [by left|]. cbn. f_equal. apply IH. intros z Hz. apply H. by right.
Qed.
Lemma omap_nodup_inj {A B} (f : A -> option B) l x y z : NoDup (omap f l) -> x ∈ l -> y ∈ l -> f x = Some z -> f y = Some z -> x = y.
Proof.
  induction l as [|a l IH]; intros Hnd Hx Hy Ex Ey; [by apply elem_of_nil in Hx|]. cbn in Hnd.
  assert (forall b, b ∈ l -> f b = Some z -> f a = Some z -> False) as Hno.
  { intros b Hb Eb Ea. rewrite Ea in Hnd. apply NoDup_cons in Hnd as [Hn _]. apply Hn. apply elem_of_list_omap. eauto. }
  apply elem_of_cons in Hx as [->|Hx]; apply elem_of_cons in Hy as [->|Hy]; try done; [by destruct (Hno y)|by destruct (Hno x)|].
  apply IH; try done. destruct (f a); [by apply NoDup_cons in Hnd as [_ ?]|done].
Qed.

Section finished.
  Variables (fpath : datamap -> list mpoint -> mpoint -> mpoint -> option (list mpoint * Q)).
  Variables (fp : datamap -> list xy -> xy -> xy -> option Q) (orc : xy -> nat -> nat -> nat).
  Variables (near : searches) (m : datamap).
  Hypotheses (Hf : mpaths_found fpath m) (Hnear : sound_searches near m) (Hok : map_ok m) (Hup : north_up m)
    (Hlow : climbable m) (Hpix : pixels_in_reach m) (Hreach : map_in_reach m) (Hfp : paths_found fp m)
    (Hfine : fine_grid m).
  Variables (su sa ru : list feature) (objs : list saddle) (d : dmap) (s : walk_state) (fuel : nat) (d' : dmap).
  Hypotheses (Hrun : run_no_rebuild fp orc m = Ok (su, sa, ru)) (Hstd : started m sa objs)
    (Hdm : dm_walk fpath near m (dm_objects su objs ru) = Ok (d, s))
    (Hap : Run_spec.border_apart m (mp_world d) (mp_saddles d)) (Hdet : dm_detect fuel m d = Ok d').
  Local Notation w := (mp_world d).
  Local Notation w' := (mp_world d').

  Let Hmesh := run_mesh fpath fp orc near m Hf Hnear Hok Hup Hlow Hpix Hreach Hfp Hfine su sa ru objs d s Hrun Hstd Hdm.
  Let Hclaims := run_claims fpath fp orc near m Hf Hnear Hok Hup Hlow Hpix Hreach Hfp su sa ru objs d s Hrun Hstd Hdm.
  Let Hparts := run_parts fpath fp orc near m Hf Hnear Hok Hup Hlow Hpix Hreach Hfp Hfine su sa ru objs d s Hrun Hstd Hdm Hap fuel d' Hdet.

  Lemma finished_tree : tree_graph w'.
  Proof.
    destruct Hmesh as (T & _). destruct Hclaims as (HL & _). destruct Hparts as (E & G & K & _).
    pose proof (detect_flags m w (mp_saddles d) G K fuel) as HF. rewrite E in HF. destruct HF as (S & B & A & M & M1 & HS & _).
    pose proof (walked_override fpath fp orc near m Hf Hnear Hok Hup Hlow Hpix Hreach Hfp Hfine su sa ru objs d s Hrun Hstd Hdm) as Hno.
    assert (forall i, open_ w' (Sad i) -> open_ w (Sad i) /\ i ∉ S /\ i ∉ B) as Hopen.
    { intros i Hi. split; [by eapply (marked_open _ _ _ _ _ (Sad i) M)|].
      destruct Hi as (b & Hb & Hd & _). destruct (marked_back _ _ _ _ _ _ _ M Hb) as [a Ha].
      destruct (mk_saddle _ _ _ _ _ M _ _ Ha) as (b' & Hb' & _ & _ & _ & _ & Eo & Es & Ebb & _).
      assert (b' = b) as -> by congruence. unfold disqualified in Hd. rewrite Eo in Hd. pose proof (Hno i a Ha) as Hn.
      destruct (sa_over a) as [[]|]; [done|done|]. apply orb_false_iff in Hd as [Hd1 Hd2]. split; intros Hin.
      - assert (sa_single b = true) by (apply Es; by right). congruence.
      - assert (sa_basin b = true) by (apply Ebb; by right). congruence. }
    assert (forall i b, w_saddles w' !! i = Some b -> exists a, w_saddles w !! i = Some a /\ sa_links b = sa_links a) as Hsad.
    { intros i b Hb. destruct (marked_back _ _ _ _ _ _ _ M Hb) as [a Ha]. exists a. split; [done|].
      destruct (mk_saddle _ _ _ _ _ M _ _ Ha) as (b' & Hb' & _ & El & _). congruence. }
    assert (forall k l, w_links w !! k = Some l -> exists l', w_links w' !! k = Some l' /\ ln_summit l' = ln_summit l /\ ln_saddle l' = ln_saddle l) as Hlk.
    { intros k l Hl. destruct (mk_link _ _ _ _ _ M _ _ Hl) as (l' & Hl' & E1 & E2 & _). eauto. }
    assert (forall k l, w_links w !! k = Some l -> open_ w' (Sad (ln_saddle l)) -> joins w' k (ln_summit l) (ln_saddle l)) as Hgood.
    { intros k l Hl Ho. destruct (mk_link _ _ _ _ _ M _ _ Hl) as (l' & Hl' & E1 & E2 & Ed). exists l'. split; [done|]. split; [done|]. split; [done|].
      destruct (ln_disq l') eqn:Edq; [|done]. exfalso. destruct (proj1 Ed eq_refl) as [Hd|(j & a & Hj & Ha & Hk)].
      - destruct (wl_link _ _ _ _ _ _ _ HL k l Hl ltac:(lia)) as (_ & _ & _ & _ & _ & Hd' & _). congruence.
      - destruct (t_sa _ _ T j a k Ha Hk) as (l2 & Hl2 & E3). assert (l2 = l) as -> by congruence. subst j.
        destruct (Hopen _ Ho) as (_ & H1 & H2). destruct Hj; done. }
    assert (forall a u, w_summits w' !! a = Some u -> w_summits w !! a = Some u) as Hsu by (by rewrite (mk_summits _ _ _ _ _ M)).
    split.
    - split.
      + intros a u k Hu Hk. destruct (t_su _ _ T a u k (Hsu _ _ Hu) Hk) as (l & Hl & Ea). destruct (Hlk k l Hl) as (l' & Hl' & E1 & _).
        exists l'. split; [done|congruence].
      + intros i o k Ho Hk. destruct (Hsad i o Ho) as (o0 & Ho0 & El). rewrite El in Hk.
        destruct (t_sa _ _ T i o0 k Ho0 Hk) as (l & Hl & Ea). destruct (Hlk k l Hl) as (l' & Hl' & _ & E1).
        exists l'. split; [done|congruence].
    - intros i o Hi Ho. destruct (Hsad i o Ho) as (o0 & Ho0 & ->). destruct (Hopen i Hi) as (Hi' & _).
      pose proof (bg_two _ _ _ G i Hi') as H2. unfold summits_of in H2. rewrite Ho0 in H2.
      erewrite omap_length_all in H2; [done|]. intros k Hk. destruct (t_sa _ _ T i o0 k Ho0 Hk) as (l & -> & _). by eexists.
    - intros i k Hi (o & Ho & Hk). destruct (Hsad i o Ho) as (o0 & Ho0 & El). rewrite El in Hk. destruct (Hopen i Hi) as (Hi' & _).
      destruct (bg_saddle _ _ _ G i o0 k Hi' Ho0 Hk) as (l & Hl & Ei & Hu). exists (ln_summit l). split.
      + rewrite <-Ei. apply Hgood; [done|by rewrite Ei].
      + intros (u & Hu' & He). exists u. split; [done|]. apply Hu; [by apply Hsu|done].
    - intros a k i (u & Hu & He) (u' & Hu' & Hk) (l' & Hl' & E1 & E2 & Hd) (o & Ho & Hdo & Heo).
      assert (u' = u) as -> by congruence. destruct (t_su _ _ T a u k (Hsu _ _ Hu) Hk) as (l & Hl & Ea).
      destruct (Hlk k l Hl) as (l2 & Hl2 & F1 & F2). assert (l2 = l') as -> by congruence.
      destruct (t_both _ _ T a u k l (Hsu _ _ Hu) Hk Hl) as (o0 & Ho0 & Hk0). rewrite <-F2, E2 in Ho0.
      exists o. split; [done|]. destruct (Hsad i o Ho) as (o1 & Ho1 & ->). congruence.
    - intros a u _ Hu. by eapply (t_sund _ _ T), Hsu.
    - intros i k k' a Hi (o & Ho & Hk) (o' & Ho' & Hk') (l & Hl & E1 & _) (l' & Hl' & E1' & _).
      assert (o' = o) as -> by congruence. destruct (Hsad i o Ho) as (o0 & Ho0 & El). rewrite El in *.
      pose proof (detect_nodup m w (mp_saddles d) G K i (marked_open _ _ _ _ _ (Sad i) M1 Hi)) as Hnd.
      unfold summits_of in Hnd. rewrite Ho0 in Hnd.
      assert (forall x lx, x ∈ sa_links o0 -> w_links w' !! x = Some lx -> ln_summit <$> w_links w !! x = Some (ln_summit lx)) as Hsame.
      { intros x lx Hx Hlx. destruct (t_sa _ _ T i o0 x Ho0 Hx) as (l0 & Hl0 & _). rewrite Hl0. cbn.
        destruct (Hlk x l0 Hl0) as (l1 & Hl1 & F1 & _). congruence. }
      eapply (omap_nodup_inj _ _ k k' a Hnd); try done; [rewrite (Hsame k l)|rewrite (Hsame k' l')]; congruence.
    - exact (parts_forest fpath fp orc near m Hf Hnear Hok Hup Hlow Hpix Hreach Hfp Hfine su sa ru objs d s Hrun Hstd Hdm Hap fuel d' Hdet).
  Qed.

  Lemma finished_marked : exists S B A, marked S B A w w'.
  Proof.
    destruct Hparts as (E & G & K & _).
    pose proof (detect_flags m w (mp_saddles d) G K fuel) as HF. rewrite E in HF. destruct HF as (S & B & A & M & _). by exists S, B, A.
  Qed.
  Lemma finished_saddle i x : not_disq w' i -> x ∈ summits_of w' i ->
    open_ w' (Sad i) /\ is_Some (su !! x) /\ ele_at w' (Sad i) < ele_at w' (Sum x).
  Proof.
    destruct finished_marked as (S & B & A & M). destruct Hmesh as (T & _ & _ & F & _). destruct Hclaims as (HL & _).
    intros Hnd Hx. pose proof Hnd as (b & Hb & Hd). rewrite (marked_summits_of _ _ _ _ _ _ M) in Hx.
    pose proof (disq_marked _ _ _ _ _ _ M Hnd) as Hnd'.
    destruct (saddle_origin fpath fp orc near m Hf Hnear Hok Hup Hlow Hpix Hreach Hfp su sa ru objs d s Hrun Hstd Hdm i x Hnd' Hx)
      as (p & o & f & _ & Ho & He & _ & _ & Hlen & _).
    destruct (mk_saddle _ _ _ _ _ M _ _ Ho) as (b' & Hb' & Ef & _). assert (b' = b) as -> by congruence.
    destruct (in_summits d i x Hx) as (o' & k & l & Ho' & Hk & Hl & Ex). assert (o' = o) as -> by congruence.
    destruct (t_sa _ _ T i o k Ho Hk) as (l' & Hl' & Ei). assert (l' = l) as -> by congruence.
    destruct (wl_link _ _ _ _ _ _ _ HL k l Hl ltac:(lia)) as (o1 & u1 & _ & Ho1 & Hu1 & _ & _ & _ & Hlt & _).
    rewrite Ei in Ho1. assert (o1 = o) as -> by congruence. rewrite Ex in Hu1.
    split; [exists b; rewrite Ef; done|]. split.
    - specialize (F x). rewrite Hu1 in F. cbn in F. rewrite <-F. by eexists.
    - rewrite !(ele_marked _ _ _ _ _ _ M). cbn. rewrite Ho, Hu1. apply Hlt. intros Hn. by rewrite Hn in Hlen.
  Qed.
  Lemma finished_summit x : su_feat <$> w_summits w' !! x = su !! x.
  Proof. destruct finished_marked as (S & B & A & M). rewrite (mk_summits _ _ _ _ _ M). apply Hmesh. Qed.
  Lemma finished_height x f : su !! x = Some f -> ele_at w' (Sum x) = ft_ele f.
  Proof. intros H. rewrite <-finished_summit in H. cbn. destruct (w_summits w' !! x) as [u|]; [|done]. cbn in H. by injection H as ->. Qed.

  Local Notation above e := (fun i => e <= ele_at w' (Sad i)).
  Let Hterrain x y a b e := parts_terrain fpath fp orc near m Hf Hnear Hok Hup Hlow Hpix Hreach Hfp Hfine su sa ru objs d s Hrun Hstd Hdm Hap fuel d' x y a b e Hdet.

  Theorem finished_key x f a c e t0 : su !! x = Some f -> ft_edge f = false -> covers f a ->
    lp_busted (local_prominent_region m w' x t0) = [] -> ground_joined m e a c -> elev m a < elev m c ->
    exists q i, (q, i) ∈ lp_paths (local_prominent_region m w' x t0) /\ over w' (above e) q.
  Proof.
    intros Hx Hef Ha Hb HJ Hlt.
    assert (e <= elev m a) as Hea by (apply Contig_proof.linked_in_l in HJ; apply HJ).
    destruct (proj2 (terrain_higher fpath fp orc near m Hf Hnear Hok Hup Hlow Hpix Hreach Hfp Hfine su sa ru objs d s Hrun Hstd Hdm x a e
      ltac:(by exists f) Hea)) as (y & b & Hy & Hab & HJ'); [by exists c|].
    destruct Hparts as (E & G & K & _). destruct (detect_key m _ _ fuel _ G K E x y) as [_ HK]. apply HK in HJ'. clear HK.
    assert (open_ w' (Sum x)) as Hopen.
    { rewrite <-finished_summit in Hx. cbn. destruct (w_summits w' !! x) as [u|] eqn:Eu; [|done]. injection Hx as Hx. exists u. by rewrite Hx. }
    destruct (region_key m w' finished_tree x Hopen t0 (above e) Hb) with (3 := HJ') as [(p & ns & Hp & _)|?]; [| |exfalso|done].
    - intros i Hnd Hne. destruct (summits_of w' i) as [|z l] eqn:Es; [done|]. apply (finished_saddle i z Hnd). rewrite Es. by left.
    - intros i z Hnd Hz. destruct (finished_saddle i z Hnd Hz) as (_ & [g Hg] & _). rewrite <-finished_summit in Hg.
      destruct (w_summits w' !! z); [by eexists|done].
    - apply (tp_below w' x Hopen) in Hp as (z & z' & (u & Hu & <-) & (u' & Hu' & <-) & Hle).
      destruct Hy as (g & Hg & Hgb). destruct (summit_levels fp orc m Hok Hfp su sa ru Hrun) as (SL & _).
      rewrite <-(SL x f a Hx Ha), <-(SL y g b Hg Hgb) in Hab.
      rewrite <-finished_summit, Hu in Hg. rewrite <-finished_summit, Hu' in Hx. injection Hg as <-. injection Hx as <-. lia.
  Qed.

  Lemma finished_both a k i : at_summit w' a k -> joins w' k a i -> at_saddle w' i k.
  Proof.
    destruct finished_marked as (S & B & A & M). destruct Hmesh as (T & _). intros (u & Hu & Hk) (l' & Hl' & E1 & E2 & _).
    rewrite (mk_summits _ _ _ _ _ M) in Hu. destruct (t_su _ _ T a u k Hu Hk) as (l & Hl & Ea).
    destruct (mk_link _ _ _ _ _ M _ _ Hl) as (l2 & Hl2 & F1 & F2 & _). assert (l2 = l') as -> by congruence.
    destruct (t_both _ _ T a u k l Hu Hk Hl) as (o & Ho & Hko). rewrite <-F2, E2 in Ho.
    destruct (mk_saddle _ _ _ _ _ M _ _ Ho) as (b & Hb & _ & El & _). exists b. by rewrite El.
  Qed.
  Lemma at_summits i k a : at_saddle w' i k -> joins w' k a i -> a ∈ summits_of w' i.
  Proof.
    intros (o & Ho & Hk) (l & Hl & E & _). unfold summits_of. rewrite Ho. apply elem_of_list_omap. exists k. rewrite Hl. by rewrite <-E.
  Qed.
  Lemma descent_joined (ok : nat -> Prop) x p b ns : open_ w' (Sum x) -> descent w' x p b ns -> over w' ok p -> joined w' ok x b.
  Proof.
    intros Hx. induction 1 as [|p b ns k i j c H IH Hh Hs Hc]; intros Hov; [apply rtc_refl|].
    eapply rtc_r; [apply IH; intros k0 a0 s0 Hk0; apply (Hov k0 a0 s0); apply elem_of_app; by left|].
    pose proof (tp_open w' x Hx _ _ _ H) as Hb.
    destruct Hh as (H1 & H2 & H3 & H4 & _ & H6 & _). exists i. split; [|split_and!].
    - apply (Hov k b i); [apply elem_of_app; right; by left|done].
    - destruct H3 as (o & Ho & Hd & _). by exists o.
    - eapply at_summits; [|done]. by apply (tg_sum w' finished_tree b k i).
    - by eapply at_summits.
  Qed.

  Theorem finished_way x f a q i e t0 : su !! x = Some f -> ft_edge f = false -> covers f a ->
    lp_busted (local_prominent_region m w' x t0) = [] ->
    (q, i) ∈ lp_paths (local_prominent_region m w' x t0) -> over w' (above e) q ->
    exists y g z h, su !! y = Some g /\ su !! z = Some h /\ y ∈ summits_of w' i /\ z ∈ summits_of w' i /\ y <> z /\
      (ft_edge g = true \/ ft_ele h < ft_ele g) /\ forall b, covers g b -> ground_joined m e a b.
  Proof.
    intros Hx Hef Ha Hb Hq Hov.
    assert (open_ w' (Sum x)) as Hopen.
    { rewrite <-finished_summit in Hx. cbn. destruct (w_summits w' !! x) as [u|] eqn:Eu; [|done]. injection Hx as Hx. exists u. by rewrite Hx. }
    apply (region_paths m w' finished_tree x Hopen t0 Hb) in Hq as (p & z & ns & k & -> & Hp & Hk & Hj & Hs & Hend).
    pose proof (tp_open w' x Hopen _ _ _ Hp) as Hz.
    assert (forall a, joined w' (above e) x a -> a <> x -> e <= ele_at w' (Sum x)) as Hfirst.
    { intros y Hy Hne. apply rtc_inv in Hy as [->|(v & (i0 & Hok0 & Hnd0 & Hx0 & _) & _)]; [done|].
      destruct (finished_saddle i0 x Hnd0 Hx0) as (_ & _ & Hlt). eapply Z.le_trans; [exact Hok0|]. by apply Z.lt_le_incl. }
    assert (forall sd, live_saddle w' i sd -> not_disq w' i) as Hnd by (intros sd (o & Ho & Hd & _); by exists o).
    assert (live_saddle w' i false /\ exists j y, at_saddle w' i j /\ j <> k /\ joins w' j y i /\
      ((exists g, su !! y = Some g /\ ft_edge g = true) \/ higher w' y z)) as (Hlive & j & y & Hjs & Hjk & Hjy & Hcase).
    { destruct Hend as [[Hb1|(Hl & j & y & A1 & A2 & A3 & A4 & _)]|(Hl & j & y & A1 & A2 & A3 & A4)].
      - exfalso. pose proof (finished_both z k i Hk Hj) as Hks.
        destruct (finished_saddle i z (Hnd _ Hb1) (at_summits _ _ _ Hks Hj)) as ((o & Ho & _ & He) & _).
        destruct Hb1 as (o' & Ho' & _ & He'). congruence.
      - split; [done|]. exists j, y. split; [done|]. split; [done|]. split; [done|]. left. destruct A4 as (u & Hu & He).
        exists (su_feat u). rewrite <-finished_summit, Hu. done.
      - split; [done|]. exists j, y. split; [done|]. split; [done|]. split; [done|]. by right. }
    assert (open_ w' (Sad i)) as Hi by done.
    assert (at_saddle w' i k) as Hks by by apply (tg_sum w' finished_tree z k i).
    pose proof (at_summits i j y Hjs Hjy) as Hyi. pose proof (at_summits i k z Hks Hj) as Hzi.
    destruct (finished_saddle i y (Hnd _ Hlive) Hyi) as (_ & [g Hg] & Hyup).
    destruct (finished_saddle i z (Hnd _ Hlive) Hzi) as (_ & [h Hh] & Hzup).
    assert (y <> z) as Hyz. { intros ->. apply Hjk. by apply (tg_one w' finished_tree i j k z). }
    assert (e <= ele_at w' (Sad i)) as Hei. { apply (Hov k z i); [apply elem_of_app; right; by left|done]. }
    assert (joined w' (above e) x y) as HJ.
    { eapply rtc_r; [eapply (descent_joined (above e)); [done|exact Hp|]|].
      - intros k0 a0 s0 Hk0. apply (Hov k0 a0 s0). apply elem_of_app. by left.
      - exists i. split; [done|]. split; [by eapply Hnd|done]. }
    exists y, g, z, h. do 5 (split; [done|]). split.
    - destruct Hcase as [(g' & Hg' & He)|(v & v' & (u & Hu & <-) & (u' & Hu' & <-) & Hlt)]; [left; congruence|right].
      rewrite <-finished_summit, Hu in Hg. rewrite <-finished_summit, Hu' in Hh. injection Hg as <-. injection Hh as <-. done.
    - intros b Hgb. destruct (summit_levels fp orc m Hok Hfp su sa ru Hrun) as (SL & _).
      apply (Hterrain x y a b e); [by exists f|by exists g| | |done].
      + rewrite <-(SL x f a Hx Ha), <-(finished_height x f Hx). destruct (decide (y = x)) as [->|Hne]; [|by eapply Hfirst].
        eapply Z.le_trans; [exact Hei|]. by apply Z.lt_le_incl.
      + rewrite <-(SL y g b Hg Hgb), <-(finished_height y g Hg). eapply Z.le_trans; [exact Hei|]. by apply Z.lt_le_incl.
  Qed.

  Theorem finished_summits : mp_summits d' = seq 0 (length su).
  Proof.
    destruct Hparts as (_ & _ & _ & -> & _). pose proof Hdm as H. unfold dm_walk in H.
    destruct (climb_from_saddles _ _ _ _ _ _); [|done]. cbn [rbind] in H. by injection H as <- _.
  Qed.
  Theorem finished_highest t : (exists c, data_cell m c) ->
    exists h f out t', run_tree m w' (mp_summits d') t = Ok (h, out, t') /\ su !! h = Some f /\
      forall c, data_cell m c -> elev m c <= ft_ele f.
  Proof.
    intros [c0 Hc0]. destruct (summit_facts fp orc m Hok Hfp su sa ru Hrun) as (_ & _ & _ & S4 & _).
    destruct (summit_levels fp orc m Hok Hfp su sa ru Hrun) as (SL & _).
    pose proof (tg_own w' finished_tree) as Hown.
    assert (forall c, data_cell m c -> exists y g, su !! y = Some g /\ elev m c <= ft_ele g) as Hup'.
    { intros c Hc. destruct (peak_above fp orc m Hok Hfp c Hc) as (t1 & Ht & Hu). destruct (S4 t1 Ht) as (y & g & Hg & Hgt).
      exists y, g. split; [done|]. rewrite (SL y g t1 Hg Hgt). pose proof (joined_uphill m c t1 Hu) as HJ.
      apply Contig_proof.linked_in_r in HJ. apply HJ. }
    pose proof (run_tree_spec m w' Hown (mp_summits d') t) as HR. rewrite finished_summits in *.
    destruct (run_tree m w' (seq 0 (length su)) t) as [[[h out] t']|e].
    2: { exfalso. destruct HR as [HR _]. destruct (Hup' c0 Hc0) as (y & g & Hg & _). apply lookup_lt_Some in Hg.
         destruct su; cbn in *; [lia|done]. }
    destruct HR as (HR & _). apply first_highest_spec in HR as (l1 & l2 & E & F1 & F2).
    assert (h ∈ seq 0 (length su)) as Hh by (rewrite E; apply elem_of_app; right; by left).
    apply elem_of_seq in Hh. destruct (lookup_lt_is_Some_2 su h) as [f Hfh]; [lia|].
    exists h, f, out, t'. split; [done|]. split; [done|]. intros c Hc. destruct (Hup' c Hc) as (y & g & Hg & Hle).
    assert (summit_ele w' y <= summit_ele w' h) as Hsu.
    { assert (y ∈ seq 0 (length su)) as Hy by (apply elem_of_seq; apply lookup_lt_Some in Hg; lia).
      rewrite E in Hy. rewrite Forall_forall in F1, F2. apply elem_of_app in Hy as [Hy|[->|Hy]%elem_of_cons]; [apply Z.lt_le_incl; by apply F1|lia|by apply F2]. }
    assert (forall v k, su !! v = Some k -> summit_ele w' v = ft_ele k) as Hse.
    { intros v k Hv. pose proof (finished_height v k Hv) as Hev. unfold summit_ele. cbn in Hev. destruct (w_summits w' !! v); done. }
    rewrite (Hse y g Hg), (Hse h f Hfh) in Hsu. lia.
  Qed.
End finished.

Lemma with_finish fpath fp orc near m fuel r su sa ru d d' : sound_searches near m -> map_ok m -> map_in_reach m -> paths_found fp m ->
  run_no_rebuild fp orc m = Ok (su, sa, ru) ->
  dm_run_with fpath fp orc near fuel true false r m = Ok d -> dm_run_with fpath fp orc near fuel false false r m = Ok d' ->
  exists objs s, started m sa objs /\ dm_walk fpath near m (dm_objects su objs ru) = Ok (d, s) /\ dm_detect fuel m d = Ok d'.
Proof.
  intros H1 H2 H3 H4 Hrun Hd Hd'. destruct (with_walk fpath fp orc near m H1 H2 H3 H4 fuel r su sa ru d Hrun Hd) as (objs & s & Hs & Hw).
  exists objs, s. split; [done|]. split; [done|]. unfold dm_run_with in *. destruct (if r then _ else _) as [d0|]; [|done]. cbn [rbind] in *.
  destruct (dm_walk fpath near m d0) as [[d1 s1]|]; [|done]. cbn [rbind] in *. by injection Hd as <-.
Qed.

Lemma run_tree_region m w summits t h out t' x r : own_links w -> run_tree m w summits t = Ok (h, out, t') -> tr_busted t' = [] ->
  (x, r) ∈ out -> exists t0, r = local_prominent_region m w x t0 /\ lp_busted r = [].
Proof.
  intros Hown E Hb Hin. pose proof (run_tree_spec m w Hown summits t) as R. rewrite E in R. destruct R as (_ & _ & R).
  destruct (R x r Hin) as (t0 & Er & Hr). exists t0. auto.
Qed.
