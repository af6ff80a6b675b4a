(** Basin saddle detection from the start. *)
From Verif Require Import Base_model Graph_model Basin_model Graph_spec Basin_spec Graph_proof Basin_proof Search_proof
  Basin_facts Cycle_proof Forest_proof Loop_proof.
From Coq Require Import Sorted.
Local Open Scope Z_scope.

Lemma omap_once {A B} (f : A -> option B) (l : list A) k k' x : NoDup (omap f l) ->
  k ∈ l -> k' ∈ l -> f k = Some x -> f k' = Some x -> k = k'.
Proof.
  intros Hnd. induction l as [|y l IH]; intros Hk Hk' E E'; [by apply elem_of_nil in Hk|].
  cbn in Hnd. apply elem_of_cons in Hk, Hk'.
  assert (forall z, z ∈ l -> f z = Some x -> f y = Some x -> False) as Hno.
  { intros z Hz Ez Ey. rewrite Ey in Hnd. apply NoDup_cons in Hnd as [Hn _]. apply Hn.
    apply elem_of_list_omap. by exists z. }
  destruct Hk as [->|Hk], Hk' as [->|Hk']; [done|exfalso; by eapply (Hno k')|exfalso; by eapply (Hno k)|].
  apply IH; try done. destruct (f y); [by apply NoDup_cons in Hnd as [_ ?]|done].
Qed.
Lemma filter_omap_NoDup {A B} (f : A -> option B) (P : B -> Prop) `{!forall x, Decision (P x)} (l : list A) : NoDup l ->
  (forall k k' x, k ∈ l -> k' ∈ l -> f k = Some x -> f k' = Some x -> P x -> k = k') -> NoDup (filter P (omap f l)).
Proof.
  induction l as [|y l IH]; intros Hnd Hinj; cbn; [constructor|]. apply NoDup_cons in Hnd as [Hy Hnd].
  assert (NoDup (filter P (omap f l))) as H0.
  { apply IH; [done|]. intros k k' x Hk Hk'. apply Hinj; by right. }
  destruct (f y) as [x|] eqn:E; [|done]. rewrite filter_cons. destruct (decide (P x)) as [Hx|Hx]; [|done].
  constructor; [|done]. rewrite elem_of_list_filter, elem_of_list_omap. intros [_ (z & Hz & Ez)].
  assert (y = z) as ->; [|done]. apply (Hinj y z x); try done; [by left|by right].
Qed.

Lemma sort_sorted w l : StronglySorted (fun i j => node_ele w (Sad i) <= node_ele w (Sad j)) (sort_ele w l).
Proof.
  induction l as [|i l IH]; [constructor|]. change (sort_ele w (i :: l)) with (ins_ele w i (sort_ele w l)). revert IH.
  generalize (sort_ele w l). intros k Hk.
  induction Hk as [|j k Hk IH Hf]; cbn [ins_ele]; [constructor; constructor|].
  destruct (Z.leb_spec (node_ele w (Sad i)) (node_ele w (Sad j))).
  - constructor; [by constructor|]. constructor; [done|]. eapply Forall_impl; [done|]. intros x Hx. cbn beta in Hx. lia.
  - constructor; [done|]. rewrite Forall_forall in *. intros x Hx. rewrite ins_perm in Hx.
    apply elem_of_cons in Hx as [->|Hx]; [lia|]. by apply Hf.
Qed.
Lemma sorted_rev {A} (P : A -> A -> Prop) l : StronglySorted P l -> StronglySorted (fun x y => P y x) (rev l).
Proof.
  induction 1 as [|x l Hs IH Hf]; cbn; [constructor|].
  assert (forall k, StronglySorted (fun x y => P y x) k -> (forall y, y ∈ k -> P x y) ->
    StronglySorted (fun x y => P y x) (k ++ [x])) as H.
  { clear. induction 1 as [|y k Hk IH Hf]; cbn; intros Hx; [constructor; constructor|].
    constructor; [apply IH; intros z Hz; apply Hx; by right|]. apply Forall_app. split; [done|].
    constructor; [apply Hx; by left|done]. }
  apply H; [done|]. intros y Hy. rewrite Forall_forall in Hf. apply Hf. apply elem_of_list_In, in_rev. by apply elem_of_list_In.
Qed.

(** A connection gives a chain of distinct members. *)
Lemma rtc_chain {A} `{EqDecision A} (R : A -> A -> Prop) x y : rtc R x y ->
  exists l, linked R (x :: l) /\ NoDup (x :: l) /\ last (x :: l) = Some y.
Proof.
  induction 1 as [x|x z y Hxz _ (l & Hl & Hnd & Hlast)].
  - exists []. split; [intros [|k] a b Ha Hb; done|]. split; [apply NoDup_singleton|done].
  - destruct (decide (x ∈ z :: l)) as [Hin|Hin].
    + apply elem_of_list_split in Hin as (l1 & l2 & E). rewrite E in *. exists l2.
      split; [apply linked_app in Hl; apply Hl|]. split; [by apply NoDup_app in Hnd as (_ & _ & ?)|].
      by rewrite last_app_cons in Hlast.
    + exists (z :: l). split; [apply linked_cons; split; [by intros ? [= <-]|done]|]. split; [by constructor|].
      by rewrite last_cons_cons.
Qed.

Section detect.
  Variable m : datamap.
  Variables (w : world) (saddles : list nat).
  Hypothesis BG : basin_graph m w saddles.
  Hypothesis kept : kept_proper m w.

  Let fs := sort_ele w (dict_keys [] saddles).
  Let w1 := stub_phase m w fs.

  Lemma detect_stubs : exists S, marked S [] [] w w1 /\
    (forall i, i ∈ S <-> i ∈ saddles /\ not_disq w i /\ one_summit m w i).
  Proof.
    destruct (features_spec w saddles) as [Hnd Hfs].
    destruct (stub_spec m fs w Hnd) as (S & M & HS). exists S. split; [done|]. intros i. rewrite HS. unfold fs. by rewrite Hfs.
  Qed.

  (** Open saddles have two different summits after the first phase. *)
  Lemma detect_proper i : open_ w1 (Sad i) -> summits_of w i <> [] -> ~ one_summit m w i.
  Proof.
    destruct detect_stubs as (S & M & HS). intros Hi Hne. pose proof (marked_open _ _ _ _ _ _ M Hi) as Hi'.
    intros H. destruct Hi' as (s & Hs & Hd & He). assert (i ∈ S) as HiS.
    { apply HS. split; [by apply (bg_all _ _ _ BG); [exists s|]|]. split; [by exists s|done]. }
    destruct Hi as (b & Hb & Hdb & _).
    destruct (mk_saddle _ _ _ _ _ M _ _ Hs) as (b' & Hb' & _ & _ & _ & _ & Eo & Es & _).
    assert (b' = b) as -> by congruence. unfold disqualified in *. rewrite Eo in Hdb.
    destruct (sa_over s) as [[]|] eqn:E; [done|by apply (kept i s)|].
    rewrite (proj2 Es) in Hdb by by right. done.
  Qed.
  Lemma detect_nodup i : open_ w1 (Sad i) -> NoDup (summits_of w i).
  Proof.
    destruct detect_stubs as (S & M & HS). intros Hi. pose proof (marked_open _ _ _ _ _ _ M Hi) as Hi'.
    pose proof (bg_two _ _ _ BG i Hi') as H2. pose proof (detect_proper i Hi) as Hone.
    unfold one_summit in Hone. destruct (summits_of w i) as [|x [|y [|z l]]]; cbn in H2; [constructor|apply NoDup_singleton| |lia].
    specialize (Hone ltac:(done)).
    constructor; [|apply NoDup_singleton]. intros ->%elem_of_list_singleton. apply Hone.
    intros a b. rewrite !elem_of_cons, !elem_of_nil. intros [->|[->|[]]] [->|[->|[]]]; apply summit_same_refl.
  Qed.

  Lemma detect_simple : simple_graph w1.
  Proof.
    pose proof detect_nodup as Hnd. destruct detect_stubs as (S & M & HS).
    assert (forall n, open_ w1 n -> open_ w n) as Ho by (intros n; by eapply marked_open).
    assert (forall i a, open_ w (Sad i) -> open_ w (Sum a) -> edge w (Sad i) (Sum a) -> edge w (Sum a) (Sad i)) as Hsym1.
    { intros i a Hi Ha He. cbn [edge] in *. unfold summits_of in He. destruct (w_saddles w !! i) as [s|] eqn:Es; [|by apply elem_of_nil in He].
      apply elem_of_list_omap in He as (k & Hk & E). destruct (bg_saddle _ _ _ BG i s k Hi Es Hk) as (l & Hl & Hli & Hlu).
      rewrite Hl in E. injection E as E. destruct Ha as (u & Hu & Hue). unfold saddles_of. rewrite Hu.
      apply elem_of_list_omap. exists k. rewrite Hl. split; [apply Hlu; congruence|]. cbn. congruence. }
    assert (forall i a, open_ w (Sad i) -> open_ w (Sum a) -> edge w (Sum a) (Sad i) -> edge w (Sad i) (Sum a)) as Hsym2.
    { intros i a Hi Ha He. cbn [edge] in *. unfold saddles_of in He. destruct (w_summits w !! a) as [u|] eqn:Es; [|by apply elem_of_nil in He].
      apply elem_of_list_omap in He as (k & Hk & E). destruct (bg_summit _ _ _ BG a u k Ha Es Hk) as (l & Hl & Hli & Hlu).
      rewrite Hl in E. injection E as E. destruct Hi as (s & Hs & Hsd & Hse). unfold summits_of. rewrite Hs.
      apply elem_of_list_omap. exists k. rewrite Hl. split; [apply Hlu; congruence|]. cbn. congruence. }
    split.
    - intros n n' Hn Hn'. rewrite !(marked_edge _ _ _ _ _ _ _ M).
      destruct n, n'; try done; [apply Hsym1|apply Hsym2]; by apply Ho.
    - intros i Hi. rewrite (marked_summits_of _ _ _ _ _ _ M). apply NoDup_filter. by apply Hnd.
    - intros a Ha. rewrite (marked_saddles_of _ _ _ _ _ _ M). unfold saddles_of.
      destruct (w_summits w !! a) as [u|] eqn:Eu; [|constructor].
      apply filter_omap_NoDup; [by apply (bg_once _ _ _ BG a); [apply Ho|]|].
      intros k k' i Hk Hk' E E' Hi. apply open_dead in Hi. pose proof (Ho _ Hi) as (s & Hs & Hsd & Hse).
      specialize (Hnd i Hi). unfold summits_of in Hnd. rewrite Hs in Hnd.
      destruct (bg_summit _ _ _ BG a u k (Ho _ Ha) Eu Hk) as (l & Hl & Hla & Hls).
      destruct (bg_summit _ _ _ BG a u k' (Ho _ Ha) Eu Hk') as (l' & Hl' & Hla' & Hls').
      rewrite Hl in E. rewrite Hl' in E'. cbn in E, E'.
      apply (omap_once _ _ k k' a Hnd).
      + apply (Hls s); congruence.
      + apply (Hls' s); congruence.
      + rewrite Hl. cbn. congruence.
      + rewrite Hl'. cbn. congruence.
    - intros i a Hi Ha He. rewrite !(ele_marked _ _ _ _ _ _ M). apply (bg_up _ _ _ BG). split; [by apply Ho|].
      split; [by apply Ho|]. by apply (marked_edge _ _ _ _ _ _ _ M).
  Qed.
  Lemma detect_two i : open_ w1 (Sad i) -> (length (summits_of w1 i) <= 2)%nat.
  Proof.
    destruct detect_stubs as (S & M & HS). intros Hi. rewrite (marked_summits_of _ _ _ _ _ _ M).
    apply (bg_two _ _ _ BG). by eapply marked_open.
  Qed.
  (** What is flagged, and why. *)
  Lemma detect_flags fuel :
    match disqualify_basin_saddles m fuel w saddles with
    | Ok w' => exists S B A, marked S B A w w' /\ marked [] B A w1 w' /\
        (forall i, i ∈ S <-> i ∈ saddles /\ not_disq w i /\ one_summit m w i) /\
        (forall b, b ∈ B -> blamed (closed (open_edge w)) w b /\ blamed (closed (open_edge w1)) w1 b) /\
        (forall a, a ∈ A -> alternatives m (closed (open_edge w)) w w' a)
    | Err e => e = OutOfFuel
    end.
  Proof.
    unfold disqualify_basin_saddles. fold fs. fold w1. destruct detect_stubs as (S & M & HS).
    pose proof (loop_cycles m fuel w1 (rev fs) detect_simple) as H.
    destruct (basin_loop _ _ _ _) as [w'|e]; [|done]. destruct H as (B & A & M2 & HB & HA).
    exists S, B, A. split; [|split; [done|split; [done|split]]].
    - pose proof (marked_trans _ _ _ _ _ _ _ _ _ M M2) as M'. by rewrite app_nil_r in M'.
    - intros b Hb. split; [|by apply HB]. eapply blamed_marked; [done|by apply HB].
    - intros a Ha. eapply alternatives_marked; [done|by apply HA].
  Qed.

  Lemma detect_forest fuel w' : disqualify_basin_saddles m fuel w saddles = Ok w' ->
    forall c, ~ closed (open_edge w') c.
  Proof.
    unfold disqualify_basin_saddles. fold fs. fold w1. apply loop_forest.
    - apply detect_simple.
    - apply detect_two.
    - destruct detect_stubs as (S & M & HS). destruct (features_spec w saddles) as [Hnd Hfs]. split.
      + eapply sorted_ext; [|apply (sorted_rev _ _ (sort_sorted w _))]. intros x y. cbn beta.
        by rewrite !(ele_marked _ _ _ _ _ _ M), !ele_node.
      + intros i Hi Hn. left. intros c Hc Hic.
        destruct (closed_from _ _ _ Hc Hic) as (x & _ & l & _ & _ & _ & _ & _ & (_ & _ & He) & _).
        destruct Hn. apply elem_of_list_In. rewrite <-in_rev. apply elem_of_list_In, Hfs.
        apply (bg_all _ _ _ BG); [by eapply marked_open|]. intros En. destruct x as [?|a]; [done|]. cbn [edge] in He.
        rewrite (marked_summits_of _ _ _ _ _ _ M), En in He. by apply elem_of_nil in He.
  Qed.

  Lemma joined_hop2 v ok a b : joined v ok a b <-> rtc (hop2 v ok (fun _ => True)) a b.
  Proof.
    unfold joined. split; apply rtc_subrel; intros x y (i & H1 & H2); exists i; destruct_and!; split_and!; done.
  Qed.

  Lemma detect_joined fuel w' (ok : nat -> Prop) a b : disqualify_basin_saddles m fuel w saddles = Ok w' ->
    (forall i j, ok i -> ele_at w (Sad i) <= ele_at w (Sad j) -> ok j) ->
    joined w ok a b <-> joined w' ok a b.
  Proof.
    intros E Hok. destruct detect_stubs as (S' & M1 & HS').
    etrans.
    - assert (joined w ok a b <-> joined w1 ok a b) as ->; [|apply joined_hop2]. split.
      + induction 1 as [|x y z (i & H1 & H2 & H3 & H4) _ IH]; [done|]. etrans; [|exact IH].
        destruct (decide (i ∈ S')) as [Hi|Hi].
        * apply HS' in Hi as (_ & _ & Hone). assert (x = y) as ->; [|done].
          apply (bg_apart _ _ _ BG). by apply Hone.
        * apply rtc_once. exists i. split; [done|]. rewrite (marked_summits_of _ _ _ _ _ _ M1). split; [|done].
          destruct H2 as (s & Hs & Hq). destruct (mk_saddle _ _ _ _ _ M1 _ _ Hs) as (s' & Hs2 & _ & _ & _ & _ & Eo & Es & Eb & _).
          exists s'. split; [done|]. unfold disqualified in *. rewrite Eo. destruct (sa_over s); [done|].
          assert (sa_single s' = sa_single s) as ->. { apply eq_true_iff_eq. rewrite Es. tauto. }
          assert (sa_basin s' = sa_basin s) as ->; [|done]. apply eq_true_iff_eq. rewrite Eb, elem_of_nil. tauto.
      + apply rtc_subrel. intros p q (i & Hi1 & Hi2 & Hi3). exists i. split; [done|]. split; [by eapply disq_marked|].
        by rewrite (marked_summits_of _ _ _ _ _ _ M1) in Hi3.
    - rewrite joined_hop2. apply (loop_joined m fuel ok (fun _ => True) w1 (rev fs)); try done.
      + apply detect_simple.
      + apply detect_two.
      + intros i j Hi _. rewrite !(ele_marked _ _ _ _ _ _ M1). by apply Hok.
  Qed.

  (** A forced saddle that is lowest on a closed chain is found again and again. *)
  Lemma detect_forever fuel i s c : w_saddles w !! i = Some s -> sa_over s = Some false ->
    closed (open_edge w) c -> (forall j, Sad j ∈ c -> ~ one_summit m w j) ->
    Sad i ∈ c -> (forall j, Sad j ∈ c -> j <> i -> ele_at w (Sad i) < ele_at w (Sad j)) ->
    disqualify_basin_saddles m fuel w saddles = Err OutOfFuel.
  Proof.
    intros Hs Ho Hc Hstub Hic Hlow. pose proof (detect_flags fuel) as H.
    destruct (disqualify_basin_saddles m fuel w saddles) as [w'|e] eqn:E; [|by subst e]. exfalso.
    destruct H as (S & B & A & M & M2 & HS & HB & HA). destruct detect_stubs as (S' & M1 & HS').
    pose proof (detect_forest fuel w' E) as Hac.
    assert (forall n, n ∈ c -> open_ w n) as Hopen.
    { intros n Hn. destruct (closed_from _ _ _ Hc Hn) as (x & y & l & _ & _ & _ & _ & _ & (H & _) & _). done. }
    assert (forall n, n ∈ c -> open_ w1 n) as Hopen1.
    { intros n Hn. specialize (Hopen n Hn). destruct n as [j|a].
      - destruct Hopen as (t & Ht & Hq & He).
        destruct (mk_saddle _ _ _ _ _ M1 _ _ Ht) as (t' & Ht' & Ef & _ & _ & _ & Eo & Es & Eb & _).
        exists t'. split; [done|]. rewrite Ef. split; [|done]. unfold disqualified in *. rewrite Eo. destruct (sa_over t); [done|].
        assert (sa_single t' = sa_single t) as ->.
        { apply eq_true_iff_eq. rewrite Es, HS'. specialize (Hstub j Hn). tauto. }
        assert (sa_basin t' = sa_basin t) as ->; [|done]. apply eq_true_iff_eq. rewrite Eb, elem_of_nil. tauto.
      - cbn in *. by rewrite (mk_summits _ _ _ _ _ M1). }
    assert (closed (open_edge w1) c) as Hc1.
    { destruct Hc as (H1 & H2 & H3). split; [done|]. split; [done|]. intros k x y Hx Hy.
      destruct (H3 k x y Hx Hy) as (_ & _ & He).
      assert (forall z k, (c ++ take 1 c) !! k = Some z -> z ∈ c) as Hin.
      { intros z k' Hz. apply elem_of_list_lookup_2, elem_of_app in Hz as [Hz|Hz]; [done|].
        destruct c as [|z' c]; [by apply elem_of_nil in Hz|]. cbn [take] in Hz. rewrite take_0 in Hz.
        apply elem_of_list_singleton in Hz as ->. by left. }
      split; [by eapply Hopen1, Hin|]. split; [by eapply Hopen1, Hin|]. by apply (marked_edge _ _ _ _ _ _ _ M1). }
    assert (beaten w1 (fun x y => ele_at w1 (Sad x) < ele_at w1 (Sad y)) c i) as Hlow1.
    { split; [done|]. split; [done|]. intros j. rewrite !(ele_marked _ _ _ _ _ _ M1). apply Hlow. }
    destruct (around w1 detect_simple _ c i Hlow1) as (Hoi & u & v & Huv & Hu & Hv & Hou & Hov & Hp).
    unfold disqualify_basin_saddles in E. fold fs in E. fold w1 in E.
    eapply (loop_joined m fuel _ _ w1 (rev fs) w' detect_simple detect_two) in Hp; [| | |exact E].
    2:{ intros x y [H1 H2] H3 H4. split; [done|]. lia. }
    2:{ done. }
    assert (simple_graph w') as G' by (eapply simple_marked; [done|apply detect_simple]).
    assert (forall a, open_ w1 (Sum a) <-> open_ w' (Sum a)) as Hsu.
    { intros a. cbn. by rewrite (mk_summits _ _ _ _ _ M2). }
    set (step := fun x y : node => open_edge w' x y /\ x <> Sad i /\ y <> Sad i).
    assert (rtc step (Sum u) (Sum v)) as Hpath.
    { clear Huv Hu Hv Hou Hov. induction Hp as [|x y z (j & (Hj1 & Hj2) & Hj3 & Hx & Hy & Hxj & Hyj) _ IH]; [done|].
      assert (open_ w' (Sad j)) as Hoj.
      { destruct Hj1 as (t & Ht & _ & He). destruct Hj3 as (t' & Ht' & Hq). exists t'. split; [done|]. split; [done|].
        destruct (mk_saddle _ _ _ _ _ M2 _ _ Ht) as (b & Hb & Ef & _). assert (b = t') as -> by congruence. by rewrite Ef. }
      apply Hsu in Hx, Hy. assert (j <> i) as Hji by (intros ->; lia).
      eapply rtc_l with (Sad j); [|eapply rtc_l; [|exact IH]].
      - split; [|split; congruence]. split; [done|]. split; [done|]. by apply (sg_sym _ G' (Sad j) (Sum x)).
      - split; [|split; congruence]. split; [done|]. split; [done|]. done. }
    assert (open_ w' (Sad i)) as Hoi'.
    { specialize (Hopen (Sad i) Hic). destruct Hopen as (t & Ht & _ & He).
      destruct (mk_saddle _ _ _ _ _ M _ _ Ht) as (b & Hb & Ef & _ & _ & _ & Eo & _). exists b. split; [done|].
      rewrite Ef. split; [|done]. unfold disqualified. assert (t = s) as -> by congruence. by rewrite Eo, Ho. }
    rewrite <-(marked_summits_of _ _ _ _ _ _ M2) in Hu, Hv.
    apply rtc_chain in Hpath as (l & Hl & Hnd & Hlast).
    apply (Hac (Sad i :: Sum u :: l)). split; [|split].
    - destruct l as [|x l]; [injection Hlast as E2; congruence|]. cbn. lia.
    - constructor; [|done]. intros Hin.
      apply elem_of_list_lookup in Hin as [k Hk]. destruct k as [|k]; [done|].
      assert (exists z, (Sum u :: l) !! k = Some z) as [z Hz].
      { apply lookup_lt_is_Some_2. apply lookup_lt_Some in Hk. cbn in *. lia. }
      destruct (Hl k z (Sad i) Hz Hk) as (_ & _ & H). done.
    - cbn [take app]. apply linked_cons. split.
      + intros y [= <-]. split; [done|]. split; [by apply Hsu|]. done.
      + apply last_Some in Hlast as [l' El]. rewrite app_comm_cons, El. apply linked_snoc.
        * rewrite <-El. eapply linked_mono; [|exact Hl]. by intros x y [H _].
        * split; [by apply Hsu|]. split; [done|]. by apply (sg_sym _ G' (Sad i) (Sum v)); [done|apply Hsu|].
  Qed.
End detect.

Lemma detect_completes m w saddles fuel : basin_graph m w saddles -> no_override w ->
  (length saddles + length (w_saddles w) < fuel)%nat ->
  exists w', disqualify_basin_saddles m fuel w saddles = Ok w'.
Proof.
  intros G Hno Hf. pose proof (basin_terminates m w saddles fuel Hno Hf) as H1.
  assert (kept_proper m w) as K by (intros i s Hs Ho; by destruct (Hno i s Hs)).
  pose proof (detect_flags m w saddles G K fuel) as H2.
  destruct (disqualify_basin_saddles m fuel w saddles) as [w'|e]; [by exists w'|]. congruence.
Qed.

Lemma detect_key m w saddles fuel w' : basin_graph m w saddles -> kept_proper m w ->
  disqualify_basin_saddles m fuel w saddles = Ok w' -> forall a b,
  (joined w (fun _ => True) a b <-> joined w' (fun _ => True) a b) /\
  forall t, joined w (fun i => t <= ele_at w (Sad i)) a b <-> joined w' (fun i => t <= ele_at w' (Sad i)) a b.
Proof.
  intros G K E a b. split; [by apply (detect_joined m w saddles G K fuel)|]. intros t.
  pose proof (detect_flags m w saddles G K fuel) as H. rewrite E in H. destruct H as (S & B & A & M & _).
  rewrite (detect_joined m w saddles G K fuel w' (fun i => t <= ele_at w (Sad i)) a b E) by (intros; lia).
  unfold joined. split; apply rtc_subrel; intros x y (i & Hi & H2); exists i; (split; [|done]);
    by rewrite (ele_marked _ _ _ _ _ _ M) in *.
Qed.

Lemma detect_minimum m w saddles fuel w' : basin_graph m w saddles -> kept_proper m w ->
  disqualify_basin_saddles m fuel w saddles = Ok w' ->
  forall b s s', w_saddles w !! b = Some s -> w_saddles w' !! b = Some s' ->
    (sa_basin s' = true -> sa_basin s = true \/
       blamed (fun c => closed (open_edge w) c /\ forall j, Sad j ∈ c -> ~ one_summit m w j) w b) /\
    (sa_alts s' = sa_alts s \/ alternatives m (closed (open_edge w)) w w' b).
Proof.
  intros G K E b s s' Hs Hs'. pose proof (detect_flags m w saddles G K fuel) as H. rewrite E in H.
  destruct H as (S & B & A & M & M2 & HS & HB & HA). destruct (detect_stubs m w saddles) as (S1 & M1 & HS1).
  destruct (mk_saddle _ _ _ _ _ M _ _ Hs) as (x & Hx & _ & _ & _ & _ & _ & _ & Eb & Ea).
  assert (x = s') as -> by congruence. split.
  - rewrite Eb. intros [H|H]; [by left|]. right. destruct (HB b H) as [_ (c & Hc & Hbc & Hl)]. exists c.
    split; [split|split; [done|]].
    + eapply closed_mono; [|exact Hc]. intros p q (Hp & Hq & He). split; [by eapply marked_open|].
      split; [by eapply marked_open|]. by apply (marked_edge _ _ _ _ _ _ _ M1).
    + intros j Hj.
      destruct (closed_from _ _ _ Hc Hj) as (p & q & l & _ & _ & _ & _ & _ & (Ho & _ & He) & _).
      apply (detect_proper m w saddles G K); [done|].
      intros En. destruct p as [?|a]; [done|]. cbn [edge] in He.
      rewrite (marked_summits_of _ _ _ _ _ _ M1), En in He. by apply elem_of_nil in He.
    + intros y Hy. specialize (Hl y Hy). by rewrite !(ele_marked _ _ _ _ _ _ M1) in Hl.
  - destruct (decide (b ∈ A)) as [H|H]; [right; by apply HA|left; by apply Ea].
Qed.

Lemma single_disqualified m fuel w saddles w' i s : disqualify_basin_saddles m fuel w saddles = Ok w' ->
  i ∈ saddles -> w_saddles w !! i = Some s -> sa_over s = None -> one_summit m w i ->
  exists s', w_saddles w' !! i = Some s' /\ disqualified s' = true /\
    (disqualified s = false -> sa_single s' = true /\ sa_basin s' = false /\ sa_alts s' = sa_alts s /\
       forall k l, k ∈ sa_links s -> w_links w' !! k = Some l -> ln_disq l = true).
Proof.
  intros E Hi Hs Ho Hone. destruct (basin_marks _ _ _ _ _ E) as (S & B & A & M & HS & HBA).
  destruct (mk_saddle _ _ _ _ _ M _ _ Hs) as (x & Hx & _ & _ & _ & _ & Eo & Es & Eb & Ea).
  exists x. split; [done|]. unfold disqualified. rewrite Eo, Ho.
  destruct (sa_single s || sa_basin s) eqn:Ed.
  - split; [|done]. apply orb_true_iff. rewrite Es, Eb. apply orb_true_iff in Ed. tauto.
  - assert (i ∈ S) as HiS.
    { apply HS. split; [done|]. split; [|done]. exists s. split; [done|]. unfold disqualified. by rewrite Ho. }
    assert (i ∉ B /\ i ∉ A) as [HnB HnA].
    { split; intros H; (destruct (HBA i) as [_ H']; [tauto|]); destruct (H' HiS) as (t & Ht & Hto); congruence. }
    apply orb_false_iff in Ed as [Ed1 Ed2].
    assert (sa_single x = true) as Hx1 by (apply Es; by right).
    split; [by rewrite Hx1|]. intros _. split; [done|]. split; [|split; [by apply Ea|]].
    + apply not_true_iff_false. rewrite Eb, Ed2. by intros [?|?].
    + intros k l Hk Hl. assert (exists l0, w_links w !! k = Some l0) as [l0 Hl0].
      { apply lookup_lt_is_Some_2. rewrite <-(mk_lenl _ _ _ _ _ M). by apply lookup_lt_Some in Hl. }
      destruct (mk_link _ _ _ _ _ M _ _ Hl0) as (l' & Hl' & _ & _ & H). assert (l' = l) as -> by congruence.
      apply H. right. exists i, s. split; [by left|done].
Qed.

Lemma label_ties m w i ids w' : ids <> [] -> NoDup (i :: ids) ->
  (forall j, j ∈ i :: ids -> is_Some (w_saddles w !! j)) ->
  (forall x y, x ∈ i :: ids -> y ∈ i :: ids -> saddle_same m w x y = true -> x = y) ->
  disqualify_and_label m w (map Sad (i :: ids)) = Ok w' ->
  marked [] [i] (i :: ids) w w' /\
  forall a s, a ∈ i :: ids -> w_saddles w' !! a = Some s ->
    NoDup (sa_alts s) /\ forall b, b ∈ sa_alts s <-> b ∈ i :: ids /\ b <> a.
Proof.
  intros Hne Hnd Hex Hap E. destruct (label_spec m w _ w' E) as (i' & ids' & El & M & H).
  { intros j Hj. apply elem_of_list_fmap in Hj as (j' & [= ->] & Hj). by apply Hex. }
  assert (i :: ids = i' :: ids') as [= <- <-].
  { revert El. generalize (i :: ids), (i' :: ids'). induction l as [|x l IH]; intros [|y l'] El; try done.
    cbn in El. injection El as -> El. f_equal. by apply IH. }
  rewrite decide_False in M by done. split; [done|]. intros a s Ha Hs. destruct (H Hne a s Ha Hs) as (x & Hxa & Hp).
  assert (x = a) as ->. { apply Hap; [|done|done]. rewrite <-Hp. by left. }
  rewrite <-Hp in Hnd. apply NoDup_cons in Hnd as [Hna Hnd]. split; [done|]. intros b. rewrite <-Hp, elem_of_cons.
  split; [|naive_solver]. intros Hb. split; [by right|]. by intros ->.
Qed.
