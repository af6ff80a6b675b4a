(** Proofs about the internal saddle network. *)
From Verif Require Import Network_model Raster_spec Closest_spec Closest_proof Tree_spec Tree_proof.
From Coq Require Import ZifyBool Lqa.
Local Open Scope nat_scope.

(** shortest_link *)
Lemma shortest_link_fold ignored links :
  shortest_link ignored links =
  (foldl (min_step vl_d2) (None, maxsize2) (filter (fun l => vl_to l ∉ ignored) links)).1.
Proof.
  unfold shortest_link. f_equal. generalize (@None vlink, maxsize2).
  induction links as [|l links IH]; intros s; [done|]. cbn [foldl]. rewrite filter_cons.
  destruct (decide (vl_to l ∈ ignored)), (decide (vl_to l ∉ ignored)); try done; apply IH.
Qed.

Lemma shortest_link_spec ignored links l0 :
  l0 ∈ links -> vl_to l0 ∉ ignored -> (vl_d2 l0 < maxsize2)%Q ->
  exists r, shortest_link ignored links = Some r /\ r ∈ links /\ vl_to r ∉ ignored /\
    (vl_d2 r < maxsize2)%Q /\
    forall l, l ∈ links -> vl_to l ∉ ignored -> (vl_d2 r <= vl_d2 l)%Q.
Proof.
  intros Hl Hni Hlt. rewrite shortest_link_fold.
  destruct (min_fold vl_d2 (filter (fun l => vl_to l ∉ ignored) links) None maxsize2)
    as [[_ H]|(r & Hf & Hr & ->)].
  - exfalso. apply (Qlt_not_le _ _ Hlt). apply H. by apply elem_of_list_filter.
  - apply first_least_min in Hf as [Hin Hmin]. apply elem_of_list_filter in Hin as [Hn Hin].
    exists r. split_and!; try done. intros l Hl' Hn'. apply Hmin. by apply elem_of_list_filter.
Qed.

Section tree.
  Context (nodes : list (list vlink)) (W : nat -> nat -> Q).
  Notation n := (length nodes).
  Hypothesis Hn : 2 <= n.
  Hypothesis Wsym : forall i j, (W i j == W j i)%Q.
  Hypothesis Hlinks : forall i ls l, nodes !! i = Some ls -> l ∈ ls ->
    vl_to l < n /\ vl_to l <> i /\ (vl_d2 l == W i (vl_to l))%Q /\ (vl_d2 l < maxsize2)%Q.
  Hypothesis Hfull : forall i ls j, nodes !! i = Some ls -> j < n -> j <> i ->
    exists l, l ∈ ls /\ vl_to l = j.

  Context (B : Type) (le : nat * nat -> B -> Prop) (T' : list B).
  Hypothesis le_mono : forall a b c d y, (W a b <= W c d)%Q -> le (c, d) y -> le (a, b) y.

  (** The shortest link of node [R] when some node outside [ignored] exists. *)
  Lemma shortest_of ignored R : R < n -> (exists y, y < n /\ y <> R /\ y ∉ ignored) ->
    exists r, shortest_link ignored (default [] (nodes !! R)) = Some r /\
      r ∈ default [] (nodes !! R) /\ vl_to r < n /\ vl_to r <> R /\ vl_to r ∉ ignored /\
      (vl_d2 r == W R (vl_to r))%Q /\ (vl_d2 r < maxsize2)%Q /\
      forall y, y < n -> y <> R -> y ∉ ignored -> (W R (vl_to r) <= W R y)%Q.
  Proof.
    intros HR (y & Hy & HyR & Hyi).
    destruct (lookup_lt_is_Some_2 nodes R HR) as [ls Hls]. rewrite Hls. cbn.
    destruct (Hfull R ls y Hls Hy HyR) as (l & Hl & Hto).
    destruct (shortest_link_spec ignored ls l) as (r & Hr & Hin & Hni & Hlt & Hmin); [done|by subst|by eapply Hlinks|].
    destruct (Hlinks R ls r Hls Hin) as (H1 & H2 & H3 & H4).
    exists r. split_and!; try done. intros z Hz HzR Hzi.
    destruct (Hfull R ls z Hls Hz HzR) as (lz & Hlz & Htoz).
    destruct (Hlinks R ls lz Hls Hlz) as (_ & _ & Hd & _).
    rewrite <-H3. rewrite <-Htoz, <-Hd. apply Hmin; [done|by rewrite Htoz].
  Qed.

  (** Edges [es] belonging to the chosen links. *)
  Definition edges_of (ls : list vlink) (es : list (nat * nat)) : Prop :=
    Forall2 (fun l e => e.2 = vl_to l /\ l ∈ default [] (nodes !! e.1)) ls es.

  (** Part of a good tree. *)
  Definition extends (es : list (nat * nat)) : Prop :=
    exists G, spanning_tree n (es ++ G) /\ dominated le (es ++ G) T'.

  (** The tree nodes are [tr]; explored nodes [ex]. *)
  Record good (ex : gset nat) (tr : list nat) (ls : list vlink) : Prop := Good {
    g_nodup : NoDup tr;
    g_range : forall x, x ∈ tr -> x < n;
    g_ex : forall x, x ∈ ex -> x ∈ tr;
    g_edges : exists es, edges_of ls es /\ (forall a b, (a, b) ∈ es -> a ∈ tr /\ b ∈ tr) /\ extends es;
    g_count : S (length ls) = length tr }.

  (** Nodes outside the tree have a nearest partner that is not explored. *)
  Definition seen (ex : gset nat) (tr : list nat) : Prop :=
    forall R x, R < n -> R ∉ tr -> x ∈ ex -> exists y, y < n /\ y ∉ ex /\ y <> R /\ (W R y <= W R x)%Q.

  Lemma edges_of_app ls es l e : edges_of ls es -> e.2 = vl_to l -> l ∈ default [] (nodes !! e.1) ->
    edges_of (ls ++ [l]) (es ++ [e]).
  Proof. intros H H1 H2. apply Forall2_app; [done|]. by constructor. Qed.

  (** Extend the tree by node [R] with an edge that is least across a cut. *)
  Lemma good_add ex tr ls l a b R (S0 : nat -> Prop) {HS0 : forall x, Decision (S0 x)} :
    good ex tr ls -> R < n -> R ∉ tr -> (a = R /\ b ∈ tr \/ b = R /\ a ∈ tr) ->
    b = vl_to l -> l ∈ default [] (nodes !! a) ->
    S0 R -> (forall x, x ∈ tr -> ls <> [] -> ~ S0 x) -> (forall x, (x = a \/ x = b) -> x <> R -> ~ S0 x) ->
    (forall x y, x < n -> y < n -> S0 x -> ~ S0 y -> (W a b <= W x y)%Q) ->
    good ex (R :: tr) (ls ++ [l]).
  Proof.
    intros [Hnd Hrg Hex (es & Hes & Hend & G & HG & Hdom) Hc] HR HRtr Hab Hb Hl HSR HStr HSo Hmin.
    assert (Habn : a < n /\ b < n). { destruct Hab as [[-> H]|[-> H]]; split; auto. }
    assert (Hls : ls = [] -> es = []).
    { intros ->. by inversion Hes. }
    split.
    - by constructor.
    - intros x [->|Hx]%elem_of_cons; auto.
    - intros x Hx. right. auto.
    - exists (es ++ [(a, b)]). split_and!.
      + by apply edges_of_app.
      + intros x y [Hxy|Hxy]%elem_of_app.
        * apply Hend in Hxy as [? ?]. split; by right.
        * apply elem_of_list_singleton in Hxy. injection Hxy as -> ->.
          destruct Hab as [[-> H]|[-> H]]; split; first [by left|by right].
      + destruct Hab as [[-> H]|[-> H]].
        * eapply (exchange n le S0); try done; try tauto.
          -- intros x y Hxy. destruct (decide (ls = [])) as [E|E].
             { rewrite (Hls E) in Hxy. by apply elem_of_nil in Hxy. }
             apply Hend in Hxy as [Hx Hy]. split; intros Hs; exfalso; [exact (HStr x Hx E Hs)|exact (HStr y Hy E Hs)].
          -- apply HSo; [by right|]. intros ->. done.
          -- intros x y z Hx Hy HSx HSy. split; intros Hle; eapply le_mono; try exact Hle.
             ++ by apply Hmin.
             ++ rewrite (Wsym y x). by apply Hmin.
        * eapply (exchange n le (fun x => ~ S0 x)); try done; try tauto.
          -- intros x y Hxy. destruct (decide (ls = [])) as [E|E].
             { rewrite (Hls E) in Hxy. by apply elem_of_nil in Hxy. }
             apply Hend in Hxy as [Hx Hy]. split; intros _; [exact (HStr y Hy E)|exact (HStr x Hx E)].
          -- apply HSo; [by left|]. intros ->. done.
          -- intros x y z Hx Hy HSx HSy.
             assert (HSy' : S0 y). { destruct (decide (S0 y)); [done|by exfalso]. }
             split; intros Hle; eapply le_mono; try exact Hle.
             ++ rewrite (Wsym x y). by apply Hmin.
             ++ by apply Hmin.
    - rewrite app_length. cbn. lia.
  Qed.

  Lemma good_perm ex tr tr' ls : tr ≡ₚ tr' -> good ex tr ls -> good ex tr' ls.
  Proof.
    intros Hp [Hnd Hrg Hex (es & Hes & Hend & He) Hc]. split.
    - by rewrite <-Hp.
    - intros x Hx. apply Hrg. by rewrite Hp.
    - intros x Hx. rewrite <-Hp. auto.
    - exists es. split_and!; try done. intros a b Hab. apply Hend in Hab. by rewrite <-Hp.
    - by rewrite <-Hp.
  Qed.
  Lemma seen_mono ex tr tr' : (forall x, x ∈ tr -> x ∈ tr') -> seen ex tr -> seen ex tr'.
  Proof. intros Hsub Hs R x HR Hni Hx. apply Hs; auto. Qed.

  (** A node outside the tree: its nearest unexplored node is nearest of all. *)
  Lemma seen_nearest ex tr R : seen ex tr -> R < n -> R ∉ tr ->
    (exists y, y < n /\ y <> R /\ y ∉ ex) ->
    forall r, (forall y, y < n -> y <> R -> y ∉ ex -> (W R r <= W R y)%Q) ->
    forall y, y < n -> y <> R -> (W R r <= W R y)%Q.
  Proof.
    intros Hs HR Hni _ r Hr y Hy HyR. destruct (decide (y ∈ ex)) as [Hex|Hex]; [|auto].
    destruct (Hs R y HR Hni Hex) as (z & Hz & Hzex & HzR & Hle).
    eapply Qle_trans; [|exact Hle]. auto.
  Qed.

  (** State inside explore_node. *)
  Record inner (node : nat) (ex : gset nat) (first : bool) (done : list vlink) (s : tree_state) : Prop := Inner {
    i_ex : ts_explored s = ex;
    i_first : ts_first s = first;
    i_planned : forall x, x ∈ ts_planned s <-> x ∈ ts_queue s;
    i_good : good ex (node :: ts_queue s ++ elements ex) (ts_links s);
    i_seen : seen ex (node :: ts_queue s ++ elements ex);
    i_done : forall l, l ∈ done -> vl_to l ∉ ts_queue s -> vl_to l ∉ ex ->
      exists y, y < n /\ y ∉ ex /\ y <> node /\ y <> vl_to l /\ (W (vl_to l) y <= W (vl_to l) node)%Q }.

  Lemma explore_link_ok node ex first dn l s got : node < n -> node ∉ ex ->
    l ∈ default [] (nodes !! node) ->
    inner node ex first dn s ->
    exists s' got', explore_link nodes node l (s, got) = (s', got') /\
      inner node ex first (dn ++ [l]) s' /\ (got' = false -> s' = s /\ got = false).
  Proof.
    intros Hnode Hnex Hl Hin. destruct Hin as [Hex Hfi Hpl Hg Hs Hd].
    destruct (lookup_lt_is_Some_2 nodes node Hnode) as [lsn Hlsn].
    assert (Hl' : l ∈ lsn) by (by rewrite Hlsn in Hl).
    destruct (Hlinks node lsn l Hlsn Hl') as (HR & HRn & Hld & _).
    set (R := vl_to l) in *.
    unfold explore_link. cbn [fst]. fold R.
    destruct (decide (R ∈ ts_explored s \/ R ∈ ts_planned s)) as [Hskip|Hskip].
    - exists s, got. split_and!; [done| |done]. split; try done.
      intros l' [Hl2|Hl2]%elem_of_app Hq He; [by apply Hd|].
      apply elem_of_list_singleton in Hl2 as ->. fold R in Hq, He. rewrite Hex, Hpl in Hskip. tauto.
    - rewrite Hex in Hskip |- *.
      assert (HRex : R ∉ ex) by tauto.
      assert (HRq : R ∉ ts_queue s) by (rewrite <-Hpl; tauto).
      assert (HRtr : R ∉ node :: ts_queue s ++ elements ex).
      { rewrite elem_of_cons, elem_of_app, elem_of_elements. intros [?|[?|?]]; done. }
      destruct (shortest_of ex R HR) as (r & -> & Hrin & Hrn & HrR & Hrex & Hrd & _ & Hrmin); [by exists node|].
      destruct (Nat.eqb (vl_to r) node) eqn:E.
      + apply Nat.eqb_eq in E.
        eexists _, true. split_and!; [reflexivity| |done]. split; cbn [ts_explored ts_first ts_planned ts_queue ts_links]; try done.
        * intros x. rewrite elem_of_union, elem_of_app, elem_of_singleton, elem_of_list_singleton, Hpl. tauto.
        * apply (good_perm _ (R :: node :: ts_queue s ++ elements ex)).
          { rewrite <-app_assoc. cbn. rewrite <-Permutation_middle.
            by rewrite (Permutation_swap R node). }
          eapply (good_add _ _ _ l node R R (fun x => x = R)); try done.
          -- right. split; [done|]. by left.
          -- intros x Hx _ HxR. rewrite HxR in Hx. done.
          -- intros x y Hx Hy HxR Hyx. rewrite HxR.
             rewrite (Wsym node R). rewrite <-E.
             apply (seen_nearest ex _ R Hs HR HRtr); [by exists node|exact Hrmin|done|done].
        * eapply seen_mono; [|exact Hs]. intros x. rewrite !elem_of_cons, !elem_of_app. tauto.
        * intros l' Hl2 Hq He. apply elem_of_app in Hl2 as [Hl2|Hl2].
          -- apply Hd; try done. intros Hq'. apply Hq. apply elem_of_app. by left.
          -- apply elem_of_list_singleton in Hl2 as ->. exfalso. apply Hq. apply elem_of_app. right. by left.
      + apply Nat.eqb_neq in E.
        exists s, got. split_and!; [done| |done]. split; try done.
        intros l' [Hl2|Hl2]%elem_of_app Hq He; [by apply Hd|].
        apply elem_of_list_singleton in Hl2 as ->. fold R.
        exists (vl_to r). split_and!; try done. by apply Hrmin.
  Qed.

  Lemma explore_links_ok node ex first ls : node < n -> node ∉ ex ->
    (forall l, l ∈ ls -> l ∈ default [] (nodes !! node)) ->
    forall dn s got, inner node ex first dn s ->
    exists s' got', foldl (fun sg l => explore_link nodes node l sg) (s, got) ls = (s', got') /\
      inner node ex first (dn ++ ls) s' /\ (got' = false -> s' = s /\ got = false).
  Proof.
    intros Hnode Hnex. induction ls as [|l ls IH]; intros Hsub dn s got Hin.
    - exists s, got. rewrite app_nil_r. done.
    - cbn [foldl]. destruct (explore_link_ok node ex first dn l s got) as (s1 & g1 & -> & Hin1 & Hg1); try done.
      { apply Hsub. by left. }
      destruct (IH ltac:(intros l' Hl'; apply Hsub; by right) (dn ++ [l]) s1 g1 Hin1) as (s2 & g2 & -> & Hin2 & Hg2).
      exists s2, g2. split_and!; [done|by rewrite <-app_assoc in Hin2|].
      intros Hg. apply Hg2 in Hg as [-> Hg]. auto.
  Qed.

  (** State at the head of the loop. *)
  Record outer (s : tree_state) : Prop := Outer {
    o_planned : forall x, x ∈ ts_planned s -> x ∈ ts_queue s;
    o_planned' : forall x, x ∈ tail (ts_queue s) -> x ∈ ts_planned s;
    o_good : good (ts_explored s) (ts_queue s ++ elements (ts_explored s)) (ts_links s);
    o_seen : seen (ts_explored s) (ts_queue s ++ elements (ts_explored s));
    o_first : ts_first s = true -> ts_explored s = ∅ /\ ts_links s = [] /\ exists q, ts_queue s = [q];
    o_first' : ts_first s = false -> ts_explored s <> ∅ }.

  Lemma explore_node_ok node rest s : ts_queue s = node :: rest -> outer s ->
    exists s', explore_node nodes node rest s = Ok s' /\ outer s' /\
      ts_explored s' = {[node]} ∪ ts_explored s /\ node ∉ ts_explored s.
  Proof.
    intros Hq [Hpl Hpl' Hg Hs Hf Hf']. rewrite Hq in *. cbn [tail] in Hpl'.
    pose proof (g_nodup _ _ _ Hg) as Hnd. cbn in Hnd. apply NoDup_cons in Hnd as [Hnn Hnd].
    rewrite elem_of_app, elem_of_elements in Hnn.
    assert (Hnex : node ∉ ts_explored s) by tauto.
    assert (Hnr : node ∉ rest) by tauto.
    assert (Hnode : node < n). { eapply g_range; [exact Hg|]. by left. }
    set (ex := ts_explored s) in *.
    unfold explore_node.
    set (s0 := TS rest (ts_planned s ∖ {[node]}) (ts_explored s) (ts_links s) (ts_first s)).
    assert (H0 : inner node ex (ts_first s) [] s0).
    { split; cbn; try done.
      - intros x. rewrite elem_of_difference, elem_of_singleton. split.
        + intros [Hx Hne]. apply Hpl in Hx. apply elem_of_cons in Hx as [->|Hx]; done.
        + intros Hx. split; [auto|]. by intros ->.
      - intros l Hl. by apply elem_of_nil in Hl. }
    destruct (explore_links_ok node ex (ts_first s) (default [] (nodes !! node)) Hnode Hnex
      ltac:(done) [] s0 false H0) as (s1 & got & Heq & Hin & Hgot).
    cbn zeta. rewrite Heq. cbn [fst snd]. rewrite app_nil_l in Hin.
    destruct Hin as [Hex Hfi Hp1 Hg1 Hs1 Hd1].
    (* the state after the fallback *)
    assert (Hs2 : exists s2,
      (if negb got && ts_first s1 then
         match shortest_link (ts_explored s1) (default [] (nodes !! node)) with
         | None => Err AttributeError
         | Some l => Ok (TS (ts_queue s1 ++ [vl_to l]) ({[vl_to l]} ∪ ts_planned s1)
                            (ts_explored s1) (ts_links s1 ++ [l]) (ts_first s1))
         end
       else Ok s1) = Ok s2 /\
      ts_explored s2 = ex /\ (forall x, x ∈ ts_planned s2 <-> x ∈ ts_queue s2) /\
      good ex (node :: ts_queue s2 ++ elements ex) (ts_links s2) /\
      seen ex (node :: ts_queue s2 ++ elements ex) /\
      (forall l, l ∈ default [] (nodes !! node) -> vl_to l ∉ ts_queue s2 -> vl_to l ∉ ex ->
      exists y, y < n /\ y ∉ ex /\ y <> node /\ y <> vl_to l /\ (W (vl_to l) y <= W (vl_to l) node)%Q)).
    { destruct got; cbn [negb andb].
      { exists s1. split_and!; try done. }
      destruct (ts_first s1) eqn:E1.
      2:{ exists s1. split_and!; try done. }
      destruct (Hgot eq_refl) as [-> _]. symmetry in Hfi. destruct (Hf Hfi) as (Hexe & Hlse & q & Hqe).
      injection Hqe as -> ->. rewrite Hex.
      destruct (shortest_of ex q Hnode) as (r & -> & Hrin & Hrn & HrR & Hrex & Hrd & _ & Hrmin).
      { destruct (decide (q = 0)) as [->|Hq0]; [exists 1|exists 0]; (split_and!; [lia|done|]);
          rewrite Hexe; apply not_elem_of_empty. }
      eexists. split; [reflexivity|]. cbn [ts_explored ts_planned ts_queue ts_links].
      split_and!; try done.
      - intros x. rewrite elem_of_union, elem_of_app, elem_of_singleton, elem_of_list_singleton, Hp1. tauto.
      - cbn [ts_queue s0 app]. apply (good_perm _ (vl_to r :: q :: elements ex)); [by rewrite Permutation_swap|].
        cbn [ts_queue s0 app] in Hg1.
        eapply (good_add _ _ _ r q (vl_to r) (vl_to r) (fun x => x <> q)); try done.
        + rewrite Hexe, elements_empty. intros Hx%elem_of_list_singleton. done.
        + right. split; [done|]. by left.
        + intros x [->| ->] Hne; [|done]. intros Hx. by apply Hx.
        + intros x y Hx Hy Hxq Hyq. assert (y = q) as ->. { destruct (decide (y = q)); [done|tauto]. }
          rewrite (Wsym x q). apply Hrmin; try done. rewrite Hexe. apply not_elem_of_empty.
      - eapply seen_mono; [|exact Hs1]. intros x. rewrite !elem_of_cons, !elem_of_app. tauto.
      - intros l Hl Hql He. apply Hd1; try done. intros Hq'. apply Hql. apply elem_of_app. by left. }
    destruct Hs2 as (s2 & -> & Hex2 & Hp2 & Hg2 & Hsn2 & Hd2). cbn [rbind].
    eexists. split; [reflexivity|]. rewrite Hex2. split_and!; try done.
    assert (Hperm : node :: ts_queue s2 ++ elements ex ≡ₚ ts_queue s2 ++ elements ({[node]} ∪ ex)).
    { rewrite elements_union_singleton by done. by rewrite Permutation_middle. }
    split; cbn [ts_explored ts_planned ts_queue ts_links ts_first].
    - intros x. by rewrite Hp2.
    - intros x Hx. apply Hp2. destruct (ts_queue s2); [done|]. by right.
    - apply (good_perm _ _ _ _ Hperm). destruct Hg2 as [A1 A2 A3 A4 A5]. split; try done.
      intros x [->%elem_of_singleton|Hx]%elem_of_union; [by left|auto].
    - intros R x HR HRn Hx. rewrite <-Hperm in HRn.
      assert (HRex : R ∉ ex).
      { intros H. apply HRn. right. apply elem_of_app. right. by apply elem_of_elements. }
      assert (HRq : R ∉ ts_queue s2).
      { intros H. apply HRn. right. apply elem_of_app. by left. }
      assert (HRnode : R <> node). { intros ->. apply HRn. by left. }
      assert (Hy1 : exists y, y < n /\ y ∉ ex /\ y <> node /\ y <> R /\ (W R y <= W R node)%Q).
      { destruct (lookup_lt_is_Some_2 nodes node Hnode) as [lsn Hlsn].
        destruct (Hfull node lsn R Hlsn HR HRnode) as (l & Hl & <-).
        apply Hd2; try done. by rewrite Hlsn. }
      destruct Hy1 as (y1 & Hy1n & Hy1ex & Hy1node & Hy1R & Hy1le).
      assert (Hy1u : y1 ∉ {[node]} ∪ ex).
      { rewrite elem_of_union, elem_of_singleton. tauto. }
      apply elem_of_union in Hx as [->%elem_of_singleton|Hx]; [by exists y1|].
      destruct (Hsn2 R x HR HRn Hx) as (y & Hy & Hyex & HyR & Hle).
      destruct (decide (y = node)) as [->|Hyn].
      + exists y1. split_and!; try done. by eapply Qle_trans.
      + exists y. split_and!; try done. rewrite elem_of_union, elem_of_singleton. tauto.
    - done.
    - intros _ He. assert (H : node ∈ (∅ : gset nat)). { rewrite <-He. apply elem_of_union. left. by apply elem_of_singleton. }
      by apply not_elem_of_empty in H.
  Qed.

  Lemma nodup_length (l : list nat) : NoDup l -> (forall x, x ∈ l -> x < n) -> length l <= n.
  Proof.
    intros Hnd Hr. rewrite <-(seq_length n 0). apply submseteq_length, NoDup_submseteq; [done|].
    intros x Hx. apply elem_of_seq. apply Hr in Hx. lia.
  Qed.

  Lemma explored_size s : outer s -> length (ts_queue s) + size (ts_explored s) <= n.
  Proof.
    intros Ho. pose proof (o_good _ Ho) as Hg.
    pose proof (nodup_length _ (g_nodup _ _ _ Hg) (g_range _ _ _ Hg)) as H.
    rewrite app_length in H. done.
  Qed.

  Lemma treeExploration_ok fuel : forall s, outer s -> n < fuel + size (ts_explored s) ->
    exists s', treeExploration fuel nodes s = Ok s' /\ outer s' /\ ts_queue s' = [] /\
      size (ts_explored s) <= size (ts_explored s') /\
      (ts_queue s <> [] -> size (ts_explored s) < size (ts_explored s')).
  Proof.
    induction fuel as [|fuel IH]; intros s Ho Hfuel; pose proof (explored_size s Ho) as Hsz.
    - lia.
    - cbn [treeExploration]. destruct (ts_queue s) as [|node rest] eqn:Eq.
      + exists s. split_and!; done.
      + destruct (explore_node_ok node rest s Eq Ho) as (s1 & -> & Ho1 & Hex1 & Hnex). cbn [rbind].
        assert (Hsz1 : size (ts_explored s1) = S (size (ts_explored s))).
        { rewrite Hex1, size_union, size_singleton; [lia|]. set_solver. }
        destruct (IH s1 Ho1) as (s' & -> & Ho' & Hq' & Hle & _); [lia|].
        exists s'. split_and!; [done|done|done|lia|lia].
  Qed.

  (** The bridge between explored and unexplored nodes. *)
  Lemma bridge_ok (ex : gset nat) U : (forall x, x ∈ ex -> x < n) -> ex <> ∅ ->
    (forall x, x ∈ U <-> x < n /\ x ∉ ex) -> U <> [] ->
    exists l i, bridge nodes U = Ok (Some (l, i)) /\ i ∈ U /\ vl_to l ∈ ex /\
      l ∈ default [] (nodes !! i) /\
      forall x y, x ∈ U -> y ∈ ex -> (W i (vl_to l) <= W x y)%Q.
  Proof.
    intros Hexn Hexne HU HUne.
    destruct (set_choose_L ex Hexne) as [x0 Hx0].
    assert (Hone : forall i, i ∈ U -> exists r, shortest_link (list_to_set U) (default [] (nodes !! i)) = Some r /\
      r ∈ default [] (nodes !! i) /\ vl_to r ∈ ex /\ (vl_d2 r == W i (vl_to r))%Q /\ (vl_d2 r < maxsize2)%Q /\
      forall y, y ∈ ex -> (W i (vl_to r) <= W i y)%Q).
    { intros i Hi. apply HU in Hi as [Hin Hiex].
      destruct (shortest_of (list_to_set U) i Hin) as (r & Hr & Hrin & Hrn & Hri & Hru & Hrd & Hrlt & Hrmin).
      { exists x0. split_and!; [auto| |].
        - intros ->. done.
        - rewrite elem_of_list_to_set, HU. tauto. }
      exists r. split_and!; try done.
      - rewrite elem_of_list_to_set, HU in Hru. destruct (decide (vl_to r ∈ ex)); [done|tauto].
      - intros y Hy. apply Hrmin; [auto| |].
        + intros ->. done.
        + rewrite elem_of_list_to_set, HU. tauto. }
    unfold bridge.
    enough (Hgen : forall V dn (s : option (vlink * nat) * Q), (forall i, i ∈ V -> i ∈ U) -> 
      (forall l i, s.1 = Some (l, i) -> i ∈ U /\ vl_to l ∈ ex /\ l ∈ default [] (nodes !! i) /\
         (vl_d2 l == W i (vl_to l))%Q /\ s.2 = vl_d2 l) ->
      (forall x y, x ∈ dn -> y ∈ ex -> (s.2 <= W x y)%Q) ->
      (s.1 = None -> s.2 = maxsize2 /\ dn = []) ->
      exists s', foldM (fun i (s : option (vlink * nat) * Q) =>
        match shortest_link (list_to_set U) (default [] (nodes !! i)) with
        | None => Err AttributeError
        | Some l => Ok (if Qlt_bool (vl_d2 l) s.2 then (Some (l, i), vl_d2 l) else s)
        end) V s = Ok s' /\
      (forall l i, s'.1 = Some (l, i) -> i ∈ U /\ vl_to l ∈ ex /\ l ∈ default [] (nodes !! i) /\
         (vl_d2 l == W i (vl_to l))%Q /\ s'.2 = vl_d2 l) /\
      (forall x y, x ∈ dn ++ V -> y ∈ ex -> (s'.2 <= W x y)%Q) /\
      (s'.1 = None -> s'.2 = maxsize2 /\ dn ++ V = [])).
    { destruct (Hgen U [] (None, maxsize2)) as (s' & -> & H1 & H2 & H3); [done|done| |done|].
      { intros x y Hx. by apply elem_of_nil in Hx. }
      cbn [rbind]. destruct s' as [[[l i]|] q]; cbn [fst snd] in *.
      - destruct (H1 l i eq_refl) as (Hi & Hl & Hin & Hd & ->). exists l, i. split_and!; try done.
        intros x y Hx Hy. rewrite <-Hd. by apply H2.
      - by destruct (H3 eq_refl) as [_ ?]. }
    clear HUne. induction V as [|i V IH]; intros dn s Hsub H1 H2 H3; cbn [foldM].
    - exists s. rewrite app_nil_r. done.
    - destruct (Hone i) as (r & -> & Hrin & Hrex & Hrd & Hrlt & Hrmin); [apply Hsub; by left|].
      cbn [rbind].
      destruct (IH (dn ++ [i]) (if Qlt_bool (vl_d2 r) s.2 then (Some (r, i), vl_d2 r) else s))
        as (s' & -> & G1 & G2 & G3).
      + intros j Hj. apply Hsub. by right.
      + destruct (Qlt_bool (vl_d2 r) s.2) eqn:E; [|done]. cbn. intros l j [= <- <-].
        split_and!; try done. apply Hsub. by left.
      + intros x y [Hx|Hx]%elem_of_app Hy.
        * destruct (Qlt_bool (vl_d2 r) s.2) eqn:E; [|by apply H2]. cbn.
          apply Qlt_bool_iff in E. apply Qlt_le_weak. eapply Qlt_le_trans; [done|]. by apply H2.
        * apply elem_of_list_singleton in Hx as ->. destruct (Qlt_bool (vl_d2 r) s.2) eqn:E; cbn.
          -- rewrite Hrd. by apply Hrmin.
          -- apply Qlt_bool_false in E. eapply Qle_trans; [exact E|]. rewrite Hrd. by apply Hrmin.
      + destruct (Qlt_bool (vl_d2 r) s.2) eqn:E; [done|]. intros Hnone.
        destruct (H3 Hnone) as [Hm _]. apply Qlt_bool_false in E. rewrite Hm in E.
        by apply Qlt_not_le in Hrlt.
      + exists s'. split; [done|]. by rewrite <-app_assoc in G2, G3.
  Qed.

  Lemma tree_loop_ok fuel : forall s, outer s -> ts_queue s <> [] -> n < fuel + size (ts_explored s) ->
    exists links es, tree_loop fuel nodes s = Ok links /\ edges_of links es /\
      spanning_tree n es /\ dominated le es T'.
  Proof.
    induction fuel as [|fuel IH]; intros s Ho Hq Hfuel; pose proof (explored_size s Ho) as Hsz.
    - lia.
    - cbn [tree_loop].
      destruct (treeExploration_ok (S n) s Ho) as (s1 & -> & Ho1 & Hq1 & _ & Hlt); [lia|].
      specialize (Hlt Hq). cbn [rbind].
      pose proof (explored_size s1 Ho1) as Hsz1.
      destruct Ho1 as [Hpl Hpl' Hg Hs Hf Hf']. rewrite Hq1 in *. cbn [app] in *.
      assert (Hne : ts_explored s1 <> ∅). { intros E. rewrite E, size_empty in Hlt. lia. }
      assert (Hfirst : ts_first s1 = false).
      { destruct (ts_first s1); [|done]. destruct (Hf eq_refl) as (_ & _ & q & ?). done. }
      destruct (Nat.ltb (size (ts_explored s1)) n) eqn:E.
      + apply Nat.ltb_lt in E.
        set (U := filter (fun i => i ∉ ts_explored s1) (seq 0 n)).
        assert (HU : forall x, x ∈ U <-> x < n /\ x ∉ ts_explored s1).
        { intros x. unfold U. rewrite elem_of_list_filter, elem_of_seq. split; intros [? ?]; split; try done; lia. }
        assert (HUne : U <> []).
        { intros HU0. assert (Hall : forall x, x < n -> x ∈ ts_explored s1).
          { intros x Hx. destruct (decide (x ∈ ts_explored s1)); [done|].
            assert (Hin : x ∈ U) by (by apply HU). rewrite HU0 in Hin. by apply elem_of_nil in Hin. }
          assert (Hle : n <= size (ts_explored s1)).
          { rewrite <-(seq_length n 0). apply submseteq_length, NoDup_submseteq; [apply NoDup_seq|].
            intros x Hx. apply elem_of_seq in Hx. apply elem_of_elements, Hall. lia. }
          lia. }
        assert (Hexn : forall x, x ∈ ts_explored s1 -> x < n).
        { intros x Hx. eapply g_range; [exact Hg|]. by apply elem_of_elements. }
        destruct (bridge_ok (ts_explored s1) U Hexn Hne HU HUne) as (l & i & -> & HiU & Hlex & Hlin & Hmin).
        cbn [rbind]. pose proof HiU as HiU'. apply HU in HiU' as [Hin Hiex].
        apply IH; cbn [ts_queue ts_planned ts_explored ts_links ts_first].
        * assert (Hperm : i :: elements (ts_explored s1) ≡ₚ ([] ++ [i]) ++ elements (ts_explored s1)) by done.
          split; cbn [ts_queue ts_planned ts_explored ts_links ts_first].
          -- intros x Hx. apply Hpl in Hx. by apply elem_of_nil in Hx.
          -- done.
          -- apply (good_perm _ _ _ _ Hperm).
             eapply (good_add _ _ _ l i (vl_to l) i (fun x => x ∉ ts_explored s1)); try done.
             ++ by rewrite elem_of_elements.
             ++ left. split; [done|]. by apply elem_of_elements.
             ++ intros x Hx%elem_of_elements _. tauto.
             ++ intros x [->| ->] Hx; [done|]. tauto.
             ++ intros x y Hx Hy Hxe Hye. apply Hmin; [by apply HU|].
                destruct (decide (y ∈ ts_explored s1)); [done|tauto].
          -- eapply seen_mono; [|exact Hs]. intros x Hx. by right.
          -- intros Ht. congruence.
          -- done.
        * done.
        * lia.
      + apply Nat.ltb_ge in E.
        destruct Hg as [Hnd Hrg Hex (es & Hes & Hend & G & HG & Hdom) Hc].
        exists (ts_links s1), es.
        assert (HG0 : G = []).
        { destruct HG as [Hlen _]. rewrite app_length in Hlen.
          apply Forall2_length in Hes. change (length (elements (ts_explored s1))) with (size (ts_explored s1)) in Hc.
          destruct G; [done|]. cbn in Hlen. lia. }
        rewrite HG0, app_nil_r in *. split_and!; done.
  Qed.

  Lemma tree_ok es0 : spanning_tree n es0 -> dominated le es0 T' ->
    exists links es, tree_loop (S n) nodes (TS [0] ∅ ∅ [] true) = Ok links /\ edges_of links es /\
      spanning_tree n es /\ dominated le es T'.
  Proof.
    intros Hes0 Hd0. apply tree_loop_ok; [|done|cbn [ts_explored]; rewrite size_empty; lia].
    split; cbn [ts_queue ts_planned ts_explored ts_links ts_first]; try done.
    - intros x Hx. by apply elem_of_nil in Hx.
    - rewrite elements_empty. split.
      + apply NoDup_singleton.
      + intros x Hx%elem_of_list_singleton. lia.
      + intros x Hx. by apply not_elem_of_empty in Hx.
      + exists []. split_and!; [constructor| |].
        * intros a b Hx. by apply elem_of_nil in Hx.
        * exists es0. done.
      + done.
    - intros _. split_and!; try done. by exists 0.
  Qed.
End tree.

(** mapM_res *)
Lemma mapM_res_ok {A B} (f : A -> res B) (P : A -> B -> Prop) l :
  (forall a, a ∈ l -> exists b, f a = Ok b /\ P a b) ->
  exists bs, mapM_res f l = Ok bs /\ Forall2 P l bs.
Proof.
  induction l as [|a l IH]; intros H; cbn [mapM_res].
  - exists []. split; [done|constructor].
  - destruct (H a) as (b & -> & Hb); [by left|].
    destruct IH as (bs & -> & Hbs); [intros a' Ha'; apply H; by right|].
    exists (b :: bs). cbn [rbind]. split; [done|by constructor].
Qed.

(** Pairs of points of the groups are found; [D] is what is known of their distance. *)
Definition pairs_found (D : pte -> pte -> Q -> Prop) (near : searches) (m : datamap) (hpn : list (list pte)) : Prop :=
  forall us them, us ∈ hpn -> them ∈ hpn -> exists p t d2, s_pair near m us them = Ok (CP (Some p) (Some t) d2) /\
    p ∈ us /\ t ∈ them /\ (d2 < maxsize2)%Q /\ D p t d2 /\ D t p d2.

Section links.
  Context (D : pte -> pte -> Q -> Prop) (near : searches) (m : datamap) (hpn : list (list pte)).
  Notation n := (length hpn).
  Hypothesis Hpairs : pairs_found D near m hpn.

  (** Length of the link between two groups. *)
  Definition link_w (i j : nat) : Q :=
    match hpn !! (Nat.max i j), hpn !! (Nat.min i j) with
    | Some g, Some h =>
        match s_pair near m g h with Ok c => cp_d2 c | Err _ => 0%Q end
    | _, _ => 0%Q
    end.
  Lemma link_w_sym i j : (link_w i j == link_w j i)%Q.
  Proof. unfold link_w. by rewrite (Nat.max_comm i j), (Nat.min_comm i j). Qed.

  (** [l] joins group [e.1] to group [e.2]. *)
  Definition link_joins (l : vlink) (e : nat * nat) : Prop :=
    e.1 <> e.2 /\ exists g h p q, hpn !! e.1 = Some g /\ hpn !! e.2 = Some h /\ p ∈ g /\ q ∈ h /\
      vl_remote l = Some p /\ vl_local l = Some q /\ D p q (vl_d2 l).

  Lemma make_link_ok i j : i < n -> j < n -> j <> i ->
    exists l, make_link near m hpn i j = Ok l /\ vl_to l = j /\ link_joins l (i, j) /\
      (vl_d2 l == link_w i j)%Q /\ (vl_d2 l < maxsize2)%Q.
  Proof.
    intros Hi Hj Hij. unfold make_link.
    destruct (lookup_lt_is_Some_2 hpn i Hi) as [gi Hgi], (lookup_lt_is_Some_2 hpn j Hj) as [gj Hgj].
    rewrite Hgi, Hgj.
    pose proof (elem_of_list_lookup_2 _ _ _ Hgi) as Hgi'.
    pose proof (elem_of_list_lookup_2 _ _ _ Hgj) as Hgj'.
    destruct (Nat.ltb i j) eqn:E.
    - apply Nat.ltb_lt in E.
      destruct (Hpairs gj gi Hgj' Hgi') as (p & t & d2 & Heq & Hp & Ht & Hlt & HD1 & HD2).
      rewrite Heq. cbn [rbind cp_mine cp_theirs cp_d2]. eexists. split_and!; [done|done| | |].
      + split; [cbn; lia|]. exists gi, gj, t, p. cbn. split_and!; done.
      + cbn. unfold link_w. rewrite (Nat.max_r i j), (Nat.min_l i j) by lia. rewrite Hgi, Hgj, Heq. done.
      + done.
    - apply Nat.ltb_ge in E.
      destruct (Hpairs gi gj Hgi' Hgj') as (p & t & d2 & Heq & Hp & Ht & Hlt & HD1 & HD2).
      rewrite Heq. cbn [rbind cp_mine cp_theirs cp_d2]. eexists. split_and!; [done|done| | |].
      + split; [cbn; lia|]. exists gi, gj, p, t. cbn. split_and!; done.
      + cbn. unfold link_w. rewrite (Nat.max_l i j), (Nat.min_r i j) by lia. rewrite Hgi, Hgj, Heq. done.
      + done.
  Qed.

  Lemma find_shortest_paths_ok :
    exists nodes, find_shortest_paths near m hpn = Ok nodes /\ length nodes = n /\
      (forall i ls l, nodes !! i = Some ls -> l ∈ ls ->
         vl_to l < n /\ vl_to l <> i /\ (vl_d2 l == link_w i (vl_to l))%Q /\ (vl_d2 l < maxsize2)%Q /\
         link_joins l (i, vl_to l)) /\
      (forall i ls j, nodes !! i = Some ls -> j < n -> j <> i -> exists l, l ∈ ls /\ vl_to l = j).
  Proof.
    unfold find_shortest_paths.
    destruct (mapM_res_ok (fun i => mapM_res (make_link near m hpn i) (filter (fun j => j <> i) (seq 0 n)))
      (fun i ls => Forall2 (fun j l => vl_to l = j /\ link_joins l (i, j) /\
         (vl_d2 l == link_w i j)%Q /\ (vl_d2 l < maxsize2)%Q) (filter (fun j => j <> i) (seq 0 n)) ls)
      (seq 0 n)) as (nodes & Heq & Hf).
    { intros i Hi. apply elem_of_seq in Hi. apply mapM_res_ok.
      intros j Hj. apply elem_of_list_filter in Hj as [Hji Hj]. apply elem_of_seq in Hj.
      apply make_link_ok; [lia|lia|done]. }
    exists nodes. split; [done|]. split.
    { apply Forall2_length in Hf. by rewrite seq_length in Hf. }
    assert (Hi : forall i ls, nodes !! i = Some ls ->
      Forall2 (fun j l => vl_to l = j /\ link_joins l (i, j) /\
         (vl_d2 l == link_w i j)%Q /\ (vl_d2 l < maxsize2)%Q) (filter (fun j => j <> i) (seq 0 n)) ls).
    { intros i ls Hls. destruct (Forall2_lookup_r _ _ _ _ _ Hf Hls) as (i' & Hi' & H).
      apply lookup_seq in Hi' as [-> _]. exact H. }
    split.
    - intros i ls l Hls Hl. apply Hi in Hls.
      apply elem_of_list_lookup in Hl as [k Hk].
      destruct (Forall2_lookup_r _ _ _ _ _ Hls Hk) as (j & Hj & <- & Hjn & Hd & Hlt).
      apply elem_of_list_lookup_2, elem_of_list_filter in Hj as [Hji Hj]. apply elem_of_seq in Hj.
      split_and!; try done. lia.
    - intros i ls j Hls Hj Hji. apply Hi in Hls.
      assert (Hin : j ∈ filter (fun j => j <> i) (seq 0 n)).
      { apply elem_of_list_filter. split; [done|]. apply elem_of_seq. lia. }
      apply elem_of_list_lookup in Hin as [k Hk].
      destruct (Forall2_lookup_l _ _ _ _ _ Hls Hk) as (l & Hl & Hto & _).
      exists l. split; [by eapply elem_of_list_lookup_2|done].
  Qed.

  Hypothesis Hn : 2 <= n.

  Lemma build_tree_ok {B} (le : nat * nat -> B -> Prop) (T' : list B) es0 :
    (forall a b c d y, (link_w a b <= link_w c d)%Q -> le (c, d) y -> le (a, b) y) ->
    spanning_tree n es0 -> dominated le es0 T' ->
    exists links es, build_internal_tree near m hpn = Ok links /\
      Forall2 link_joins links es /\ Forall2 (fun l e => (vl_d2 l == link_w e.1 e.2)%Q) links es /\
      spanning_tree n es /\ dominated le es T'.
  Proof.
    intros Hle Hes0 Hd0. destruct find_shortest_paths_ok as (nodes & Heq & Hlen & H1 & H2).
    unfold build_internal_tree. rewrite Heq. cbn [rbind].
    rewrite <-Hlen in Hes0, Hn.
    destruct (tree_ok nodes link_w Hn link_w_sym) with (B := B) (le := le) (T' := T') (es0 := es0)
      as (links & es & Ht & He & Hs & Hd); try done.
    { intros i ls l Hls Hl. rewrite Hlen. destruct (H1 i ls l Hls Hl) as (? & ? & ? & ? & _). done. }
    { intros i ls j Hls Hj. rewrite Hlen in Hj. by apply (H2 i ls j Hls). }
    exists links, es. rewrite Hlen in Hs. split_and!; try done.
    - destruct nodes; [cbn in Hn; lia|]. done.
    - eapply Forall2_impl; [exact He|]. intros l [a b] [Hb Hl]. cbn [fst snd] in *. subst b.
      destruct (nodes !! a) as [ls|] eqn:Els; [|by apply elem_of_nil in Hl].
      by destruct (H1 a ls l Els Hl) as (_ & _ & _ & _ & ?).
    - eapply Forall2_impl; [exact He|]. intros l [a b] [Hb Hl]. cbn [fst snd] in *. subst b.
      destruct (nodes !! a) as [ls|] eqn:Els; [|by apply elem_of_nil in Hl].
      by destruct (H1 a ls l Els Hl) as (_ & _ & ? & _).
  Qed.

  Lemma build_tree_spanning :
    exists links es, build_internal_tree near m hpn = Ok links /\
      Forall2 link_joins links es /\ spanning_tree n es.
  Proof.
    destruct (build_tree_ok (fun _ (_ : nat * nat) => True) (map (fun i => (0, i)) (seq 1 (n - 1)))
      (map (fun i => (0, i)) (seq 1 (n - 1)))) as (links & es & H1 & H2 & _ & H3 & _).
    - done.
    - apply star_tree. lia.
    - exists (map (fun i => (0, i)) (seq 1 (n - 1))). split; [done|]. apply Forall2_true; done.
    - by exists links, es.
  Qed.

End links.

Lemma distance2_sym m a b : (distance2 m a b == distance2 m b a)%Q.
Proof. unfold distance2, hypot2, Z.sub. rewrite !inject_Z_plus, !inject_Z_opp. ring. Qed.

(** In exact arithmetic the distance is that of the points. *)
Section exact.
  Context (near : list xy -> xy -> nat) (m : datamap) (hpn : list (list pte)).
  Notation n := (length hpn).
  Hypothesis Hnear : nearest_query near.
  Hypothesis Hne : forall g, g ∈ hpn -> g <> [].
  Hypothesis Hfar : forall g h p q, g ∈ hpn -> h ∈ hpn -> p ∈ g -> q ∈ h ->
    (distance2 m (pt_xy p) (pt_xy q) < maxsize2)%Q.
  Definition true_distance (p t : pte) (d2 : Q) : Prop := (d2 == distance2 m (pt_xy p) (pt_xy t))%Q.
  Notation link_w := (link_w (exact_searches near) m hpn).

  Lemma closest_members : pairs_found true_distance (exact_searches near) m hpn.
  Proof.
    intros us them Hus Hth. cbn [s_pair exact_searches]. unfold find_closest_points.
    assert (Hp : exists p, p ∈ us). { pose proof (Hne us Hus). destruct us as [|p us']; [done|]. exists p. by left. }
    assert (Ht : exists t, t ∈ them). { pose proof (Hne them Hth). destruct them as [|t th]; [done|]. exists t. by left. }
    destruct Hp as [p Hp], Ht as [t Ht].
    assert (Hend : forall p' t', p' ∈ us -> t' ∈ them -> exists p t d2,
      Ok (CP (Some p') (Some t') (distance2 m (pt_xy p') (pt_xy t'))) = Ok (CP (Some p) (Some t) d2) /\
      p ∈ us /\ t ∈ them /\ (d2 < maxsize2)%Q /\ true_distance p t d2 /\ true_distance t p d2).
    { intros p' t' Hp' Ht'. eexists p', t', _. split; [done|]. split; [done|]. split; [done|]. split; [exact (Hfar _ _ _ _ Hus Hth Hp' Ht')|].
      split; [unfold true_distance; reflexivity|apply distance2_sym]. }
    destruct (Nat.ltb _ _).
    - destruct (brute_closest m us them p t Hp Ht) as (p' & t' & -> & H1 & H2 & _); [exact (Hfar _ _ _ _ Hus Hth Hp Ht)|].
      by apply Hend.
    - destruct (kdtree_closest near m us them Hnear) as (p' & t' & -> & H1 & H2 & _); [by apply Hne..|].
      by apply Hend.
  Qed.

  Hypothesis Hn : 2 <= n.
  (** Minimality. *)
  Hypothesis Hsmall : forall g h, g ∈ hpn -> h ∈ hpn -> length g + length h < 100 \/ square_pixels m.

  Lemma link_w_min i j g h p q : hpn !! i = Some g -> hpn !! j = Some h -> p ∈ g -> q ∈ h ->
    (link_w i j <= distance2 m (pt_xy p) (pt_xy q))%Q.
  Proof.
    intros Hg Hh Hp Hq.
    pose proof (elem_of_list_lookup_2 _ _ _ Hg) as Hg'.
    pose proof (elem_of_list_lookup_2 _ _ _ Hh) as Hh'.
    unfold Network_proof.link_w. cbn [s_pair exact_searches]. destruct (Nat.le_gt_cases i j) as [Hij|Hij].
    - rewrite Nat.max_r, Nat.min_l by lia. rewrite Hg, Hh.
      destruct (find_closest_spec near m h g q p Hnear Hq Hp) as (a & b & -> & _ & _ & Hmin); [exact (Hfar _ _ _ _ Hh' Hg' Hq Hp)|by apply Hsmall|].
      cbn. rewrite (distance2_sym m (pt_xy p) (pt_xy q)). by apply Hmin.
    - rewrite Nat.max_l, Nat.min_r by lia. rewrite Hg, Hh.
      destruct (find_closest_spec near m g h p q Hnear Hp Hq) as (a & b & -> & _ & _ & Hmin); [exact (Hfar _ _ _ _ Hg' Hh' Hp Hq)|by apply Hsmall|].
      cbn. by apply Hmin.
  Qed.

  Lemma build_tree_minimal (T : list ((nat * nat) * (pte * pte))) links :
    build_internal_tree (exact_searches near) m hpn = Ok links ->
    spanning_tree n (map fst T) ->
    (forall i j p q, (i, j, (p, q)) ∈ T ->
       exists g h, hpn !! i = Some g /\ hpn !! j = Some h /\ p ∈ g /\ q ∈ h) ->
    dominated (fun l (t : (nat * nat) * (pte * pte)) =>
      (vl_d2 l <= distance2 m (pt_xy t.2.1) (pt_xy t.2.2))%Q) links T.
  Proof.
    intros Hb HT Hmem.
    destruct (build_tree_ok true_distance (exact_searches near) m hpn closest_members Hn (fun e (t : (nat * nat) * (pte * pte)) =>
      (link_w e.1 e.2 <= distance2 m (pt_xy t.2.1) (pt_xy t.2.2))%Q) T (map fst T))
      as (links' & es & Hb' & _ & Hw & _ & ys & Hp & Hd).
    - intros a b c d y H1 H2. cbn in *. by eapply Qle_trans.
    - done.
    - exists T. split; [done|]. clear -Hmem Hnear Hne Hfar Hsmall Hn.
      assert (Hall : Forall (fun t => t ∈ T) T) by (by apply Forall_forall).
      revert Hall. generalize T at 2 3 4 as T0. induction T0 as [|t T0 IH]; intros Hall; [constructor|].
      apply Forall_cons in Hall as [Ht Hall]. cbn [map]. constructor; [|by apply IH].
      destruct t as [[i j] [p q]]. cbn. destruct (Hmem _ _ _ _ Ht) as (g & h & Hg & Hh & Hpg & Hqh).
      by eapply link_w_min.
    - rewrite Hb in Hb'. injection Hb' as <-. exists ys. split; [done|].
      clear -Hw Hd. revert ys Hd. induction Hw as [|l e ls es Hle Hw IH]; intros ys Hd.
      + inversion Hd; subst. constructor.
      + inversion Hd as [|? t ? ts Ht Hts]; subst. constructor; [by rewrite Hle|auto].
  Qed.
End exact.
