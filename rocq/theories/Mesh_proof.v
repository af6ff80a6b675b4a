(** The walk leaves a tidy graph: links are listed once, summits list only links
    that their saddles list, and saddles have at most one link for each group. *)
From Verif Require Import Tree_spec Walk_model Raster_spec Raster_proof Raster_facts Contig_proof Blob_proof
  Closest_spec Closest_proof Feature_spec Scan_proof Feature_facts Nodata_proof Network_spec Rebuild_proof Climb_spec
  Climb_proof Climb_facts Graph_spec Graph_proof Walk_spec Walk_proof Synth_proof Links_proof Steps_proof One_proof
  Walk_facts Found_proof Again_proof Walked_proof.
From Coq Require Import ZifyBool.
Local Open Scope Z_scope.

Lemma foldM_split {A S} (f : A -> S -> res S) l1 l2 s : foldM f (l1 ++ l2) s = rbind (foldM f l1 s) (foldM f l2).
Proof. revert s. induction l1 as [|a l1 IH]; intros s; cbn; [done|]. destruct (f a s); cbn; [apply IH|done]. Qed.

(** ** Comparisons depend on the features only *)
Definition same_spots (m : datamap) (w w' : world) : Prop :=
  (forall i, saddle_spot m w' i = saddle_spot m w i) /\ (forall i, summit_spot m w' i = summit_spot m w i).
Lemma summit_same_spots m w w' a b : (forall i, summit_spot m w' i = summit_spot m w i) ->
  summit_same m w' a b = summit_same m w a b.
Proof. intros H. unfold summit_same. by rewrite !H. Qed.
Lemma saddle_same_spots m w w' a b : (forall i, saddle_spot m w' i = saddle_spot m w i) ->
  saddle_same m w' a b = saddle_same m w a b.
Proof. intros H. unfold saddle_same. by rewrite !H. Qed.
Lemma link_same_spots m w w' k l : same_spots m w w' -> w_links w' = w_links w ->
  link_same m w' k l = link_same m w k l.
Proof.
  intros [H1 H2] H. unfold link_same. rewrite H. destruct (w_links w !! k), (w_links w !! l); try done.
  by rewrite (summit_same_spots m w w'), (saddle_same_spots m w w').
Qed.
Lemma link_same_ends m w k k' l l' : w_links w !! k = Some l -> w_links w !! k' = Some l' ->
  link_same m w k k' = summit_same m w (ln_summit l) (ln_summit l') && saddle_same m w (ln_saddle l) (ln_saddle l').
Proof. intros H H'. unfold link_same. by rewrite H, H'. Qed.
Lemma link_same_inv m w k k' : link_same m w k k' = true -> exists l l', w_links w !! k = Some l /\ w_links w !! k' = Some l' /\
  summit_same m w (ln_summit l) (ln_summit l') = true /\ saddle_same m w (ln_saddle l) (ln_saddle l') = true.
Proof.
  unfold link_same. destruct (w_links w !! k) as [l|]; [|done]. destruct (w_links w !! k') as [l'|]; [|done].
  intros [H1 H2]%andb_true_iff. by exists l, l'.
Qed.
Lemma summit_same_self m w a : summit_same m w a a = true.
Proof. unfold summit_same. by rewrite Nat.eqb_refl. Qed.
Lemma saddle_same_self m w a : saddle_same m w a a = true.
Proof. unfold saddle_same. by rewrite Nat.eqb_refl. Qed.

(** ** Tidy worlds *)
Definition plain_flags (w : world) : Prop := forall i o, w_saddles w !! i = Some o ->
  sa_single o = false /\ sa_basin o = false /\
  (sa_over o = None \/ (sa_over o = Some true /\ ft_edge (sa_feat o) = true)).

Record tidy (m : datamap) (w : world) : Prop := {
  t_sa : forall i o k, w_saddles w !! i = Some o -> k ∈ sa_links o -> exists l, w_links w !! k = Some l /\ ln_saddle l = i;
  t_sand : forall i o, w_saddles w !! i = Some o -> NoDup (sa_links o);
  t_su : forall d u k, w_summits w !! d = Some u -> k ∈ su_links u -> exists l, w_links w !! k = Some l /\ ln_summit l = d;
  t_sund : forall d u, w_summits w !! d = Some u -> NoDup (su_links u);
  t_known : forall k l, w_links w !! k = Some l -> exists u k', w_summits w !! ln_summit l = Some u /\ k' ∈ su_links u /\
    link_same m w k k' = true;
  t_both : forall d u k l, w_summits w !! d = Some u -> k ∈ su_links u -> w_links w !! k = Some l ->
    exists o, w_saddles w !! ln_saddle l = Some o /\ k ∈ sa_links o;
  t_other : forall i o k l, w_saddles w !! i = Some o -> k ∈ sa_links o -> w_links w !! k = Some l ->
    exists u, w_summits w !! ln_summit l = Some u /\
      (k ∈ su_links u \/ exists k' l', k' ∈ su_links u /\ w_links w !! k' = Some l' /\ ln_saddle l' <> i /\
         link_same m w k k' = true);
  t_flags : plain_flags w;
  t_apart : forall a b, summit_same m w a b = true -> a = b;
  t_first : forall k l, w_links w !! k = Some l -> exists o, w_saddles w !! ln_saddle l = Some o /\
    (k ∈ sa_links o \/ exists k' l', (k' < k)%nat /\ k' ∈ sa_links o /\ w_links w !! k' = Some l' /\ ln_summit l' = ln_summit l) }.

(** ** A new link *)
Section new_link.
  Variables (m : datamap) (s : walk_state) (ign : bool) (d k : nat) (o : saddle) (u : summit).
  Let w := ws_world s.
  Hypotheses (Ho : w_saddles w !! k = Some o) (Hu : w_summits w !! d = Some u).
  Let n := length (w_links w).
  Let w' := ws_world (link_saddle m ign d k s).

  Lemma linked_world : exists bu ba : bool,
    (forall j, w_saddles w' !! j = if decide (j = k) then
       Some (set_links (if ba then sa_links o else sa_links o ++ [n]) o) else w_saddles w !! j) /\
    (forall e, w_summits w' !! e = if decide (e = d) then
       Some (Summit (su_feat u) (if bu then su_links u else su_links u ++ [n]) ((fun l => l ++ [k]) <$> su_domain u))
       else w_summits w !! e) /\
    w_links w' = w_links w ++ [Link d k false] /\ same_spots m w w' /\
    (bu = true <-> ign = true /\ exists k', k' ∈ su_links u /\ link_same m w' n k' = true) /\
    (ba = true <-> ign = true /\ exists k', k' ∈ sa_links o /\ link_same m w' n k' = true).
  Proof.
    unfold w', link_saddle. cbn [ws_world].
    set (w1 := upd_summit d _ (ws_world s)).
    set (w2 := World (w_saddles w1) (w_summits w1) (w_links w1 ++ [Link d k false])).
    change (length (w_links w1)) with n.
    assert (Hln : w_links w2 !! n = Some (Link d k false)).
    { unfold w2, w1; cbn. rewrite lookup_app_r by done. unfold n. by rewrite Nat.sub_diag. }
    assert (Hk2 : w_saddles w2 !! k = Some o) by done.
    assert (Hd2 : w_summits w2 !! d = Some (Summit (su_feat u) (su_links u) ((fun l => l ++ [k]) <$> su_domain u))).
    { change (w_summits w2 !! d) with (w_summits w1 !! d). unfold w1. rewrite upd_summit_lookup.
      rewrite decide_True by done. fold w. by rewrite Hu. }
    unfold add_to_remote. rewrite Hln. cbn [ln_summit ln_saddle]. rewrite Hd2, Hk2. cbn [su_links].
    set (bu := ign && existsb (link_same m w2 n) (su_links u)).
    set (ba := ign && existsb (link_same m w2 n) (sa_links o)).
    set (w3 := if bu then w2 else upd_summit d (fun s => Summit (su_feat s) (su_links s ++ [n]) (su_domain s)) w2).
    set (w4 := if ba then w3 else upd_saddle k (fun s => set_links (sa_links s ++ [n]) s) w3).
    exists bu, ba.
    assert (Hsa4 : forall j, w_saddles w4 !! j = if decide (j = k) then
        Some (set_links (if ba then sa_links o else sa_links o ++ [n]) o) else w_saddles w !! j).
    { intros j. assert (H3 : w_saddles w3 = w_saddles w) by (unfold w3; by destruct bu).
      unfold w4. destruct ba.
      - rewrite H3. destruct (decide (j = k)) as [->|]; [|done]. rewrite Ho. by destruct o.
      - rewrite upd_saddle_lookup, H3. destruct (decide (j = k)) as [->|]; [|done]. by rewrite Ho. }
    assert (Hsu4 : forall e, w_summits w4 !! e = if decide (e = d) then
        Some (Summit (su_feat u) (if bu then su_links u else su_links u ++ [n]) ((fun l => l ++ [k]) <$> su_domain u))
        else w_summits w !! e).
    { intros e. assert (H4 : w_summits w4 = w_summits w3) by (unfold w4; by destruct ba). rewrite H4.
      unfold w3. destruct bu.
      - destruct (decide (e = d)) as [->|He]; [done|]. change (w_summits w2 !! e) with (w_summits w1 !! e).
        unfold w1. rewrite upd_summit_lookup. by rewrite decide_False by done.
      - rewrite upd_summit_lookup. destruct (decide (e = d)) as [->|He]; [by rewrite Hd2|].
        change (w_summits w2 !! e) with (w_summits w1 !! e).
        unfold w1. rewrite upd_summit_lookup. by rewrite decide_False by done. }
    assert (Hl4 : w_links w4 = w_links w ++ [Link d k false]).
    { unfold w4, w3. by destruct ba, bu. }
    assert (Hsp : same_spots m w w4).
    { split; intros i.
      - unfold saddle_spot. rewrite Hsa4. destruct (decide (i = k)) as [->|]; [|done]. by rewrite Ho.
      - unfold summit_spot. rewrite Hsu4. destruct (decide (i = d)) as [->|]; [|done]. by rewrite Hu. }
    assert (Hsp2 : same_spots m w2 w4).
    { destruct Hsp as [H1 H2]. split; intros i; [by rewrite H1|]. rewrite H2. unfold summit_spot.
      change (w_summits w2 !! i) with (w_summits w1 !! i). unfold w1. rewrite upd_summit_lookup. fold w.
      destruct (decide (i = d)) as [->|]; [|done]. by rewrite Hu. }
    assert (Hsame : forall k', link_same m w4 n k' = link_same m w2 n k').
    { intros k'. apply link_same_spots; [done|]. by rewrite Hl4. }
    assert (Hex : forall l, existsb (link_same m w2 n) l = true <-> exists k', k' ∈ l /\ link_same m w4 n k' = true).
    { intros l. rewrite existsb_exists. split; intros (k' & Hk' & H); exists k'; split; try by apply elem_of_list_In.
      - by rewrite Hsame.
      - by rewrite Hsame in H. }
    split_and!; try done.
    - unfold bu. by rewrite andb_true_iff, Hex.
    - unfold ba. by rewrite andb_true_iff, Hex.
  Qed.
End new_link.

Definition room (w : world) (n k : nat) : Prop := forall o, w_saddles w !! k = Some o -> ft_edge (sa_feat o) = false ->
  (length (sa_links o) + n <= length (ft_hpn (sa_feat o)))%nat.
(** The features are those of before, and the lists of the saddles outside of [T]. *)
Definition kept_lists (T : list nat) (w w' : world) : Prop := forall j o, w_saddles w !! j = Some o ->
  exists o', w_saddles w' !! j = Some o' /\ sa_feat o' = sa_feat o /\ (j ∉ T -> sa_links o' = sa_links o).
Lemma kept_refl T w : kept_lists T w w.
Proof. intros j o Ho. by exists o. Qed.
Lemma kept_trans T w1 w2 w3 : kept_lists T w1 w2 -> kept_lists T w2 w3 -> kept_lists T w1 w3.
Proof.
  intros H1 H2 j o Ho. destruct (H1 j o Ho) as (o2 & A1 & A2 & A3). destruct (H2 j o2 A1) as (o3 & B1 & B2 & B3).
  exists o3. split; [done|]. split; [congruence|]. intros Hj. rewrite B3, A3; done.
Qed.
Lemma kept_sub T T' w w' : (forall x, x ∈ T -> x ∈ T') -> kept_lists T w w' -> kept_lists T' w w'.
Proof. intros HT H j o Ho. destruct (H j o Ho) as (o' & A1 & A2 & A3). exists o'. split_and!; auto. Qed.

Lemma tidy_link m s ign d k o u : tidy m (ws_world s) -> w_saddles (ws_world s) !! k = Some o ->
  w_summits (ws_world s) !! d = Some u -> tidy m (ws_world (link_saddle m ign d k s)).
Proof.
  intros T Ho Hu. destruct (linked_world m s ign d k o u Ho Hu) as (bu & ba & Hsa & Hsu & Hl & Hsp & Hbu & Hba).
  set (w := ws_world s) in *. set (w' := ws_world (link_saddle m ign d k s)) in *. set (n := length (w_links w)) in *. clearbody w'.
  destruct T as [T1 T2 T3 T4 T5 T6 T7 T8 T9 T10].
  assert (Hold : forall j l, w_links w !! j = Some l -> w_links w' !! j = Some l).
  { intros j l Hj. rewrite Hl. by apply lookup_app_l_Some. }
  assert (Hnew : w_links w' !! n = Some (Link d k false)).
  { rewrite Hl, lookup_app_r by done. unfold n. by rewrite Nat.sub_diag. }
  assert (Hlk : forall j l, w_links w' !! j = Some l -> w_links w !! j = Some l \/ (j = n /\ l = Link d k false)).
  { intros j l Hj. rewrite Hl in Hj. apply lookup_app_Some in Hj as [Hj|[Hj1 Hj2]]; [by left|right].
    apply list_lookup_singleton_Some in Hj2 as [Hj2 <-]. split; [unfold n; lia|done]. }
  assert (Hlt1 : forall j x, w_saddles w !! j = Some x -> n ∉ sa_links x).
  { intros j x Hx Hn. destruct (T1 j x n Hx Hn) as (l & Hl' & _). apply lookup_lt_Some in Hl'. unfold n in Hl'. lia. }
  assert (Hlt2 : forall j x, w_summits w !! j = Some x -> n ∉ su_links x).
  { intros j x Hx Hn. destruct (T3 j x n Hx Hn) as (l & Hl' & _). apply lookup_lt_Some in Hl'. unfold n in Hl'. lia. }
  assert (Hsame : forall x y, link_same m w x y = true -> link_same m w' x y = true).
  { intros x y (a & b & Ha & Hb & H1 & H2)%link_same_inv. rewrite (link_same_ends m w' x y a b) by by apply Hold.
    by rewrite (summit_same_spots m w w'), (saddle_same_spots m w w'), H1, H2 by apply Hsp. }
  assert (Hap : forall a b, summit_same m w' a b = true -> a = b).
  { intros a b. rewrite (summit_same_spots m w w'); [apply T9|apply Hsp]. }
  split; [..|done|].
  - intros i x j Hx Hj. rewrite Hsa in Hx. destruct (decide (i = k)) as [->|].
    + injection Hx as <-. cbn in Hj.
      assert (j ∈ sa_links o \/ j = n) as [Hj'| ->].
      { destruct ba; [by left|]. apply elem_of_app in Hj as [?|?%elem_of_list_singleton]; auto. }
      * destruct (T1 k o j Ho Hj') as (l & H1 & H2). exists l. auto.
      * by eexists.
    + destruct (T1 i x j Hx Hj) as (l & H1 & H2). exists l. auto.
  - intros i x Hx. rewrite Hsa in Hx. destruct (decide (i = k)) as [->|]; [|by eapply T2].
    injection Hx as <-. cbn. destruct ba; [by eapply T2|]. apply NoDup_app. split; [by eapply T2|].
    split; [|apply NoDup_singleton]. intros x Hx ->%elem_of_list_singleton. by apply (Hlt1 k o).
  - intros i x j Hx Hj. rewrite Hsu in Hx. destruct (decide (i = d)) as [->|].
    + injection Hx as <-. cbn in Hj.
      assert (j ∈ su_links u \/ j = n) as [Hj'| ->].
      { destruct bu; [by left|]. apply elem_of_app in Hj as [?|?%elem_of_list_singleton]; auto. }
      * destruct (T3 d u j Hu Hj') as (l & H1 & H2). exists l. auto.
      * by eexists.
    + destruct (T3 i x j Hx Hj) as (l & H1 & H2). exists l. auto.
  - intros i x Hx. rewrite Hsu in Hx. destruct (decide (i = d)) as [->|]; [|by eapply T4].
    injection Hx as <-. cbn. destruct bu; [by eapply T4|]. apply NoDup_app. split; [by eapply T4|].
    split; [|apply NoDup_singleton]. intros x Hx ->%elem_of_list_singleton. by apply (Hlt2 d u).
  - intros j l Hj. destruct (Hlk j l Hj) as [Hj'|[-> ->]].
    + destruct (T5 j l Hj') as (x & j' & H1 & H2 & H3). rewrite Hsu. destruct (decide (ln_summit l = d)) as [E|].
      * eexists _, j'. split; [done|]. split; [|by apply Hsame]. cbn. assert (x = u) as -> by congruence.
        destruct bu; [done|]. apply elem_of_app. by left.
      * exists x, j'. split_and!; auto.
    + cbn [ln_summit]. rewrite Hsu. rewrite decide_True by done. destruct bu.
      * destruct (proj1 Hbu eq_refl) as (_ & k' & H1 & H2). by eexists _, k'.
      * eexists _, n. split; [done|]. split; [cbn; apply elem_of_app; right; by left|].
        rewrite (link_same_ends _ _ _ _ _ _ Hnew Hnew). by rewrite summit_same_self, saddle_same_self.
  - intros i x j l Hx Hj Hjl. rewrite Hsu in Hx.
    assert (Hin : j ∈ su_links x -> w_summits w !! i = Some x -> exists o0, w_saddles w' !! ln_saddle l = Some o0 /\ j ∈ sa_links o0).
    { intros Hj' Hx'. destruct (T3 i x j Hx' Hj') as (l0 & Hl0 & _). assert (l0 = l) as -> by (apply Hold in Hl0; congruence).
      destruct (T6 i x j l Hx' Hj' Hl0) as (o0 & A1 & A2). rewrite Hsa. destruct (decide (ln_saddle l = k)) as [E|]; [|eauto].
      eexists. split; [done|]. cbn. assert (o0 = o) as -> by congruence. destruct ba; [done|]. apply elem_of_app. by left. }
    destruct (decide (i = d)) as [->|]; [|by apply Hin].
    injection Hx as <-. cbn in Hj. 
    assert (Hin' : j ∈ su_links u -> exists o0, w_saddles w' !! ln_saddle l = Some o0 /\ j ∈ sa_links o0).
    { intros Hj'. destruct (T3 d u j Hu Hj') as (l0 & Hl0 & _). assert (l0 = l) as -> by (apply Hold in Hl0; congruence).
      destruct (T6 d u j l Hu Hj' Hl0) as (o0 & A1 & A2). rewrite Hsa. destruct (decide (ln_saddle l = k)) as [E|]; [|eauto].
      eexists. split; [done|]. cbn. assert (o0 = o) as -> by congruence. destruct ba; [done|]. apply elem_of_app. by left. }
    destruct bu eqn:Ebu; [by apply Hin'|].
    apply elem_of_app in Hj as [Hj|Hj]; [by apply Hin'|]. apply elem_of_list_singleton in Hj as ->.
    assert (l = Link d k false) as -> by congruence. cbn [ln_saddle]. rewrite Hsa, decide_True by done.
    eexists. split; [done|]. cbn. destruct ba; [|apply elem_of_app; right; by left]. exfalso.
    destruct (proj1 Hba eq_refl) as (Hi & k' & Hk' & Hs). destruct (T1 k o k' Ho Hk') as (l' & Hl' & El').
    rewrite (link_same_ends m w' n k' _ _ Hnew (Hold _ _ Hl')) in Hs. apply andb_true_iff in Hs as [Hs _].
    cbn [ln_summit] in Hs. apply Hap in Hs. destruct (T5 k' l' Hl') as (x & k1 & A1 & A2 & A3).
    assert (x = u) as -> by congruence.
    enough (false = true) by done. apply Hbu. split; [done|]. exists k1. split; [done|].
    destruct (T3 d u k1 Hu A2) as (l1 & Hl1 & El1). apply Hsame in A3.
    rewrite (link_same_ends _ _ _ _ _ _ (Hold _ _ Hl') (Hold _ _ Hl1)) in A3.
    rewrite (link_same_ends _ _ _ _ _ _ Hnew (Hold _ _ Hl1)). cbn [ln_summit ln_saddle]. by rewrite El', <-Hs in A3.
  - intros i x j l Hx Hj Hjl. rewrite Hsa in Hx.
    assert (Hin : forall o0, w_saddles w !! i = Some o0 -> j ∈ sa_links o0 -> exists u0, w_summits w' !! ln_summit l = Some u0 /\
      (j ∈ su_links u0 \/ exists k' l', k' ∈ su_links u0 /\ w_links w' !! k' = Some l' /\ ln_saddle l' <> i /\
         link_same m w' j k' = true)).
    { intros o0 Ho0 Hj'. destruct (T1 i o0 j Ho0 Hj') as (l0 & Hl0 & _). assert (l0 = l) as -> by (apply Hold in Hl0; congruence).
      destruct (T7 i o0 j l Ho0 Hj' Hl0) as (u0 & A1 & A2). rewrite Hsu.
      assert (Hcase : forall L : list nat, (forall y, y ∈ su_links u0 -> y ∈ L) -> j ∈ L \/ exists k' l', k' ∈ L /\
        w_links w' !! k' = Some l' /\ ln_saddle l' <> i /\ link_same m w' j k' = true).
      { intros L HL. destruct A2 as [A2|(k' & l' & B1 & B2 & B3 & B4)]; [left; auto|right]. exists k', l'. split_and!; auto. }
      destruct (decide (ln_summit l = d)) as [E|]; [|exists u0; split; [done|by apply Hcase]].
      assert (u0 = u) as -> by congruence. eexists. split; [done|]. apply Hcase. cbn. intros y Hy.
      destruct bu; [done|]. apply elem_of_app. by left. }
    destruct (decide (i = k)) as [->|]; [|by apply (Hin x)].
    injection Hx as <-. cbn in Hj. destruct ba eqn:Eba; [by apply (Hin o)|].
    apply elem_of_app in Hj as [Hj|Hj]; [by apply (Hin o)|]. apply elem_of_list_singleton in Hj as ->.
    assert (l = Link d k false) as -> by congruence. cbn [ln_summit]. rewrite Hsu, decide_True by done.
    eexists. split; [done|]. cbn. destruct bu; [right|left; apply elem_of_app; right; by left].
    destruct (proj1 Hbu eq_refl) as (Hi & k' & Hk' & Hs). destruct (T3 d u k' Hu Hk') as (l' & Hl' & El').
    exists k', l'. split; [done|]. split; [by apply Hold|]. split; [|done]. intros E.
    destruct (T6 d u k' l' Hu Hk' Hl') as (o1 & B1 & B2). assert (o1 = o) as -> by congruence.
    enough (false = true) by done. apply Hba. split; [done|]. by exists k'.
  - intros i x Hx. rewrite Hsa in Hx. destruct (decide (i = k)) as [->|]; [|by eapply T8].
    injection Hx as <-. cbn. by apply T8 in Ho.
  - intros j l Hj. destruct (Hlk j l Hj) as [Hj'|[-> ->]].
    + destruct (T10 j l Hj') as (x & A1 & A2).
      assert (exists y, w_saddles w' !! ln_saddle l = Some y /\ forall z, z ∈ sa_links x -> z ∈ sa_links y) as (y & Hy & Hxy).
      { rewrite Hsa. destruct (decide (ln_saddle l = k)) as [E|]; [|by exists x]. eexists. split; [done|].
        assert (x = o) as -> by congruence. cbn. intros z Hz. destruct ba; [done|]. apply elem_of_app. by left. }
      exists y. split; [done|]. destruct A2 as [A2|(k' & l' & B1 & B2 & B3 & B4)]; [left; auto|right]. exists k', l'. auto.
    + cbn [ln_saddle ln_summit]. rewrite Hsa, decide_True by done. eexists. split; [done|]. cbn [sa_links set_links].
      destruct ba; [right|left; apply elem_of_app; right; by left].
      destruct (proj1 Hba eq_refl) as (_ & k' & Hk' & Hs). destruct (T1 k o k' Ho Hk') as (l' & Hl' & El').
      exists k', l'. split; [unfold n; by eapply lookup_lt_Some|]. split; [done|]. split; [by apply Hold|].
      rewrite (link_same_ends m w' n k' _ _ Hnew (Hold _ _ Hl')) in Hs. apply andb_true_iff in Hs as [Hs _].
      cbn [ln_summit] in Hs. apply Hap in Hs. done.
Qed.

Lemma room_link m s ign d k o u n : w_saddles (ws_world s) !! k = Some o -> w_summits (ws_world s) !! d = Some u ->
  kept_lists [k] (ws_world s) (ws_world (link_saddle m ign d k s)) /\
  (room (ws_world s) (S n) k -> room (ws_world (link_saddle m ign d k s)) n k).
Proof.
  intros Ho Hu. destruct (linked_world m s ign d k o u Ho Hu) as (bu & ba & Hsa & _). split.
  - intros j x Hx. rewrite Hsa. destruct (decide (j = k)) as [->|].
    + assert (x = o) as -> by congruence. eexists. split; [done|]. split; [done|]. intros Hn. destruct Hn. by left.
    + exists x. done.
  - intros H x Hx He. rewrite Hsa, decide_True in Hx by done. injection Hx as <-. cbn in *. specialize (H o Ho He).
    destruct ba; rewrite ?app_length; cbn; lia.
Qed.

(** ** Changes of the families *)
Definition quiet (w w' : world) : Prop :=
  w_summits w' = w_summits w /\ w_links w' = w_links w /\ kept_lists [] w w' /\
  (forall j o', w_saddles w' !! j = Some o' -> w_saddles w !! j = None -> sa_links o' = []).

Lemma tidy_quiet m w w' : tidy m w -> quiet w w' -> plain_flags w' -> tidy m w'.
Proof.
  intros [T1 T2 T3 T4 T5 T6 T7 T8 T9 T10] (Q1 & Q2 & Q3 & Q4) Hf.
  assert (Hback : forall i o k, w_saddles w' !! i = Some o -> k ∈ sa_links o -> exists o0, w_saddles w !! i = Some o0 /\ k ∈ sa_links o0).
  { intros i o k Ho Hk. destruct (w_saddles w !! i) as [o0|] eqn:E.
    - destruct (Q3 i o0 E) as (o' & A1 & A2 & A3). assert (o' = o) as -> by congruence. exists o0. split; [done|].
      rewrite <-A3; [done|]. apply not_elem_of_nil.
    - rewrite (Q4 i o Ho E) in Hk. by apply elem_of_nil in Hk. }
  assert (Hsp : forall i a, saddle_spot m w i = Some a -> saddle_spot m w' i = Some a).
  { unfold saddle_spot. intros i a H. destruct (w_saddles w !! i) as [o0|] eqn:E; [|done].
    destruct (Q3 i o0 E) as (o' & -> & A2 & _). cbn in *. by rewrite A2. }
  assert (Hss : forall a b, summit_same m w' a b = summit_same m w a b).
  { intros a b. unfold summit_same, summit_spot. by rewrite Q1. }
  assert (Hls : forall k k', link_same m w k k' = true -> link_same m w' k k' = true).
  { intros k k' (l & l' & H1 & H2 & H3 & H4)%link_same_inv.
    rewrite (link_same_ends m w' k k' l l') by by rewrite Q2. rewrite Hss, H3. cbn.
    unfold saddle_same in *. apply orb_true_iff in H4 as [->|H4]; [done|]. apply orb_true_iff. right.
    destruct (saddle_spot m w (ln_saddle l)) eqn:E1; [|done]. destruct (saddle_spot m w (ln_saddle l')) eqn:E2; [|done].
    by rewrite (Hsp _ _ E1), (Hsp _ _ E2). }
  split; rewrite ?Q1, ?Q2; try done.
  - intros i o k Ho Hk. destruct (Hback i o k Ho Hk) as (o0 & H1 & H2). by eapply T1.
  - intros i o Ho. destruct (w_saddles w !! i) as [o0|] eqn:E.
    + destruct (Q3 i o0 E) as (o' & A1 & A2 & A3). assert (o' = o) as -> by congruence.
      rewrite A3; [by eapply T2|apply not_elem_of_nil].
    + rewrite (Q4 i o Ho E). constructor.
  - intros k l Hk. destruct (T5 k l Hk) as (u & k' & H1 & H2 & H3). exists u, k'. auto.
  - intros d u k l Hu Hk Hl. destruct (T6 d u k l Hu Hk Hl) as (o & H1 & H2).
    destruct (Q3 _ _ H1) as (o' & A1 & A2 & A3). exists o'. split; [done|]. rewrite A3; [done|apply not_elem_of_nil].
  - intros i o k l Ho Hk Hl. destruct (Hback i o k Ho Hk) as (o0 & H1 & H2).
    destruct (T7 i o0 k l H1 H2 Hl) as (u & H3 & H4). exists u. split; [done|].
    destruct H4 as [H4|(k' & l' & B1 & B2 & B3 & B4)]; [by left|right]. exists k', l'. auto.
  - intros a b. rewrite Hss. apply T9.
  - intros k l Hk. destruct (T10 k l Hk) as (o & H1 & H2). destruct (Q3 _ _ H1) as (o' & A1 & A2 & A3). exists o'. split; [done|].
    rewrite A3 by apply not_elem_of_nil. done.
Qed.

Lemma quiet_upd i f w : (forall o, sa_feat (f o) = sa_feat o /\ sa_links (f o) = sa_links o) -> quiet w (upd_saddle i f w).
Proof.
  intros Hf. split; [done|]. split; [done|]. split.
  - intros j o Ho. rewrite upd_saddle_lookup, Ho. destruct (decide (j = i)); [|by exists o].
    exists (f o). destruct (Hf o). split_and!; auto.
  - intros j o' Ho' Hn. rewrite upd_saddle_lookup, Hn in Ho'. by destruct (decide (j = i)).
Qed.
Lemma quiet_trans w1 w2 w3 : quiet w1 w2 -> quiet w2 w3 -> quiet w1 w3.
Proof.
  intros (A1 & A2 & A3 & A4) (B1 & B2 & B3 & B4). split; [congruence|]. split; [congruence|]. split; [by eapply kept_trans|].
  intros j o' Ho' Hn. destruct (w_saddles w2 !! j) as [o2|] eqn:E2.
  - destruct (B3 j o2 E2) as (o3 & K1 & K2 & K3). assert (o3 = o') as -> by congruence.
    rewrite K3; [by eapply A4|apply not_elem_of_nil].
  - by eapply B4.
Qed.
Lemma flags_upd i f w : plain_flags w ->
  (forall o, w_saddles w !! i = Some o -> sa_feat (f o) = sa_feat o /\ sa_single (f o) = sa_single o /\ sa_basin (f o) = sa_basin o /\
     (sa_over (f o) = sa_over o \/ (sa_over (f o) = Some true /\ ft_edge (sa_feat o) = true))) ->
  plain_flags (upd_saddle i f w).
Proof.
  intros Hw Hf j x Hx. rewrite upd_saddle_lookup in Hx. destruct (decide (j = i)) as [->|]; [|by eapply Hw].
  destruct (w_saddles w !! i) as [o|] eqn:E; [|done]. injection Hx as <-. destruct (Hf o eq_refl) as (H1 & H2 & H3 & H4).
  destruct (Hw i o E) as (K1 & K2 & K3). rewrite H1, H2, H3. split_and!; try done. destruct H4 as [->|H4]; auto.
Qed.
Lemma flags_alloc f w : plain_flags w -> plain_flags (alloc_saddle (new_saddle f) w).1.
Proof.
  intros H j x Hx. rewrite alloc_lookup in Hx. destruct (decide _); [|by eapply H]. injection Hx as <-. cbn. auto.
Qed.
Lemma flags_children i f rs : forall w, plain_flags w -> plain_flags (alloc_children i f rs w).1.
Proof.
  induction rs as [|[x y|pos mu hpn child] rs IH]; intros w Hw; [done|by apply IH|]. cbn [alloc_children].
  pose proof (flags_alloc (piece f pos hpn) w Hw) as H1. destruct (alloc_saddle _ w) as [w1 j]. cbn in H1.
  set (w2 := match child with Some _ => _ | None => _ end).
  assert (H2 : plain_flags w2). { unfold w2. destruct child; [|done]. apply flags_upd; [apply flags_upd; [done|]|]; auto. }
  specialize (IH w2 H2). by destruct (alloc_children i f rs w2).
Qed.

Lemma flags_synth fpath near m i w w' ks : plain_flags w -> generate_synthetic_saddles fpath near m i w = Ok (w', ks) ->
  plain_flags w'.
Proof.
  intros Hw. unfold generate_synthetic_saddles. destruct (w_saddles w !! i) as [o|]; [|done].
  destruct (ft_hpn (sa_feat o)) as [|g0 [|g1 [|g2 gs]]].
  - by intros [= <- _].
  - by intros [= <- _].
  - destruct (ft_multi (sa_feat o)).
    + destruct (highest g0) as [h0|]; cbn [rbind]; [|done]. destruct (highest g1) as [h1|]; cbn [rbind]; [|done].
      intros H. injection H as <- _. apply (flags_alloc (piece (sa_feat o) (ft_pos (sa_feat o)) [h0; h1]) w Hw).
    + destruct (hpn_shortest_path _ _ _) as [[[a b] mid]|]; cbn [rbind]; [|done].
      destruct (as_pte a) as [a'|]; cbn [rbind]; [|done]. destruct (as_pte b) as [b'|]; cbn [rbind]; [|done].
      intros H. injection H as <- _. apply (flags_alloc (piece (sa_feat o) mid.1 [[a']; [b']]) w Hw).
  - destruct (generate_child_saddles _ _ _) as [rs|]; cbn [rbind]; [|done]. intros H.
    pose proof (flags_children i (sa_feat o) rs w Hw) as K. destruct (alloc_children i _ rs w). by injection H as <- _.
Qed.

Lemma rs_and {A} (P Q : A -> Prop) r : rs False P r -> rs False Q r -> rs False (fun a => P a /\ Q a) r.
Proof. destruct r; cbn; tauto. Qed.

Section mesh.
  Variables (fpath : datamap -> list mpoint -> mpoint -> mpoint -> option (list mpoint * Q)).
  Variables (near : searches) (m : datamap).
  Hypotheses (Hf : mpaths_found fpath m) (Hnear : sound_searches near m) (Hok : map_ok m) (Hup : north_up m)
    (Hlow : climbable m) (Hpix : pixels_in_reach m) (Hreach : map_in_reach m).
  Variable dom : nat -> xy -> Prop.
  Variable w0 : world.
  Hypothesis Hdom : forall d t, dom d t -> has_domain w0 d.
  Notation rs := (rs False).

  Record mesh (s : walk_state) : Prop := {
    me_keep : keep m dom w0 s;
    me_tidy : tidy m (ws_world s);
    me_room : forall k, room (ws_world s) 0 k;
    me_su : forall d, su_feat <$> w_summits (ws_world s) !! d = su_feat <$> w_summits w0 !! d }.

  Definition mstep (T : list nat) (s s' : walk_state) : Prop := mesh s' /\ kept_lists T (ws_world s) (ws_world s').
  Lemma mstep_trans T s1 s2 s3 : mstep T s1 s2 -> mstep T s2 s3 -> mstep T s1 s3.
  Proof. intros [_ A] [M B]. split; [done|by eapply kept_trans]. Qed.
  Lemma mstep_sub T T' s s' : (forall x, x ∈ T -> x ∈ T') -> mstep T s s' -> mstep T' s s'.
  Proof. intros H [M K]. split; [done|by eapply kept_sub]. Qed.

  Lemma mesh_climb s k : mesh s -> rs (fun s' => mesh s' /\ ws_world s' = ws_world s) (climb_edges near m k s).
  Proof.
    intros [K T R F]. eapply rs_weaken.
    - apply rs_and; [by apply (keep_climb near m Hnear Hok Hup Hlow Hpix dom w0 s k K)|].
      instantiate (1 := fun s' => ws_world s' = ws_world s). unfold climb_edges, hpn_of.
      pose proof (keep_climb near m Hnear Hok Hup Hlow Hpix dom w0 s k K) as H. unfold climb_edges, hpn_of in H.
      destruct (w_saddles (ws_world s) !! k) as [o|]; cbn [rbind] in *; [|done].
      destruct (foldM _ _ _); cbn in *; [done|tauto].
    - intros s' [K' E]. split; [|done]. split; [done|by rewrite E..].
  Qed.

  Lemma mesh_link s ign d k : mesh s -> (exists c, cs_table (ws_climb s) !! c = Some d) -> is_Some (w_saddles (ws_world s) !! k) ->
    room (ws_world s) 1 k -> mstep [k] s (link_saddle m ign d k s) /\
    (forall n, room (ws_world s) (S n) k -> room (ws_world (link_saddle m ign d k s)) n k).
  Proof.
    intros [K T R F] Hd [o Ho] H1. pose proof Hd as [c Hc]. destruct (i_sound _ _ _ (k_inv _ _ _ _ K) _ _ Hc) as (t & Ht & _).
    destruct (k_dom _ _ _ _ K d (Hdom d t Ht)) as (u & Hu & _).
    split; [|intros n; by apply (room_link m s ign d k o u n Ho Hu)].
    destruct (room_link m s ign d k o u 0 Ho Hu) as [HK HR]. split; [|done]. split.
    - by apply keep_link.
    - by apply (tidy_link m s ign d k o u).
    - intros j. destruct (decide (j = k)) as [->|Hj]; [by apply HR|]. intros x Hx He.
      destruct (w_saddles (ws_world s) !! j) as [y|] eqn:Ey.
      + destruct (HK j y Ey) as (y' & A1 & A2 & A3). assert (y' = x) as -> by congruence. rewrite A3, A2.
        * apply (R j y Ey). congruence.
        * by intros ->%elem_of_list_singleton.
      + exfalso. apply lookup_ge_None in Ey. apply lookup_lt_Some in Hx.
        unfold link_saddle in Hx. cbn [ws_world] in Hx. rewrite add_remote_length in Hx. cbn in Hx. lia.
    - intros e. rewrite <-F. destruct (linked_world m s ign d k o u Ho Hu) as (bu & ba & _ & Hsu & _). rewrite Hsu.
      destruct (decide (e = d)) as [->|]; [|done]. by rewrite Hu.
  Qed.

  Lemma mesh_edges ign k hs : forall s, mesh s -> is_Some (w_saddles (ws_world s) !! k) -> room (ws_world s) (length hs) k ->
    rs (fun s' => mstep [k] s s') (foldM (link_edge m ign k) hs s).
  Proof.
    induction hs as [|h hs IH]; intros s M Hk HR; cbn [foldM].
    - cbn. split; [done|apply kept_refl].
    - unfold link_edge. destruct h as [|h0 h]; [bad|].
      destruct (cs_table (ws_climb s) !! pt_xy h0) as [d|] eqn:E; cbn [rbind].
      + destruct (mesh_link s ign d k M) as [M1 HR1]; [eauto|done| |].
        { intros o Ho He. specialize (HR o Ho He). cbn in HR. lia. }
        eapply rs_weaken; [apply IH|].
        * apply M1.
        * destruct Hk as [o Ho]. destruct M1 as [_ Hkp]. destruct (Hkp k o Ho) as (o' & Ho' & _). by eexists.
        * by apply HR1.
        * intros s' H. by eapply mstep_trans.
      + apply IH; [done|done|]. intros o Ho He. specialize (HR o Ho He). cbn in HR. lia.
  Qed.

  Lemma mesh_quiet s w : mesh s -> keep m dom w0 (set_world w s) -> quiet (ws_world s) w -> plain_flags w -> mstep [] s (set_world w s).
  Proof.
    intros [K T R F] K' Hq Hfl. split; [|apply Hq].
    split; [done|by eapply tidy_quiet| |by cbn; destruct Hq as (-> & _)].
    intros k o Ho He. cbn in Ho. destruct (w_saddles (ws_world s) !! k) as [y|] eqn:Ey.
    - destruct Hq as (_ & _ & H & _). destruct (H k y Ey) as (y' & A1 & A2 & A3). assert (y' = o) as -> by congruence.
      rewrite A3, A2 by apply not_elem_of_nil. apply (R k y Ey). congruence.
    - destruct Hq as (_ & _ & _ & H). rewrite (H k o Ho Ey). cbn. lia.
  Qed.

  Lemma mesh_feat s k : mesh s -> mesh (add_feat k s).
  Proof. intros [K T R F]. split; [by apply keep_feat|done|done|done]. Qed.

  (** Saddles without links have room for all their groups. *)
  Lemma room_nil w k : (forall o, w_saddles w !! k = Some o -> sa_links o = [] \/ ft_edge (sa_feat o) = true) ->
    forall o, w_saddles w !! k = Some o -> room w (length (ft_hpn (sa_feat o))) k.
  Proof.
    intros H o Ho x Hx He. assert (x = o) as -> by congruence. destruct (H o Ho) as [->|?]; [cbn; lia|congruence].
  Qed.

  Lemma mesh_synth s i : mesh s -> is_Some (w_saddles (ws_world s) !! i) ->
    rs (fun r => mstep [] s (set_world r.1 s) /\
      ((r.1 = ws_world s /\ r.2 = [i]) \/
       (NoDup r.2 /\ forall k, k ∈ r.2 -> w_saddles (ws_world s) !! k = None /\ exists o, w_saddles r.1 !! k = Some o /\ sa_links o = [])))
      (generate_synthetic_saddles fpath near m i (ws_world s)).
  Proof.
    intros M [o Ho]. pose proof M as [K T R _].
    pose proof (keep_synth fpath near m Hf Hnear Hreach dom w0 s i K) as KS.
    destruct (synth_spec fpath near m Hf Hnear Hreach i (ws_world s) o Ho (keep_walk m dom w0 _ _ _ K Ho)) as (w2 & ks & E & Hcase).
    pose proof (flags_synth _ _ _ _ _ _ _ (t_flags _ _ T) E) as Hfl. rewrite E in *. cbn in KS |- *.
    destruct Hcase as [(-> & -> & Hlen)|(Hlen & Hks & Hlw & Hsb & _ & _ & par & Hpar & Hfr)].
    - split; [|by left]. split; [split; [done..|apply M]|apply kept_refl].
    - destruct Hsb as (B1 & B2 & B3 & B4). split; [apply mesh_quiet; try done|right].
      + split; [done|]. split; [done|]. split.
        * intros j x Hx. destruct (decide (j = i)) as [->|Hji].
          -- destruct (B4 x Hx) as [l Hl]. by eexists.
          -- exists x. by rewrite (B3 j x Hx Hji).
        * intros j x Hx Hn. apply lookup_ge_None in Hn. apply lookup_lt_Some in Hx as Hlt.
          destruct (Hfr j) as (y & Hy & Hnil & _); [rewrite Hks; apply elem_of_seq; lia|]. congruence.
      + split; [rewrite Hks; apply NoDup_seq|]. intros k Hk. split.
        * apply lookup_ge_None. rewrite Hks in Hk. apply elem_of_seq in Hk. lia.
        * destruct (Hfr k Hk) as (y & Hy & Hnil & _). by exists y.
  Qed.

  Lemma mesh_edge_saddle s i k : mesh s -> (exists o, w_saddles (ws_world s) !! i = Some o /\ ft_edge (sa_feat o) = true) ->
    (forall o, w_saddles (ws_world s) !! k = Some o -> sa_links o = [] \/ ft_edge (sa_feat o) = true) ->
    rs (fun s' => mstep [k] s s') (edge_saddle m i k s).
  Proof.
    intros M (oi & Hi & Hie) Hk. unfold edge_saddle, hpn_of.
    destruct (w_saddles (ws_world s) !! k) as [o|] eqn:Ho; cbn [rbind]; [|bad].
    eapply rs_bind; [apply mesh_edges; [done|by eexists|]|].
    - apply room_nil; [|done]. intros o'. rewrite Ho. apply Hk.
    - intros s2 M2. cbn. eapply mstep_trans; [exact M2|]. eapply (mstep_sub []); [by intros ? ?%elem_of_nil|].
      destruct M2 as [M2 HK2]. destruct (HK2 i oi Hi) as (o2 & Ho2 & Ef & _).
      set (w1 := upd_saddle k (set_parent (Some i)) (ws_world s2)).
      set (w2 := upd_saddle i (fun o => set_children (sa_children o ++ [k]) o) w1).
      set (w3 := upd_saddle i (set_over (Some true)) w2).
      enough (H : mstep [] s2 (set_world w3 s2)).
      { destruct H as [H1 H2]. split; [by apply mesh_feat|done]. }
      apply mesh_quiet; [done|..].
      + apply keep_world; try done; [apply M2|..].
        { unfold w3, w2, w1. rewrite !feats_upd by done. apply M2. }
        { intros HL. by repeat apply same_lists_upd. }
        { cbn. by rewrite !alter_length. }
      + apply (quiet_trans _ w1); [by apply quiet_upd|]. apply (quiet_trans _ w2); by apply quiet_upd.
      + assert (P2 : plain_flags w2).
        { apply flags_upd; [|by intros o0 _; auto]. apply flags_upd; [|by intros o0 _; auto]. apply M2. }
        apply flags_upd; [done|]. intros o0 H0. split_and!; try done. right. split; [done|].
        unfold w2 in H0. rewrite upd_saddle_lookup, decide_True in H0 by done. unfold w1 in H0. rewrite upd_saddle_lookup, Ho2 in H0.
        destruct (decide (i = k)); injection H0 as <-; cbn; congruence.
  Qed.

  Lemma mesh_over s i : mesh s -> (exists o, w_saddles (ws_world s) !! i = Some o /\ ft_edge (sa_feat o) = true) ->
    mstep [] s (add_feat i (set_world (upd_saddle i (set_over (Some true)) (ws_world s)) s)).
  Proof.
    intros M (oi & Hi & Hie). enough (H : mstep [] s (set_world (upd_saddle i (set_over (Some true)) (ws_world s)) s)).
    { destruct H as [H1 H2]. split; [by apply mesh_feat|done]. }
    apply mesh_quiet; [done|..].
    - apply keep_world; try done; [apply M|..].
      { rewrite !feats_upd by done. apply M. }
      { intros HL. by repeat apply same_lists_upd. }
      { cbn. by rewrite !alter_length. }
    - by apply quiet_upd.
    - apply flags_upd; [apply M|]. intros o0 H0. split_and!; try done. right. split; [done|congruence].
  Qed.

  Lemma kept_edge T s s' i : (exists o, w_saddles (ws_world s) !! i = Some o /\ ft_edge (sa_feat o) = true) ->
    kept_lists T (ws_world s) (ws_world s') -> exists o, w_saddles (ws_world s') !! i = Some o /\ ft_edge (sa_feat o) = true.
  Proof. intros (o & Ho & He) H. destruct (H i o Ho) as (o' & H1 & H2 & _). exists o'. split; [done|congruence]. Qed.

  Lemma mesh_finish s i ks : mesh s -> (exists o, w_saddles (ws_world s) !! i = Some o /\ ft_edge (sa_feat o) = true) ->
    NoDup ks -> (forall k o, k ∈ ks -> w_saddles (ws_world s) !! k = Some o -> sa_links o = [] \/ ft_edge (sa_feat o) = true) ->
    (forall k, k ∈ ks -> is_Some (w_saddles (ws_world s) !! k)) ->
    rs (fun s' => mstep ks s s') (
      let* s := foldM (edge_saddle m i) ks s in
      let s := set_world (upd_saddle i (set_over (Some true)) (ws_world s)) s in
      Ok (add_feat i s)).
  Proof.
    intros M Hi Hnd Hks Hex. eapply (rs_bind False (fun s' => mstep ks s s')).
    - apply (rs_fold False _ (fun pre s' => mstep pre s s')).
      + intros pre k s' [post Hpost] (M' & Hk2).
        assert (Hin : k ∈ ks) by (rewrite Hpost; apply elem_of_app; right; by left).
        eapply rs_weaken; [apply mesh_edge_saddle; [done|by eapply kept_edge|]|].
        * intros o' Ho'. destruct (Hex k Hin) as [o Ho]. destruct (Hk2 k o Ho) as (o2 & A1 & A2 & A3).
          assert (o2 = o') as -> by congruence. rewrite A2, A3; [by eapply Hks|].
          rewrite Hpost in Hnd. apply NoDup_app in Hnd as (_ & Hnd & _). intros Hp. apply (Hnd k Hp). by left.
        * intros s2 [M2 K2]. split; [done|].
          eapply kept_trans; [eapply kept_sub; [|exact Hk2]|eapply kept_sub; [|exact K2]]; intros x Hx; apply elem_of_app; auto.
      + split; [done|]. apply kept_refl.
    - intros s2 [M2 K2]. cbn. eapply mstep_trans; [by split; [exact M2|exact K2]|]. eapply (mstep_sub []); [by intros ? ?%elem_of_nil|].
      apply mesh_over; [done|by eapply kept_edge].
  Qed.

  (** Only the saddle that is walked and new saddles are given links. *)
  Definition mwalk (i : nat) (s s' : walk_state) : Prop := mstep [i] s s'.
  Lemma mwalk_new i T s1 s2 s3 : (forall k, k ∈ T -> k = i \/ w_saddles (ws_world s1) !! k = None) ->
    mwalk i s1 s2 -> mstep T s2 s3 -> mwalk i s1 s3.
  Proof.
    intros HT [M2 K2] [M3 K3]. split; [done|]. intros j o Ho. destruct (K2 j o Ho) as (o2 & A1 & A2 & A3).
    destruct (K3 j o2 A1) as (o3 & B1 & B2 & B3). exists o3. split; [done|]. split; [congruence|].
    intros Hj. rewrite B3; [by apply A3|]. intros Hin. destruct (HT j Hin) as [->|?]; [apply Hj; by left|congruence].
  Qed.
  Lemma mesh_one s i : mesh s -> (forall o, w_saddles (ws_world s) !! i = Some o -> sa_links o = []) ->
    rs (fun s' => mwalk i s s') (walk_one fpath near m i s).
  Proof.
    intros M Hnil. unfold walk_one. destruct (w_saddles (ws_world s) !! i) as [o|] eqn:Ho; [|bad].
    destruct (ft_edge (sa_feat o)) eqn:He.
    - unfold walk_border. eapply rs_bind; [by apply mesh_climb|]. intros s1 [M1 E1].
      replace (w_saddles (ws_world s1) !! i) with (Some o) by (by rewrite E1).
      assert (Hi1 : exists o, w_saddles (ws_world s1) !! i = Some o /\ ft_edge (sa_feat o) = true) by (rewrite E1; by exists o).
      assert (S1 : mwalk i s s1). { split; [done|]. rewrite E1. apply kept_refl. }
      assert (Hsy : forall s1, mwalk i s s1 -> (exists o, w_saddles (ws_world s1) !! i = Some o /\ ft_edge (sa_feat o) = true) ->
        rs (fun s' => mwalk i s s') (
        let* (w, ks) := generate_synthetic_saddles fpath near m i (ws_world s1) in
        let* s := foldM (edge_saddle m i) ks (set_world w s1) in
        let s := set_world (upd_saddle i (set_over (Some true)) (ws_world s)) s in
        Ok (add_feat i s))).
      { clear - Hf Hnear Hok Hup Hlow Hpix Hreach Hdom Ho. intros s1 S1 Hi1. eapply rs_bind.
        - apply mesh_synth; [apply S1|]. destruct Hi1 as (o1 & H1 & _). by eexists.
        - intros [w ks] [S2 Hks]. cbn [fst snd] in *.
          assert (Hi2 : exists o, w_saddles w !! i = Some o /\ ft_edge (sa_feat o) = true).
          { apply (kept_edge [] s1 (set_world w s1) i Hi1). apply S2. }
          eapply rs_weaken; [apply (mesh_finish (set_world w s1)); [apply S2|done|..]|].
          + destruct Hks as [[_ ->]|[? _]]; [apply NoDup_singleton|done].
          + cbn. intros k o0 Hk Hok0. destruct Hks as [[-> ->]|[_ Hks]].
            * apply elem_of_list_singleton in Hk as ->. right. destruct Hi2 as (oi & ? & ?). congruence.
            * destruct (Hks k Hk) as (_ & o1 & ? & ?). left. congruence.
          + cbn. intros k Hk. destruct Hks as [[-> ->]|[_ Hks]].
            * apply elem_of_list_singleton in Hk as ->. destruct Hi2 as (oi & ? & ?). by eexists.
            * destruct (Hks k Hk) as (_ & o1 & ? & ?). by eexists.
          + intros s3 S3. eapply (mwalk_new i ks s (set_world w s1)); [|eapply (mwalk_new i []); [by intros ? ?%elem_of_nil|exact S1|exact S2]|exact S3].
            intros k Hk. destruct Hks as [[-> ->]|[_ Hks]]; [left; by apply elem_of_list_singleton in Hk|right].
            destruct (Hks k Hk) as (Hn & _). destruct (w_saddles (ws_world s) !! k) as [x|] eqn:Ex; [|done].
            destruct S1 as [_ S1]. destruct (S1 k x Ex) as (x' & Hx' & _). congruence. }
      destruct (decide _).
      + destruct (decide _).
        * unfold ft_latlon. rewrite latlon_round_trip by apply Hup. cbn [rbind].
          destruct (cs_table _ !! _) as [d|] eqn:E.
          -- destruct (mesh_link s1 true d i M1) as [M2 _]; [eauto|rewrite E1; by eexists| |].
             { intros x Hx Hex. rewrite E1 in Hx. congruence. }
             apply Hsy.
             ++ eapply (mwalk_new i [i]); [|exact S1|exact M2]. intros k ->%elem_of_list_singleton. by left.
             ++ eapply kept_edge; [exact Hi1|apply M2].
          -- cbn. destruct S1 as [_ S1]. split; [by apply mesh_feat|done].
        * eapply rs_weaken; [apply (mesh_finish s1 i [i]); [done|done|apply NoDup_singleton|..]|].
          -- intros k x ->%elem_of_list_singleton Hx. right. destruct Hi1 as (oi & ? & ?). congruence.
          -- intros k ->%elem_of_list_singleton. rewrite E1. by eexists.
          -- intros s3 S3. eapply (mwalk_new i [i]); [|exact S1|exact S3]. intros k ->%elem_of_list_singleton. by left.
      + by apply Hsy.
    - eapply rs_bind; [apply mesh_synth; [done|by eexists]|]. intros [w ks] [S2 Hks]. cbn [fst snd] in *.
      assert (Hnd : NoDup ks) by (destruct Hks as [[_ ->]|[? _]]; [apply NoDup_singleton|done]).
      assert (Hk0 : forall k, k ∈ ks -> exists o, w_saddles w !! k = Some o /\ sa_links o = []).
      { intros k Hk. destruct Hks as [[-> ->]|[_ Hks]].
        - apply elem_of_list_singleton in Hk as ->. exists o. split; [done|by apply Hnil].
        - by destruct (Hks k Hk). }
      eapply rs_weaken.
      + apply (rs_fold False _ (fun pre s' => mesh s' /\ kept_lists pre w (ws_world s'))).
        * intros pre k s' [post Hpost] (M' & Hk2). unfold walk_synthetic.
          assert (Hin : k ∈ ks) by (rewrite Hpost; apply elem_of_app; right; by left).
          eapply rs_bind; [by apply mesh_climb|]. intros s3 [M3 E3]. unfold hpn_of. rewrite E3.
          destruct (Hk0 k Hin) as (x & Hx & Hxn). destruct (Hk2 k x Hx) as (x2 & A1 & A2 & A3).
          rewrite A1. cbn [rbind]. eapply rs_bind; [apply mesh_edges; [done|rewrite E3; by eexists|]|].
          -- rewrite E3. apply room_nil; [|done]. intros x' Hx'. left. assert (x' = x2) as -> by congruence. rewrite A3; [done|].
             rewrite Hpost in Hnd. apply NoDup_app in Hnd as (_ & Hnd & _). intros Hp. apply (Hnd k Hp). by left.
          -- intros s4 [M4 K4]. cbn. split; [by apply mesh_feat|]. rewrite E3 in K4.
             eapply kept_trans; [eapply kept_sub; [|exact Hk2]|eapply kept_sub; [|exact K4]]; intros y Hy; apply elem_of_app; auto.
        * cbn. split; [apply S2|apply kept_refl].
      + intros s3 [M3 K3]. eapply (mwalk_new i ks s (set_world w s)); [|eapply (mstep_sub []); [by intros ? ?%elem_of_nil|exact S2]|by split].
        intros k Hk. destruct Hks as [[-> ->]|[_ Hks]]; [left; by apply elem_of_list_singleton in Hk|right]. by apply (Hks k Hk).
  Qed.

  Lemma mesh_all feats s : mesh s -> NoDup feats -> (forall i o, i ∈ feats -> w_saddles (ws_world s) !! i = Some o -> sa_links o = []) ->
    (forall i, i ∈ feats -> is_Some (w_saddles (ws_world s) !! i)) ->
    rs (fun s' => mesh s' /\ kept_lists feats (ws_world s) (ws_world s')) (foldM (walk_one fpath near m) feats s).
  Proof.
    intros M Hnd Hnil Hex.
    apply (rs_fold False _ (fun pre s' => mesh s' /\ kept_lists pre (ws_world s) (ws_world s'))).
    - intros pre i s' [post Hpost] (M' & K'). assert (Hin : i ∈ feats) by (rewrite Hpost; apply elem_of_app; right; by left).
      eapply rs_weaken; [apply (mesh_one s' i M')|].
      + intros o' Ho'. destruct (Hex i Hin) as [o Ho]. destruct (K' i o Ho) as (o2 & A1 & A2 & A3).
        assert (o2 = o') as -> by congruence. rewrite A3; [by eapply Hnil|].
        rewrite Hpost in Hnd. apply NoDup_app in Hnd as (_ & Hnd & _). intros Hp. apply (Hnd i Hp). by left.
      + intros s2 [M2 K2]. split; [done|].
        eapply kept_trans; [eapply kept_sub; [|exact K']|eapply kept_sub; [|exact K2]]; intros y Hy; apply elem_of_app; auto.
    - split; [done|apply kept_refl].
  Qed.
End mesh.

(** ** The whole walk *)
Definition bare (w : world) : Prop := w_links w = [] /\
  (forall i o, w_saddles w !! i = Some o -> sa_links o = []) /\ plain_flags w /\
  (forall d u, w_summits w !! d = Some u -> su_links u = []).
Lemma tidy_bare m w : bare w -> (forall a b, summit_same m w a b = true -> a = b) -> tidy m w.
Proof.
  intros (B1 & Hs & BF & B3) Ha.
  split; try done.
  - intros i o k Ho Hk. rewrite (Hs i o Ho) in Hk. by apply elem_of_nil in Hk.
  - intros i o Ho. rewrite (Hs i o Ho). constructor.
  - intros i o k Ho Hk. rewrite (B3 i o Ho) in Hk. by apply elem_of_nil in Hk.
  - intros i o Ho. rewrite (B3 i o Ho). constructor.
  - intros k l. rewrite B1. done.
  - intros d u k l. rewrite B1. done.
  - intros d u k l. rewrite B1. done.
  - intros k l. rewrite B1. done.
Qed.

Section walk_mesh.
  Variables (fpath : datamap -> list mpoint -> mpoint -> mpoint -> option (list mpoint * Q)).
  Variables (near : searches) (m : datamap).
  Hypotheses (Hf : mpaths_found fpath m) (Hnear : sound_searches near m) (Hok : map_ok m) (Hup : north_up m)
    (Hlow : climbable m) (Hpix : pixels_in_reach m) (Hreach : map_in_reach m).

  Lemma mesh_start w summits feats s0 : walk_input m w summits feats -> walk_init m w summits = Ok s0 -> bare w ->
    (forall a b, summit_same m w a b = true -> a = b) ->
    mesh m (summit_cell w summits) (ws_world s0) s0 /\ w_saddles (ws_world s0) = w_saddles w /\
    (forall d, su_feat <$> w_summits (ws_world s0) !! d = su_feat <$> w_summits w !! d) /\
    (forall d t, summit_cell w summits d t -> has_domain (ws_world s0) d).
  Proof.
    intros I E B Hap. pose proof (in_walk _ _ _ _ I) as Hw.
    destruct (walk_init_ok m w summits Hup) as (s0' & H0 & S); [apply I..|].
    rewrite H0 in E. injection E as ->.
    destruct S as [S1 S2 (S3a & S3b & S3c) S4 S5 S6 S7]. pose proof B as (B1 & B2 & BF & B3).
    assert (Hsf : forall d, su_feat <$> w_summits (ws_world s0) !! d = su_feat <$> w_summits w !! d).
    { intros d. rewrite S4. destruct (w_summits w !! d); cbn; [|done]. by destruct (decide _). }
    assert (Hb0 : bare (ws_world s0)).
    { split; [congruence|]. split; [by rewrite S1|]. split; [unfold plain_flags; by rewrite S1|]. intros d u. rewrite S4. destruct (w_summits w !! d) as [x|] eqn:Ex; cbn; [|done].
      intros [= <-]. destruct (decide _); cbn; by eapply B3. }
    split; [|split; [done|split; [done|]]].
    - split.
      + split; [|split| |by intros d|done].
        * unfold feats_of. by rewrite S1.
        * intros c d H. apply S5 in H. exists c. split; [done|]. by eapply uphill_refl, (in_cells _ _ _ _ I).
        * done.
        * intros d c H. left. apply S5. by apply S7.
        * intros d t H _. by apply S5.
        * intros _. split_and!; try done. intros i o Ho. by rewrite Ho.
      + apply tidy_bare; [done|]. intros a b. unfold summit_same.
        assert (Hsp : forall x, summit_spot m (ws_world s0) x = summit_spot m w x).
        { intros x. unfold summit_spot. specialize (Hsf x). destruct (w_summits (ws_world s0) !! x), (w_summits w !! x); cbn in *; congruence. }
        rewrite !Hsp. apply Hap.
      + intros k o Ho _. rewrite S1 in Ho. rewrite (B2 k o Ho). cbn. lia.
      + done.
    - intros d t (Hin & su & Hsu & Hn & _). unfold has_domain. rewrite S4, Hsu. cbn. eexists. split; [done|].
      rewrite decide_True by done. by eexists.
  Qed.

  (** The walk over [A] and then over [B]. *)
  Lemma walk_mesh2 w summits A B s : walk_input m w summits (A ++ B) ->
    climb_from_saddles fpath near m w summits (A ++ B) = Ok s -> bare w ->
    (forall a b, summit_same m w a b = true -> a = b) ->
    exists s1, foldM (walk_one fpath near m) B s1 = Ok s /\
      tidy m (ws_world s1) /\ kept_lists A w (ws_world s1) /\ kept_lists B (ws_world s1) (ws_world s) /\
      tidy m (ws_world s) /\ (forall k, room (ws_world s) 0 k) /\
      (forall d, su_feat <$> w_summits (ws_world s) !! d = su_feat <$> w_summits w !! d) /\
      (forall d, su_feat <$> w_summits (ws_world s1) !! d = su_feat <$> w_summits w !! d) /\
      walkables m (feats_of (ws_world s)).
  Proof.
    intros I E Hb Hap. unfold climb_from_saddles in E.
    destruct (walk_init m w summits) as [s0|] eqn:E0; [|done]. cbn [rbind] in E.
    destruct (mesh_start w summits (A ++ B) s0 I E0 Hb Hap) as (M0 & S1 & Hsf & Hd0).
    destruct Hb as (B1 & B2 & BF & B3).
    pose proof (in_featnd _ _ _ _ I) as Hnd. apply NoDup_app in Hnd as (HA & HAB & HB).
    rewrite foldM_split in E. destruct (foldM (walk_one fpath near m) A s0) as [s1|] eqn:EA; [|done]. cbn [rbind] in E.
    pose proof (mesh_all fpath near m Hf Hnear Hok Hup Hlow Hpix Hreach (summit_cell w summits) (ws_world s0) Hd0 A s0 M0 HA) as H.
    rewrite EA in H. cbn in H. rewrite S1 in H. destruct H as [M1 K1].
    { intros i o _ Ho. by apply (B2 i o Ho). }
    { intros i Hi. apply (in_feats _ _ _ _ I). apply elem_of_app. by left. }
    assert (K1' : kept_lists A w (ws_world s1)) by (intros j o Ho; apply K1; by rewrite S1).
    pose proof (mesh_all fpath near m Hf Hnear Hok Hup Hlow Hpix Hreach (summit_cell w summits) (ws_world s0) Hd0 B s1 M1 HB) as H.
    rewrite E in H. cbn in H. destruct H as [M2 K2].
    { intros i o Hi Ho. assert (Hiw : is_Some (w_saddles w !! i)) by (apply (in_feats _ _ _ _ I), elem_of_app; by right).
      destruct Hiw as [x Hx]. destruct (K1' i x Hx) as (x' & Hx' & _ & Hl). assert (x' = o) as -> by congruence.
      rewrite Hl; [by apply (B2 i x Hx)|]. intros HiA. by apply (HAB i). }
    { intros i Hi. assert (Hiw : is_Some (w_saddles w !! i)) by (apply (in_feats _ _ _ _ I), elem_of_app; by right).
      destruct Hiw as [x Hx]. destruct (K1' i x Hx) as (x' & Hx' & _). by eexists. }
    exists s1. split_and!; try done; [apply M1|apply M2|apply M2|..|apply M2].
    - intros d. rewrite (me_su _ _ _ _ M2). apply Hsf.
    - intros d. rewrite (me_su _ _ _ _ M1). apply Hsf.
  Qed.

  Lemma walk_mesh w summits feats s : walk_input m w summits feats ->
    climb_from_saddles fpath near m w summits feats = Ok s -> bare w ->
    (forall a b, summit_same m w a b = true -> a = b) ->
    tidy m (ws_world s) /\ (forall k, room (ws_world s) 0 k) /\ kept_lists feats w (ws_world s) /\
    (forall d, su_feat <$> w_summits (ws_world s) !! d = su_feat <$> w_summits w !! d) /\
    walkables m (feats_of (ws_world s)).
  Proof.
    intros I E B Hap. rewrite <-(app_nil_r feats) in I, E.
    destruct (walk_mesh2 w summits feats [] s I E B Hap) as (s1 & E1 & _ & K & _ & T & R & F & _ & W).
    cbn in E1. injection E1 as ->. done.
  Qed.
End walk_mesh.
