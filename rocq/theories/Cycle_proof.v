(** One search for cycles, in a simple graph. *)
From Verif Require Import Base_model Graph_model Basin_model Graph_spec Basin_spec Graph_proof Basin_proof Search_proof.
Local Open Scope Z_scope.

Lemma linked_snoc {A} (R : A -> A -> Prop) l q y : linked R (l ++ [q]) -> R q y -> linked R ((l ++ [q]) ++ [y]).
Proof.
  induction l as [|x l IH]; cbn; intros H Hq.
  - apply linked_cons. split; [by intros ? [= <-]|]. by intros i a b Ha Hb.
  - apply linked_cons in H as [H1 H2]. apply linked_cons. split; [|by apply IH].
    intros z Hz. apply H1. by destruct l.
Qed.

(** [y] is in the list, and [x] is not before it. *)
Definition before {A} (l : list A) (y x : A) : Prop :=
  exists k, l !! k = Some y /\ forall k', l !! k' = Some x -> (k < k')%nat.
Lemma before_app {A} (l k : list A) y x : before l y x -> before (l ++ k) y x.
Proof.
  intros (j & Hj & Hx). exists j. split; [by apply lookup_app_l_Some|]. intros k' Hk'.
  apply lookup_app_Some in Hk' as [Hk'|[Hk' _]]; [by apply Hx|]. apply lookup_lt_Some in Hj. lia.
Qed.
Lemma before_trans {A} (l : list A) x y z : before l x y -> before l y z -> before l x z.
Proof.
  intros (i & Hi & Hy) (j & Hj & Hz). exists i. split; [done|]. intros k Hk. specialize (Hz k Hk). specialize (Hy j Hj). lia.
Qed.
Lemma before_new {A} (l : list A) y x : y ∈ l -> x ∉ l -> before l y x.
Proof.
  intros [k Hk]%elem_of_list_lookup Hx. exists k. split; [done|]. intros k' Hk'. destruct Hx. by eapply elem_of_list_lookup_2.
Qed.
Lemma before_linked {A} (l : list A) c : linked (fun x p => before l p x) c ->
  forall l1 x l2 y, c = l1 ++ x :: l2 -> y ∈ l2 -> before l y x.
Proof.
  intros Hc l1 x l2 y ->. assert (linked (fun x p => before l p x) (x :: l2)) as H.
  { intros i a b Ha Hb. apply (Hc (length l1 + i)%nat).
    - rewrite lookup_app_r by lia. by replace (length l1 + i - length l1)%nat with i by lia.
    - rewrite lookup_app_r by lia. by replace (S (length l1 + i) - length l1)%nat with (S i) by lia. }
  clear Hc. revert x H. induction l2 as [|z l2 IH]; intros x H Hy; [by apply elem_of_nil in Hy|].
  apply linked_cons in H as [H1 H2]. specialize (H1 z eq_refl).
  apply elem_of_cons in Hy as [->|Hy]; [done|]. eapply before_trans; [by apply (IH z)|done].
Qed.

(** The member blamed first is the first of the lowest. *)
Lemma low_first w c : forall pre h t rest, foldl (fun lowest n =>
      match lowest with
      | [] => lowest
      | h :: _ =>
          if (node_ele w n =? node_ele w h) && negb (bool_decide (n = h)) then lowest ++ [n]
          else if node_ele w n <? node_ele w h then [n]
          else lowest
      end) (h :: t) c = rest ->
  (exists l1 l2, pre = l1 ++ h :: l2 /\ forall y, y ∈ l1 -> node_ele w h < node_ele w y) ->
  (forall y, y ∈ pre -> node_ele w h <= node_ele w y) ->
  exists h' t' l1 l2, rest = h' :: t' /\ pre ++ c = l1 ++ h' :: l2 /\ forall y, y ∈ l1 -> node_ele w h' < node_ele w y.
Proof.
  induction c as [|n c IH]; intros pre h t rest E Hfirst Hmin; cbn [foldl] in E.
  - destruct Hfirst as (l1 & l2 & -> & H). exists h, t, l1, l2. rewrite app_nil_r. done.
  - assert (pre ++ n :: c = (pre ++ [n]) ++ c) as Eap by by rewrite <-app_assoc. rewrite Eap.
    destruct ((node_ele w n =? node_ele w h) && negb (bool_decide (n = h))) eqn:E1.
    + apply andb_true_iff in E1 as [E1%Z.eqb_eq _]. apply (IH _ h (t ++ [n])); [done| |].
      * destruct Hfirst as (l1 & l2 & -> & H). exists l1, (l2 ++ [n]). by rewrite <-app_assoc.
      * intros y [Hy|Hy%elem_of_list_singleton]%elem_of_app; [by apply Hmin|subst; lia].
    + destruct (Z.ltb_spec (node_ele w n) (node_ele w h)) as [Hlt|Hge].
      * apply (IH _ n []); [done| |].
        -- exists pre, []. split; [done|]. intros y Hy. specialize (Hmin y Hy). lia.
        -- intros y [Hy|Hy%elem_of_list_singleton]%elem_of_app; [specialize (Hmin y Hy); lia|subst; lia].
      * apply (IH _ h t); [done| |].
        -- destruct Hfirst as (l1 & l2 & -> & H). exists l1, (l2 ++ [n]). by rewrite <-app_assoc.
        -- intros y [Hy|Hy%elem_of_list_singleton]%elem_of_app; [by apply Hmin|subst; lia].
Qed.
Lemma find_lowest_first w x c : exists h t l1 l2, find_lowest w (x :: c) = h :: t /\ x :: c = l1 ++ h :: l2 /\
  forall y, y ∈ l1 -> node_ele w h < node_ele w y.
Proof.
  unfold find_lowest. cbn [take]. cbn [foldl]. rewrite Z.eqb_refl, bool_decide_true by done. cbn [negb andb].
  rewrite Z.ltb_irrefl.
  destruct (low_first w c [x] x [] _ eq_refl) as (h & t & l1 & l2 & H1 & H2 & H3).
  - exists [], []. split; [done|]. intros y Hy. by apply elem_of_nil in Hy.
  - by intros y ->%elem_of_list_singleton.
  - exists h, t, l1, l2. done.
Qed.

Section cycle.
  Variable m : datamap.
  Variables (w0 : world) (root : node) (feats0 : list nat).
  Hypothesis G : simple_graph w0.
  Hypothesis Hroot : open_ w0 root.

  Lemma nbrs_once z pre a post : open_ w0 z -> open_ w0 a -> feature_neighbors w0 z = pre ++ a :: post -> a ∉ pre.
  Proof.
    intros Hz Ha E Hin. apply elem_of_list_split in Hin as (l1 & l2 & ->).
    destruct z as [i|b].
    - pose proof (sg_sad _ G i Hz) as N. destruct a as [j|a].
      { assert (edge w0 (Sad i) (Sad j)); [|done]. apply neighbors_edge. rewrite E. set_solver. }
      assert (feature_neighbors w0 (Sad i) = map Sum (summits_of w0 i)) as E2.
      { cbn. unfold summits_of. destruct (w_saddles w0 !! i) as [s|]; [|done].
        clear. induction (sa_links s) as [|k l IH]; [done|]. cbn. destruct (w_links w0 !! k); cbn; by rewrite IH. }
      rewrite E2 in E. clear E2. revert N E. generalize (summits_of w0 i). intros L N E.
      rewrite <-app_assoc in E. cbn in E.
      apply fmap_app_inv in E as (L1 & L2 & E1 & E2 & ->). symmetry in E2.
      destruct L2 as [|x L2]; [done|]. cbn in E2. injection E2 as E2a E2. subst x.
      apply fmap_app_inv in E2 as (L3 & L4 & E3 & E4 & ->).
      destruct L4 as [|y L4]; [done|]. cbn in E4. injection E4 as E4a E4. subst y.
      apply open_dead in Ha. rewrite filter_app, filter_cons, decide_True, filter_app, filter_cons, decide_True in N by done.
      apply NoDup_app in N as (_ & _ & N). apply NoDup_cons in N as [N _]. apply N. rewrite elem_of_app. right. by left.
    - pose proof (sg_sum _ G b Hz) as N. destruct a as [j|a].
      2:{ assert (edge w0 (Sum b) (Sum a)); [|done]. apply neighbors_edge. rewrite E. set_solver. }
      assert (feature_neighbors w0 (Sum b) = map Sad (saddles_of w0 b)) as E2.
      { cbn. unfold saddles_of. destruct (w_summits w0 !! b) as [s|]; [|done].
        clear. induction (su_links s) as [|k l IH]; [done|]. cbn. destruct (w_links w0 !! k); cbn; by rewrite IH. }
      rewrite E2 in E. clear E2. revert N E. generalize (saddles_of w0 b). intros L N E.
      rewrite <-app_assoc in E. cbn in E.
      apply fmap_app_inv in E as (L1 & L2 & E1 & E2 & ->). symmetry in E2.
      destruct L2 as [|x L2]; [done|]. cbn in E2. injection E2 as E2a E2. subst x.
      apply fmap_app_inv in E2 as (L3 & L4 & E3 & E4 & ->).
      destruct L4 as [|y L4]; [done|]. cbn in E4. injection E4 as E4a E4. subst y.
      apply open_dead in Ha. rewrite filter_app, filter_cons, decide_True, filter_app, filter_cons, decide_True in N by done.
      apply NoDup_app in N as (_ & _ & N). apply NoDup_cons in N as [N _]. apply N. rewrite elem_of_app. right. by left.
  Qed.

  Definition up (look : gmap node node) (x y : node) : Prop := look !! x = Some y /\ x <> root.
  Notation anc look := (rtc (up look)).

  Lemma anc_root look y : look !! root = Some root -> anc look root y -> y = root.
  Proof. intros H Hr. inversion Hr as [|? ? ? [_ Hn]]; [done|]. done. Qed.

  Lemma chain_up_anc look d pn u : tree root look d -> u ∈ pn -> forall fuel p, is_Some (look !! p) -> (d p < fuel)%nat ->
    anc look p u ->
    exists l q, chain_up fuel root look pn p = Ok (l, q) /\ q ∈ pn /\
      (l ++ [q]) !! 0%nat = Some p /\ linked (up look) (l ++ [q]) /\ NoDup (l ++ [q]) /\
      (forall x, x ∈ l ++ [q] -> is_Some (look !! x) /\ anc look p x /\ (d x <= d p)%nat).
  Proof.
    intros T Hu. induction fuel as [|fuel IH]; intros p Hp Hd Ha; [lia|]. cbn [chain_up].
    destruct (decide (p ∈ pn)) as [Hin|Hin].
    { exists [], p. split; [done|]. split; [done|]. split; [done|]. split; [by intros [] a b Ha' Hb|].
      split; [apply NoDup_singleton|]. intros x ->%elem_of_list_singleton. done. }
    inversion Ha as [|? p' ? [Hl Hr] Ha']; subst; [done|]. rewrite Hl.
    destruct (t_up _ _ _ T p p' Hl Hr) as [H1 H2].
    destruct (decide (p' = root)) as [->|Hne].
    - apply anc_root in Ha'; [|apply T]. subst u. exists [p], root. split; [done|]. split; [done|]. split; [done|]. split; [|split].
      + apply linked_cons. split; [by intros y [= <-]|by intros [] a b Hx Hb].
      + constructor; [|apply NoDup_singleton]. intros ->%elem_of_list_singleton. done.
      + intros x. cbn. rewrite elem_of_cons, elem_of_list_singleton. intros [Hx|Hx]; subst x.
        * split; [done|]. split; [done|lia].
        * split; [done|]. split; [by apply rtc_once|lia].
    - destruct (IH p' H1) as (l & q & E & Hq & Hhd & Hlk & Hnd & Hall); [lia|done|]. rewrite E. cbn [rbind fst snd].
      exists (p :: l), q. split; [done|]. split; [done|]. split; [done|]. split; [|split].
      + change ((p :: l) ++ [q]) with (p :: (l ++ [q])). apply linked_cons. split; [|done]. intros y Hy. rewrite Hhd in Hy. by injection Hy as <-.
      + cbn. constructor; [|done]. intros Hx%Hall. destruct Hx as (_ & _ & Hx). lia.
      + intros x [->|Hx]%elem_of_cons; [split; [done|]; split; [done|lia]|].
        destruct (Hall x Hx) as (A1 & A2 & A3). split; [done|]. split; [|lia]. by eapply rtc_l.
  Qed.

  Lemma anc_insert look nbr z x y : look !! nbr = None -> anc look x y -> anc (<[nbr := z]> look) x y.
  Proof.
    intros Hn. apply rtc_subrel. intros a b [H1 H2]. split; [|done]. rewrite lookup_insert_ne; [done|congruence].
  Qed.

  (** [x] has been related to its neighbor [y]. *)
  Definition met (st : bstate) (x y : node) : Prop :=
    is_Some (bs_look st !! y) /\
    ((exists py, bs_expl st !! y = Some py /\ x ∈ py) \/ (exists px, bs_expl st !! x = Some px /\ y ∈ px)).
  Definition P0 : list node -> Prop := closed (open_edge w0).

  (** Why saddle [b] was flagged: it is lowest on a closed chain, and among the
      lowest it was taken last. *)
  Definition last_lowest (dn : list node) (b : nat) : Prop :=
    exists c, P0 c /\ Sad b ∈ c /\ forall y, y ∈ c -> y <> Sad b ->
      ele_at w0 (Sad b) < ele_at w0 y \/ (ele_at w0 (Sad b) = ele_at w0 y /\ before dn y (Sad b)).
  Definition ordered (dn : list node) (w : world) : Prop :=
    exists B A, marked [] B A w0 w /\ forall b, b ∈ B -> last_lowest dn b.
  Lemma ordered_app dn k w : ordered dn w -> ordered (dn ++ k) w.
  Proof.
    intros (B & A & M & H). exists B, A. split; [done|]. intros b Hb. destruct (H b Hb) as (c & Hc & Hbc & Hy).
    exists c. split; [done|]. split; [done|]. intros y Hyc Hne. destruct (Hy y Hyc Hne) as [|[? ?]]; [by left|].
    right. split; [done|]. by apply before_app.
  Qed.

  Record pinv (dn : list node) (st : bstate) : Prop := {
    p_tree : forall n p, bs_look st !! n = Some p -> n <> root ->
      p ∈ dn /\ edge w0 p n /\ exists pn, bs_expl st !! n = Some pn /\ p ∈ pn;
    p_expl : forall n pn x, bs_expl st !! n = Some pn -> x ∈ pn -> x ∈ dn /\ edge w0 x n;
    p_plain : bs_cyc st = [] -> forall n pn x, bs_expl st !! n = Some pn -> x ∈ pn ->
      n <> root /\ bs_look st !! n = Some x;
    p_sorted : forall i j si sj pi pj, (i < j)%nat -> bs_stack st !! i = Some si -> bs_stack st !! j = Some sj ->
      bs_look st !! si = Some pi -> bs_look st !! sj = Some pj -> anc (bs_look st) pi pj;
    p_before : forall n p, bs_look st !! n = Some p -> n <> root -> before dn p n;
    p_ord : ordered dn (bs_world st)
  }.
  Record iinv (dn : list node) (st : bstate) : Prop := {
    i_s : sinv m P0 w0 root feats0 dn st;
    i_p : pinv dn st;
    i_done : forall x y, x ∈ dn -> edge w0 x y -> dead (bs_world st) x = false -> dead (bs_world st) y = false ->
      met st x y;
    i_root : dn !! 0%nat = Some root \/ dn = [] /\ bs_stack st = [root] }.
  Record vinv (dn : list node) (z : node) (pre : list node) (st : bstate) : Prop := {
    v_s : sinv m P0 w0 root feats0 (dn ++ [z]) st;
    v_p : pinv (dn ++ [z]) st;
    v_done : forall x y, x ∈ dn -> edge w0 x y -> dead (bs_world st) x = false -> dead (bs_world st) y = false ->
      met st x y;
    v_cur : forall y, y ∈ pre -> dead (bs_world st) y = false -> met st z y;
    v_root : (dn ++ [z]) !! 0%nat = Some root;
    v_anc : forall s, s ∈ bs_stack st -> exists p, bs_look st !! s = Some p /\ anc (bs_look st) z p;
    v_child : forall n, bs_look st !! n = Some z -> n <> root -> n ∈ pre;
    v_seen : forall x, x ∈ dn -> dead (bs_world st) x = false -> edge w0 x z ->
      exists pz, bs_expl st !! z = Some pz /\ x ∈ pz }.

  Lemma sinv_open dn st n : sinv m P0 w0 root feats0 dn st -> is_Some (bs_look st !! n) -> open_ w0 n.
  Proof. intros I H. apply open_dead. by apply (si_open _ _ _ _ _ _ _ I). Qed.
  Lemma dn_look dn st n : sinv m P0 w0 root feats0 dn st -> n ∈ dn -> is_Some (bs_look st !! n).
  Proof. intros I H. apply (si_seen _ _ _ _ _ _ _ I), elem_of_app. by left. Qed.
  Lemma stack_look dn st n : sinv m P0 w0 root feats0 dn st -> n ∈ bs_stack st -> is_Some (bs_look st !! n).
  Proof. intros I H. apply (si_seen _ _ _ _ _ _ _ I), elem_of_app. by right. Qed.
  Lemma sinv_disj dn st n : sinv m P0 w0 root feats0 dn st -> n ∈ dn -> n ∈ bs_stack st -> False.
  Proof. intros I H1 H2. pose proof (si_nodup _ _ _ _ _ _ _ I) as H. apply NoDup_app in H as (_ & H & _). by apply (H n). Qed.
  Lemma sinv_world dn st : sinv m P0 w0 root feats0 dn st -> exists B A, marked [] B A w0 (bs_world st).
  Proof. intros I. destruct (si_mark _ _ _ _ _ _ _ I) as (B & A & M & _). by exists B, A. Qed.
  Lemma alive_open dn st n : sinv m P0 w0 root feats0 dn st -> dead (bs_world st) n = false -> open_ w0 n.
  Proof. intros I H. destruct (sinv_world _ _ I) as (B & A & M). apply (marked_open _ _ _ _ _ _ M). by apply open_dead. Qed.

  Lemma pinv_dn dn k st : pinv dn st -> pinv (dn ++ k) st.
  Proof.
    assert (forall x, x ∈ dn -> x ∈ dn ++ k) as H by (intros x Hx; apply elem_of_app; by left).
    intros [P1 P2 P3 P4 P5 P6]. split; try done.
    - intros n p Hn Hr. destruct (P1 n p Hn Hr) as (A1 & A2 & A3). split; [by apply H|]. done.
    - intros n pn x Hn Hx. destruct (P2 n pn x Hn Hx) as (A1 & A2). split; [by apply H|]. done.
    - intros n p Hn Hr. by apply before_app, P5.
    - by apply ordered_app.
  Qed.

  Lemma iinv_init : iinv [] (search_init w0 feats0 root).
  Proof.
    split.
    - apply sinv_init. by apply open_dead.
    - unfold search_init. split; cbn.
      + intros n p [<- _]%lookup_singleton_Some. done.
      + intros n pn x [<- <-]%lookup_singleton_Some Hx. by apply elem_of_nil in Hx.
      + intros _ n pn x [<- <-]%lookup_singleton_Some Hx. by apply elem_of_nil in Hx.
      + intros i j si sj pi pj Hij Hi Hj _ _. destruct j as [|[|j]]; [lia|done|done].
      + intros n p [<- _]%lookup_singleton_Some. done.
      + exists [], []. split; [apply marked_refl|]. intros b Hb. by apply elem_of_nil in Hb.
    - intros x y Hx. by apply elem_of_nil in Hx.
    - right. done.
  Qed.

  Lemma iinv_dead dn st z stack : iinv dn st -> bs_stack st = z :: stack -> dead (bs_world st) z = true ->
    iinv (dn ++ [z]) (with_feats (with_stack st stack) (pop_feat z (bs_feats st))).
  Proof.
    intros [I1 I2 I3 I4] Es Hd. split.
    - by apply sinv_dead.
    - apply pinv_dn. destruct I2 as [P1 P2 P3 P4 P5 P6]. split; cbn; try done.
      intros i j si sj pi pj Hij Hi Hj. apply (P4 (S i) (S j)); [lia|by rewrite Es|by rewrite Es].
    - intros x y Hx. cbn [with_feats with_stack bs_world]. intros He Hx' Hy'.
      apply elem_of_app in Hx as [Hx|Hx%elem_of_list_singleton]; [|subst; congruence].
      destruct (I3 x y Hx He Hx' Hy'). by split.
    - left. destruct I4 as [H|[-> H]]; [by apply lookup_app_l_Some|]. rewrite H in Es. by injection Es as -> _.
  Qed.

  Lemma iinv_pop dn st z stack : iinv dn st -> bs_stack st = z :: stack -> dead (bs_world st) z = false ->
    vinv dn z [] (with_stack st stack).
  Proof.
    intros [I1 I2 I3 I4] Es Hd.
    assert (z ∉ dn) as Hz. { intros Hz. apply (sinv_disj _ _ z I1 Hz). rewrite Es. by left. }
    split; cbn [with_stack bs_world bs_feats bs_stack bs_look bs_expl bs_cyc].
    - by eapply sinv_take.
    - apply pinv_dn. destruct I2 as [P1 P2 P3 P4 P5 P6]. split; cbn; try done.
      intros i j si sj pi pj Hij Hi Hj. apply (P4 (S i) (S j)); [lia|by rewrite Es|by rewrite Es].
    - intros x y Hx He Hx' Hy'. destruct (I3 x y Hx He Hx' Hy'). by split.
    - intros y Hy. by apply elem_of_nil in Hy.
    - destruct I4 as [H|[-> H]]; [by apply lookup_app_l_Some|]. rewrite H in Es. by injection Es as -> _.
    - intros s Hs. apply elem_of_list_lookup in Hs as [j Hj].
      destruct (stack_look _ _ s I1) as [p Hp]. { rewrite Es. right. by eapply elem_of_list_lookup_2. }
      exists p. split; [done|]. destruct (stack_look _ _ z I1) as [pz Hpz]. { rewrite Es. by left. }
      destruct I4 as [Hr%elem_of_list_lookup_2|[_ H]].
      + eapply rtc_l; [split; [exact Hpz|congruence]|].
        apply (p_sorted _ _ I2 0%nat (S j) z s); [lia|by rewrite Es|by rewrite Es|done|done].
      + rewrite H in Es. injection Es as _ <-. done.
    - intros n Hn Hr. destruct (p_tree _ _ I2 n z Hn Hr) as [H _]. done.
    - intros x Hx Hx' He. destruct (I3 x z Hx He Hx' Hd) as [_ [H|(px & H1 & H2)]]; [done|].
      destruct (p_expl _ _ I2 _ _ _ H1 H2). done.
  Qed.

  Lemma vinv_done dn z st : vinv dn z (feature_neighbors w0 z) st -> iinv (dn ++ [z]) st.
  Proof.
    intros [V1 V2 V3 V4 V5 V6 V7 V8]. split; try done.
    - intros x y [Hx|Hx%elem_of_list_singleton]%elem_of_app He Hx' Hy'; [by apply V3|]. subst x.
      apply V4; [|done]. by apply neighbors_edge.
    - by left.
  Qed.

  (** A neighbor that is new. *)
  Lemma vinv_new dn z pre a st : vinv dn z pre st -> edge w0 z a -> bs_expl st !! a = None -> dead (bs_world st) a = false ->
    vinv dn z (pre ++ [a]) (BState (bs_world st) (bs_feats st) (a :: bs_stack st) (<[a := z]> (bs_look st))
      (<[a := [z]]> (bs_expl st)) (bs_cyc st)).
  Proof.
    intros [V1 V2 V3 V4 V5 V6 V7 V8] He Hn Hd.
    assert (z ∈ dn ++ [z]) as Hz by (apply elem_of_app; right; by left).
    pose proof (dn_look _ _ z V1 Hz) as Hlz.
    assert (bs_look st !! a = None) as Hla.
    { apply eq_None_not_Some. rewrite <-(si_expl _ _ _ _ _ _ _ V1), Hn. by intros []. }
    assert (forall x p, bs_look st !! x = Some p -> x <> a) as Hne by congruence.
    assert (forall x p, bs_expl st !! x = Some p -> x <> a) as Hne' by congruence.
    assert (forall x y, met st x y -> met (BState (bs_world st) (bs_feats st) (a :: bs_stack st) (<[a := z]> (bs_look st))
      (<[a := [z]]> (bs_expl st)) (bs_cyc st)) x y) as Hmet.
    { intros x y [H1 H2]. split; cbn.
      - apply lookup_insert_is_Some. destruct (decide (a = y)); tauto.
      - destruct H2 as [(py & H2 & H3)|(px & H2 & H3)]; [left; exists py|right; exists px];
          (rewrite lookup_insert_ne; [done|]; intros <-; congruence). }
    split; cbn [bs_world bs_feats bs_stack bs_look bs_expl bs_cyc].
    - by apply sinv_new.
    - destruct V2 as [P1 P2 P3 P4 P5 P6]. split; cbn [bs_world bs_feats bs_stack bs_look bs_expl bs_cyc].
      + intros n p [[<- <-]|[Hna Hp]]%lookup_insert_Some Hr.
        * split; [done|]. split; [done|]. exists [z]. rewrite lookup_insert. split; [done|by left].
        * rewrite lookup_insert_ne by done. by apply P1.
      + intros n pn x [[<- <-]|[Hna Hp]]%lookup_insert_Some Hx; [|by eapply P2].
        apply elem_of_list_singleton in Hx as ->. done.
      + intros Hc n pn x [[<- <-]|[Hna Hp]]%lookup_insert_Some Hx.
        * apply elem_of_list_singleton in Hx as ->. rewrite lookup_insert. split; [|done].
          destruct (dn_look _ _ root V1 (elem_of_list_lookup_2 _ _ _ V5)) as [r Hr]. congruence.
        * rewrite lookup_insert_ne by done. by eapply P3.
      + intros i j si sj pi pj Hij Hi Hj Hpi Hpj. destruct j as [|j]; [lia|]. cbn in Hj.
        assert (sj ∈ bs_stack st) as Hsj by by eapply elem_of_list_lookup_2.
        destruct (V6 sj Hsj) as (p & Hp & Ha). rewrite lookup_insert_ne in Hpj by (intros <-; congruence).
        assert (pj = p) as -> by congruence.
        destruct i as [|i]; cbn in Hi.
        * injection Hi as <-. rewrite lookup_insert in Hpi. injection Hpi as <-. by apply anc_insert.
        * assert (si ∈ bs_stack st) as Hsi by by eapply elem_of_list_lookup_2.
          destruct (stack_look _ _ si V1 Hsi) as [p' Hp']. rewrite lookup_insert_ne in Hpi by (intros <-; congruence).
          apply anc_insert; [done|]. apply (P4 i j si sj); try done. lia.
      + intros n p [[<- <-]|[Hna Hp]]%lookup_insert_Some Hr; [|by apply P5]. apply before_new; [done|].
        intros Hin. apply (dn_look _ _ _ V1) in Hin as [? ?]. congruence.
      + done.
    - intros x y Hx He' Hx' Hy'. by apply Hmet, V3.
    - intros y [Hy|Hy%elem_of_list_singleton]%elem_of_app Hy'; [by apply Hmet, V4|]. subst y. split; cbn.
      + rewrite lookup_insert. by eexists.
      + left. exists [z]. rewrite lookup_insert. split; [done|by left].
    - done.
    - intros s [->|Hs]%elem_of_cons.
      + exists z. rewrite lookup_insert. done.
      + destruct (V6 s Hs) as (p & Hp & Ha). exists p. split; [|by apply anc_insert].
        rewrite lookup_insert_ne; [done|congruence].
    - intros n [[<- _]|[Hna Hp]]%lookup_insert_Some Hr; apply elem_of_app; [right; by left|left; by apply V7].
    - intros x Hx Hx' Hex. destruct (V8 x Hx Hx' Hex) as (pz & Hpz & Hin). exists pz. split; [|done].
      rewrite lookup_insert_ne; [done|]. by apply not_eq_sym, (Hne' z pz).
  Qed.

  (** A neighbor that closes a cycle. *)
  Lemma cycle_closed dn z pre a post st pn p d : vinv dn z pre st -> feature_neighbors w0 z = pre ++ a :: post ->
    dead (bs_world st) a = false -> bs_expl st !! a = Some pn ->
    a ∉ default [] (bs_expl st !! z) -> bs_look st !! z = Some p -> tree root (bs_look st) d ->
    exists l q, chain_up (S (size (bs_look st))) root (bs_look st) pn p = Ok (l, q) /\
      P0 (a :: z :: l ++ [q]) /\ (forall x, x ∈ l ++ [q] -> is_Some (bs_look st !! x)) /\
      (forall l1 x l2 y, a :: z :: l ++ [q] = l1 ++ x :: l2 -> y ∈ l2 -> before (dn ++ [z]) y x).
  Proof.
    intros V Enb Hda Hea Hnot Hlz T. pose proof V as V'. destruct V' as [V1 V2 V3 V4 V5 V6 V7 V8].
    assert (z ∈ dn ++ [z]) as Hz by (apply elem_of_app; right; by left).
    assert (edge w0 z a) as Ha. { apply neighbors_edge. rewrite Enb. set_solver. }
    assert (open_ w0 z) as Hoz by by eapply sinv_open, dn_look.
    assert (open_ w0 a) as Hoa by by eapply alive_open.
    pose proof (sg_sym _ G z a Hoz Hoa Ha) as Ha'.
    assert (is_Some (bs_look st !! a)) as Hla. { apply (si_expl _ _ _ _ _ _ _ V1). by rewrite Hea. }
    assert (a ∈ bs_stack st) as Hst.
    { apply (si_seen _ _ _ _ _ _ _ V1) in Hla. rewrite !elem_of_app in Hla. destruct Hla as [[Hin|Hin]|Hin]; [| |done].
      - exfalso. apply Hnot. destruct (V8 a Hin Hda Ha') as (pz & -> & H). done.
      - apply elem_of_list_singleton in Hin as ->. exfalso. by destruct z. }
    apply elem_of_list_lookup_2 in V5. destruct (V6 a Hst) as (u & Hu & Hanc).
    assert (a <> root) as Har. { intros ->. by apply (sinv_disj _ _ root V1). }
    destruct (p_tree _ _ V2 a u Hu Har) as (Hu1 & Hu2 & pn' & Hu3 & Hu4).
    assert (pn' = pn) as -> by congruence.
    assert (u <> z) as Huz. { intros ->. apply (nbrs_once z pre a post); try done. by apply V7. }
    inversion Hanc as [|? p' ? [Hlz' Hzr] Hanc']; [congruence|]. subst. assert (p' = p) as -> by congruence.
    destruct (t_up _ _ _ T z p Hlz Hzr) as [Hp Hdp].
    destruct (chain_up_anc _ d pn u T Hu4 (S (size (bs_look st))) p Hp) as (l & q & Hc & Hq & Hhd & Hlk & Hnd & Hall).
    { specialize (t_sz _ _ _ T p Hp). lia. } { done. }
    exists l, q. split; [done|].
    assert (forall x, x ∈ l ++ [q] -> x ∈ dn ++ [z]) as Hdn.
    { intros x Hx. destruct (Hall x Hx) as (_ & Hax & _).
      assert (forall y, anc (bs_look st) p y -> y ∈ dn ++ [z]) as HH; [|by apply HH].
      apply rtc_ind_r; [by apply (p_tree _ _ V2 z p Hlz Hzr)|]. intros y y' _ [H1 H2] _.
      by apply (p_tree _ _ V2 y y' H1 H2). }
    split; [|split; [intros x Hx; by apply Hall|]].
    2:{ apply before_linked. apply linked_cons. split.
        - intros y [= <-]. apply before_new; [done|]. intros Hin. by apply (sinv_disj _ _ a V1).
        - assert (forall x y, up (bs_look st) x y -> before (dn ++ [z]) y x) as Hb.
          { intros x y [H1 H2]. by apply (p_before _ _ V2). }
          apply linked_cons. split; [|intros i x y Hx Hy; by apply Hb, (Hlk i)].
          intros y Hy. rewrite Hhd in Hy. injection Hy as <-. by apply Hb. }
    split; [cbn; rewrite app_length; cbn; lia|]. split.
    - constructor.
      + intros [->|Hin%Hdn]%elem_of_cons; [by destruct z|]. by apply (sinv_disj _ _ a V1).
      + constructor; [|done]. intros Hin. destruct (Hall z Hin) as (_ & _ & H). lia.
    - assert (forall x y, edge w0 x y -> open_ w0 x -> open_ w0 y -> open_edge w0 x y) as Hoe by done.
      assert (forall x y, bs_look st !! x = Some y -> x <> root -> open_edge w0 x y) as Hup.
      { intros x y Hx Hxr. destruct (p_tree _ _ V2 x y Hx Hxr) as (H1 & H2 & _).
        assert (open_ w0 x) by (eapply sinv_open; [done|by eexists]).
        assert (open_ w0 y) by by eapply sinv_open, dn_look.
        apply Hoe; [|done|done]. by apply (sg_sym _ G). }
      change ((a :: z :: l ++ [q]) ++ take 1 (a :: z :: l ++ [q])) with (a :: z :: (l ++ [q]) ++ [a]).
      apply linked_cons. split; [intros y [= <-]; by apply Hoe|].
      apply linked_cons. split.
      + intros y Hy. apply Hup; [|done]. rewrite lookup_app_l in Hy; [|rewrite app_length; cbn; lia].
        rewrite Hhd in Hy. congruence.
      + apply linked_snoc.
        * intros i x y Hx Hy. destruct (Hlk i x y Hx Hy) as [H1 H2]. by apply Hup.
        * apply Hoe; [|by eapply sinv_open, Hall; [done|set_solver]|done].
          by apply (p_expl _ _ V2 a pn q Hea Hq).
  Qed.

  Lemma vinv_cycle dn z pre a st pn l q w' : vinv dn z pre st -> edge w0 z a ->
    bs_expl st !! a = Some pn ->
    (forall l1 x l2 y, a :: z :: l ++ [q] = l1 ++ x :: l2 -> y ∈ l2 -> before (dn ++ [z]) y x) ->
    P0 (a :: z :: l ++ [q]) -> (forall x, x ∈ l ++ [q] -> is_Some (bs_look st !! x)) ->
    disqualify_and_label m (bs_world st) (find_lowest (bs_world st) (a :: z :: l ++ [q])) = Ok w' ->
    vinv dn z (pre ++ [a]) (BState w' (bs_feats st) (bs_stack st) (bs_look st) (<[a := z :: pn]> (bs_expl st))
                  (a :: z :: l)).
  Proof.
    intros [V1 V2 V3 V4 V5 V6 V7 V8] He Hea Hord HP Hlq Hw.
    assert (z ∈ dn ++ [z]) as Hz by (apply elem_of_app; right; by left).
    set (st' := BState w' (bs_feats st) (bs_stack st) (bs_look st) (<[a := z :: pn]> (bs_expl st)) (a :: z :: l)).
    destruct (label_spec _ _ _ _ Hw) as (i & ids & Elow & M' & _).
    { intros i Hi. apply find_lowest_spec in Hi; [|done].
      assert (is_Some (bs_look st !! Sad i)) as Hs.
      { apply elem_of_cons in Hi as [<-|[<-|Hi]%elem_of_cons].
        - apply (si_expl _ _ _ _ _ _ _ V1). by rewrite Hea.
        - by eapply dn_look.
        - by apply Hlq. }
      apply (si_open _ _ _ _ _ _ _ V1) in Hs. destruct (sinv_world _ _ V1) as (B & A & M).
      cbn in Hs. destruct (w_saddles w0 !! i) as [s|] eqn:E; [|done].
      destruct (mk_saddle _ _ _ _ _ M _ _ E) as (b & Hb & _). by eexists. }
    assert (forall n, dead w' n = false -> dead (bs_world st) n = false) as Hmono.
    { intros n Hn. destruct (dead (bs_world st) n) eqn:E; [|done]. by rewrite (marked_dead _ _ _ _ _ _ M' E) in Hn. }
    assert (ordered (dn ++ [z]) w') as Hord'.
    { destruct (p_ord _ _ V2) as (B & A & M & HB). eexists _, _.
      split; [exact (marked_trans _ _ _ _ _ _ _ _ _ M M')|]. cbn [app].
      intros b [Hb|Hb%elem_of_list_singleton]%elem_of_app; [by apply HB|]. subst b.
      destruct (find_lowest_first (bs_world st) a (z :: l ++ [q])) as (h & t & l1 & l2 & E1 & E2 & Hl1).
      rewrite E1 in Elow. cbn in Elow. injection Elow as -> _.
      exists (a :: z :: l ++ [q]). split; [done|]. split; [rewrite E2; apply elem_of_app; right; by left|].
      intros y Hy Hne. rewrite E2 in Hy. rewrite <-!ele_node, <-!(marked_ele _ _ _ _ _ _ M).
      apply elem_of_app in Hy as [Hy|[Hy|Hy]%elem_of_cons]; [left; by apply Hl1|done|].
      destruct (find_lowest_spec (bs_world st) (a :: z :: l ++ [q]) ltac:(done)) as (_ & L2 & L3 & _).
      assert (Sad i ∈ find_lowest (bs_world st) (a :: z :: l ++ [q])) as Hi by (rewrite E1; by left).
      assert (y ∈ a :: z :: l ++ [q]) as Hyc. { rewrite E2. apply elem_of_app. right. by right. }
      pose proof (proj2 (L3 _ (L2 _ Hi)) Hi y Hyc) as Hle.
      destruct (decide (node_ele (bs_world st) (Sad i) = node_ele (bs_world st) y)) as [E|]; [|left; lia].
      right. split; [done|]. by eapply Hord. }
    assert (forall n x, (exists py, bs_expl st !! n = Some py /\ x ∈ py) ->
      exists py, <[a := z :: pn]> (bs_expl st) !! n = Some py /\ x ∈ py) as Hgrow.
    { intros n x (py & H1 & H2). destruct (decide (n = a)) as [->|Hna].
      - rewrite lookup_insert. exists (z :: pn). split; [done|]. right. congruence.
      - rewrite lookup_insert_ne by done. by exists py. }
    assert (forall x y, met st x y -> met st' x y) as Hmet.
    { intros x y [H1 H2]. split; [done|]. destruct H2; [left|right]; by apply Hgrow. }
    assert (sinv m P0 w0 root feats0 (dn ++ [z]) st') as S'.
    { eapply sinv_cycle; try done. by eapply dn_look. }
    split; cbn [st' bs_world bs_feats bs_stack bs_look bs_expl bs_cyc].
    - done.
    - destruct V2 as [P1 P2 P3 P4 P5 P6]. split; cbn [st' bs_world bs_feats bs_stack bs_look bs_expl bs_cyc]; try done.
      + intros n p Hn Hr. destruct (P1 n p Hn Hr) as (A1 & A2 & A3). split; [done|]. split; [done|]. by apply Hgrow.
      + intros n pn' x [[<- <-]|[Hna Hp]]%lookup_insert_Some Hx; [|by eapply P2].
        apply elem_of_cons in Hx as [->|Hx]; [done|by eapply P2].
    - intros x y Hx He' Hx' Hy'. apply Hmet, V3; auto.
    - intros y [Hy|Hy%elem_of_list_singleton]%elem_of_app Hy'; [by apply Hmet, V4; auto|]. subst y. split; cbn.
      + apply (si_expl _ _ _ _ _ _ _ V1). by rewrite Hea.
      + left. exists (z :: pn). rewrite lookup_insert. split; [done|by left].
    - done.
    - done.
    - intros n Hn Hr. apply elem_of_app. left. by apply V7.
    - intros x Hx Hx' Hex. apply Hgrow, V8; auto.
  Qed.

  Lemma vinv_pre dn z pre a st : vinv dn z pre st -> (dead (bs_world st) a = false -> met st z a) ->
    vinv dn z (pre ++ [a]) st.
  Proof.
    intros [V1 V2 V3 V4 V5 V6 V7 V8] H. split; try done.
    - intros y [Hy|Hy%elem_of_list_singleton]%elem_of_app Hy'; [by apply V4|]. subst. by apply H.
    - intros n Hn Hr. apply elem_of_app. left. by apply V7.
  Qed.

  Lemma node_same_ele w n n' : node_same m w n n' = true -> node_ele w n = node_ele w n'.
  Proof.
    unfold node_same, node_ele. destruct (node_feat w n), (node_feat w n'); try done. cbn.
    unfold spot_eq. rewrite !andb_true_iff, Z.eqb_eq. by intros [_ H].
  Qed.
  Lemma edge_ele n n' : open_edge w0 n n' -> ele_at w0 n <> ele_at w0 n' /\
    (forall i a, n = Sad i -> n' = Sum a -> ele_at w0 n < ele_at w0 n') /\
    (forall i a, n = Sum a -> n' = Sad i -> ele_at w0 n' < ele_at w0 n).
  Proof.
    intros (H1 & H2 & H3). destruct n as [i|a], n' as [j|b]; try done.
    - pose proof (sg_up _ G i b H1 H2 H3). split; [lia|]. split; [by intros ? ? [= <-] [= <-]|done].
    - pose proof (sg_sym _ G _ _ H1 H2 H3) as H4. pose proof (sg_up _ G j a H2 H1 H4). split; [lia|].
      split; [done|by intros ? ? [= <-] [= <-]].
  Qed.

  Lemma visit_inv dn z pre a post st : vinv dn z pre st -> feature_neighbors w0 z = pre ++ a :: post ->
    match visit m root z a st with Ok st' => vinv dn z (pre ++ [a]) st' | Err e => False end.
  Proof.
    intros V Enb. pose proof (v_s _ _ _ _ V) as V1.
    assert (edge w0 z a) as He. { apply neighbors_edge. rewrite Enb. set_solver. }
    assert (is_Some (bs_look st !! z)) as Hlz. { eapply dn_look; [done|]. apply elem_of_app. right. by left. }
    unfold visit. destruct (dead (bs_world st) a) eqn:Ed.
    { apply vinv_pre; [|cbn [bs_world]; congruence]. destruct V as [_ V2 V3 V4 V5 V6 V7 V8].
      split; try done; [by apply sinv_pop|by destruct V2]. }
    assert (open_ w0 z) as Hoz by by eapply sinv_open.
    assert (open_ w0 a) as Hoa by by eapply alive_open.
    destruct (bs_expl st !! a) as [pn|] eqn:Ee; [|by apply vinv_new].
    destruct (node_same m (bs_world st) a z) eqn:Es.
    { exfalso. apply node_same_ele in Es. destruct (sinv_world _ _ V1) as (B & A & M).
      rewrite !(marked_ele _ _ _ _ _ _ M), !ele_node in Es. by apply (edge_ele z a). }
    destruct (decide (a ∈ default [] (bs_expl st !! z))) as [Hin|Hin].
    { apply vinv_pre; [done|]. intros _. split.
      - apply (si_expl _ _ _ _ _ _ _ V1). by rewrite Ee.
      - right. destruct (bs_expl st !! z) as [pz|]; [|by apply elem_of_nil in Hin]. by exists pz. }
    destruct (bs_look st !! z) as [p|] eqn:El; [|by destruct Hlz].
    destruct (si_tree _ _ _ _ _ _ _ V1) as [d T].
    destruct (cycle_closed dn z pre a post st pn p d V Enb Ed Ee Hin El T) as (l & q & Hc & HP & Hlq & Hord).
    rewrite Hc. cbn [rbind fst snd].
    destruct (disqualify_and_label m (bs_world st) _) as [w'|e] eqn:Ew; cbn [rbind].
    - by eapply vinv_cycle.
    - set (c := a :: z :: l ++ [q]) in *.
      destruct (find_lowest_spec (bs_world st) c ltac:(done)) as (L1 & L2 & L3 & _).
      apply label_err in Ew as [_ [b Hb]]; [|done]. pose proof (L2 _ Hb) as Hbc.
      assert (forall y, y ∈ c -> ele_at w0 (Sum b) <= ele_at w0 y) as Hmin.
      { intros y Hy. destruct (sinv_world _ _ V1) as (B & A & M).
        rewrite <-!ele_node, <-!(marked_ele _ _ _ _ _ _ M). by apply (proj2 (L3 _ Hbc)). }
      destruct HP as (Hlen & _ & Hlk). apply elem_of_list_lookup in Hbc as [i Hi].
      assert (exists y, (c ++ take 1 c) !! S i = Some y) as [y Hy].
      { apply lookup_lt_is_Some_2. rewrite app_length. apply lookup_lt_Some in Hi. cbn [take length c]. unfold c in *. cbn in *. lia. }
      assert (open_edge w0 (Sum b) y) as Hby.
      { apply (Hlk i); [|done]. rewrite lookup_app_l; [done|]. by eapply lookup_lt_Some. }
      assert (y ∈ c) as Hyc.
      { apply elem_of_list_lookup_2, elem_of_app in Hy as [Hy|Hy]; [done|]. unfold c in *. cbn in Hy. set_solver. }
      specialize (Hmin y Hyc). destruct (edge_ele _ _ Hby) as (_ & _ & H).
      destruct y as [j|b']; [|by destruct Hby as (_ & _ & ?)]. specialize (H j b eq_refl eq_refl). lia.
  Qed.

  Lemma search_cycles :
    match search m (search_fuel w0) root (search_init w0 feats0 root) with
    | Ok st => bs_stack st = [] /\ exists dn, iinv dn st
    | Err e => False
    end.
  Proof.
    apply (search_inv m w0 root (length (w_saddles w0) + length (w_summits w0)) iinv vinv (fun e => False)) with (dn := []).
    - intros dn st I. by eapply sinv_len, i_s.
    - intros dn st z I. by eapply sinv_nbrs, i_s.
    - intros dn st z stack. apply iinv_dead.
    - intros dn st z stack. apply iinv_pop.
    - intros dn z pre a post st. apply visit_inv.
    - intros dn z st. apply vinv_done.
    - apply iinv_init.
    - unfold search_fuel. cbn. lia.
  Qed.
End cycle.
