(** One search for cycles, in any graph. *)
From Verif Require Import Base_model Graph_model Basin_model Graph_spec Basin_spec Graph_proof Basin_proof.
Local Open Scope Z_scope.

(** ** Lowest members *)
Definition low_step (w : world) (lowest : list node) (n : node) : list node :=
  match lowest with
  | [] => lowest
  | h :: _ =>
      if (node_ele w n =? node_ele w h) && negb (bool_decide (n = h)) then lowest ++ [n]
      else if node_ele w n <? node_ele w h then [n]
      else lowest
  end.

Lemma low_fold w cycle : forall lowest pre, lowest <> [] ->
  (forall x, x ∈ lowest -> x ∈ pre) ->
  (forall x y, x ∈ lowest -> y ∈ pre -> node_ele w x <= node_ele w y) ->
  let r := foldl (low_step w) lowest cycle in
  r <> [] /\ (forall x, x ∈ r -> x ∈ pre ++ cycle) /\
  (forall x y, x ∈ r -> y ∈ pre ++ cycle -> node_ele w x <= node_ele w y) /\
  (forall x, (x ∈ lowest \/ x ∈ cycle) -> (forall y, y ∈ pre ++ cycle -> node_ele w x <= node_ele w y) -> x ∈ r) /\
  (NoDup lowest -> NoDup (pre ++ cycle) -> NoDup r).
Proof.
  induction cycle as [|n cycle IH]; intros lowest pre Hne Hin Hle; cbn.
  - rewrite app_nil_r. split_and!; try done. intros x [H|H%elem_of_nil]; done.
  - destruct lowest as [|h lo] eqn:El; [done|]. cbn [low_step].
    assert (h ∈ h :: lo) as Hh by left.
    assert (pre ++ n :: cycle = (pre ++ [n]) ++ cycle) as -> by by rewrite <-app_assoc.
    destruct (Z.eqb_spec (node_ele w n) (node_ele w h)) as [E|E]; cbn [andb];
      [destruct (bool_decide_reflect (n = h)) as [E'|E']; cbn [negb]|].
    + subst n. rewrite Z.ltb_irrefl.
      destruct (IH (h :: lo) (pre ++ [h])) as (H1 & H2 & H3 & H4 & H5).
      { done. } { intros x Hx. apply elem_of_app. left. by apply Hin. }
      { intros x y Hx [Hy|Hy%elem_of_list_singleton]%elem_of_app; [by apply Hle|]. subst y.
        apply Hle; [done|by apply Hin]. }
      split_and!; try done.
      intros x Hx Hy. apply H4; [|done]. destruct Hx as [Hx|[->|Hx]%elem_of_cons]; [by left|by left|by right].
    + destruct (IH ((h :: lo) ++ [n]) (pre ++ [n])) as (H1 & H2 & H3 & H4 & H5).
      { done. } { intros x Hx. rewrite elem_of_app in *. destruct Hx as [Hx|Hx]; [left; by apply Hin|by right]. }
      { intros x y Hx Hy. assert (node_ele w x = node_ele w h) as ->.
        { apply elem_of_app in Hx as [Hx|Hx%elem_of_list_singleton]; [|by subst]. apply Z.le_antisymm; apply Hle; try done; by apply Hin. }
        apply elem_of_app in Hy as [Hy|Hy%elem_of_list_singleton]; [by apply Hle|]. subst. lia. }
      split_and!; try done.
      * intros x Hx Hy. apply H4; [|done]. rewrite elem_of_app, elem_of_list_singleton.
        destruct Hx as [Hx|[->|Hx]%elem_of_cons]; tauto.
      * intros Hnd Hnd'. apply H5; [|done]. apply NoDup_app. split; [done|]. split; [|apply NoDup_singleton].
        intros x Hx Hx'%elem_of_list_singleton. subst x. apply Hin in Hx.
        rewrite <-app_assoc in Hnd'. apply NoDup_app in Hnd' as (_ & Hd & _). apply (Hd _ Hx). by left.
    + destruct (Z.ltb_spec (node_ele w n) (node_ele w h)) as [E'|E'].
      * destruct (IH [n] (pre ++ [n])) as (H1 & H2 & H3 & H4 & H5).
        { done. } { intros x Hx%elem_of_list_singleton. subst. apply elem_of_app. right. by left. }
        { intros x y Hx%elem_of_list_singleton [Hy|Hy%elem_of_list_singleton]%elem_of_app; subst; [|lia].
          specialize (Hle h y Hh Hy). lia. }
        split_and!; try done.
        -- intros x Hx Hy. apply H4; [|done]. destruct Hx as [Hx|[->|Hx]%elem_of_cons]; [|left; by left|by right].
           exfalso. assert (node_ele w x <= node_ele w n) as H. { apply Hy. rewrite !elem_of_app. left. right. by left. }
           specialize (Hle h x Hh (Hin _ Hx)). lia.
        -- intros _ Hnd. apply H5; [apply NoDup_singleton|done].
      * destruct (IH (h :: lo) (pre ++ [n])) as (H1 & H2 & H3 & H4 & H5).
        { done. } { intros x Hx. apply elem_of_app. left. by apply Hin. }
        { intros x y Hx [Hy|Hy%elem_of_list_singleton]%elem_of_app; [by apply Hle|]. subst y.
          specialize (Hle x h Hx (Hin _ Hh)). lia. }
        split_and!; try done.
        intros x Hx Hy. apply H4; [|done]. destruct Hx as [Hx|[->|Hx]%elem_of_cons]; [by left| |by right].
        exfalso. assert (node_ele w n <= node_ele w h); [|lia]. apply Hy. rewrite !elem_of_app. left. left. by apply Hin.
Qed.

Lemma find_lowest_spec w cycle : cycle <> [] ->
  let r := find_lowest w cycle in
  r <> [] /\ (forall x, x ∈ r -> x ∈ cycle) /\
  (forall x, x ∈ cycle -> (forall y, y ∈ cycle -> node_ele w x <= node_ele w y) <-> x ∈ r) /\
  (NoDup cycle -> NoDup r).
Proof.
  destruct cycle as [|c cycle]; [done|]. intros _ r.
  assert (r = foldl (low_step w) [c] cycle) as ->.
  { unfold r, find_lowest. cbn [take foldl]. f_equal. rewrite Z.eqb_refl, bool_decide_true by done.
    cbn. by rewrite Z.ltb_irrefl. }
  destruct (low_fold w cycle [c] [c]) as (H1 & H2 & H3 & H4 & H5); [done|done| |].
  { intros x y ->%elem_of_list_singleton ->%elem_of_list_singleton. lia. }
  cbn [app] in *. split_and!; try done.
  - intros x Hx. split; [|intros Hr y; by apply H3]. intros Hy. apply H4; [|done].
    apply elem_of_cons in Hx as [->|Hx]; [left; by left|by right].
  - intros Hnd. apply H5; [apply NoDup_singleton|done].
Qed.

(** ** Labelling *)
Section search.
  Variable m : datamap.

  Lemma mapM_saddles lowest ids : mapM as_saddle lowest = Some ids -> lowest = map Sad ids.
  Proof.
    revert ids. induction lowest as [|n l IH]; cbn; intros ids H.
    - by injection H as <-.
    - destruct n as [i|a]; cbn in H; [|done]. destruct (mapM as_saddle l) as [ids'|] eqn:E; [|done].
      cbn in H. injection H as <-. cbn. by rewrite (IH ids').
  Qed.

  Lemma remove_first_perm w j l : j ∈ l -> exists x, saddle_same m w x j = true /\ x :: remove_first m w j l ≡ₚ l.
  Proof.
    induction l as [|y l IH]; [by intros H%elem_of_nil|]. cbn. intros Hj.
    destruct (saddle_same m w y j) eqn:E; [by exists y|].
    apply elem_of_cons in Hj as [->|Hj].
    - unfold saddle_same in E. by rewrite Nat.eqb_refl in E.
    - destruct (IH Hj) as (x & H1 & H2). exists x. split; [done|]. etrans; [apply perm_swap|]. by constructor.
  Qed.

  Lemma saddle_same_marked S B A w w' i j : marked S B A w w' -> saddle_same m w' i j = saddle_same m w i j.
  Proof.
    intros M. unfold saddle_same, saddle_spot. f_equal.
    pose proof (marked_feat _ _ _ _ _ (Sad i) M) as E1. pose proof (marked_feat _ _ _ _ _ (Sad j) M) as E2.
    cbn in E1, E2.
    destruct (w_saddles w' !! i) as [a|], (w_saddles w !! i) as [a'|]; cbn in *; try congruence; try done.
    destruct (w_saddles w' !! j) as [b|], (w_saddles w !! j) as [b'|]; cbn in *; try congruence; try done.
  Qed.
  Lemma remove_first_marked S B A w w' j l : marked S B A w w' -> remove_first m w' j l = remove_first m w j l.
  Proof. intros M. induction l as [|x l IH]; [done|]. cbn. by rewrite (saddle_same_marked _ _ _ _ _ _ _ M), IH. Qed.

  (** The alternatives that a labelling of [ids] leaves. *)
  Lemma label_alts ids all : forall w,
    let w' := foldl (fun w j => upd_saddle j (set_alts (remove_first m w j all)) w) w ids in
    marked [] [] ids w w' /\
    forall j s, j ∈ ids -> w_saddles w' !! j = Some s -> sa_alts s = remove_first m w j all.
  Proof.
    induction ids as [|i ids IH]; intros w; cbn.
    - split; [apply marked_refl|]. by intros j s H%elem_of_nil.
    - set (w1 := upd_saddle i _ w).
      assert (marked [] [] [i] w w1) as M1 by by apply mark_alts.
      destruct (IH w1) as [M2 H2]. split; [exact (marked_trans _ _ _ _ _ _ _ _ _ M1 M2)|].
      intros j s Hj Hs. destruct (decide (j ∈ ids)) as [Hin|Hin].
      + rewrite (H2 j s Hin Hs). by eapply remove_first_marked.
      + apply elem_of_cons in Hj as [->|Hj]; [|done].
        destruct (marked_back _ _ _ _ _ _ _ M2 Hs) as (a & Ha).
        destruct (mk_saddle _ _ _ _ _ M2 _ _ Ha) as (b & Hb & _ & _ & _ & _ & _ & _ & _ & E).
        assert (b = s) as -> by congruence. rewrite (E Hin).
        unfold w1 in Ha. rewrite upd_saddle_lookup, decide_True in Ha by done.
        destruct (w_saddles w !! i); [|done]. by injection Ha as <-.
  Qed.

  Lemma label_spec w lowest w' : disqualify_and_label m w lowest = Ok w' ->
    (forall i, Sad i ∈ lowest -> is_Some (w_saddles w !! i)) ->
    exists i ids, lowest = map Sad (i :: ids) /\
      marked [] [i] (if decide (ids = []) then [] else i :: ids) w w' /\
      (ids <> [] -> forall j s, j ∈ i :: ids -> w_saddles w' !! j = Some s ->
         exists x, saddle_same m w x j = true /\ x :: sa_alts s ≡ₚ i :: ids).
  Proof.
    unfold disqualify_and_label. destruct lowest as [|h lo] eqn:El; [done|]. rewrite <-El. clear El.
    destruct (mapM as_saddle lowest) as [ids|] eqn:E; [|done]. apply mapM_saddles in E as ->.
    destruct ids as [|i ids]; [done|]. intros H Hex. exists i, ids. split; [done|].
    destruct (Hex i) as [s Hs]; [cbn; by left|].
    pose proof (mark_one true false i w s Hs eq_refl) as M1. cbn in M1.
    set (w1 := disqualify_self_and_linkers true false i w) in *. clearbody w1.
    destruct ids as [|j ids].
    - cbn in H. injection H as <-. split; [done|]. done.
    - change (1 <? length (i :: j :: ids))%nat with true in H. cbv iota in H.
      destruct (label_alts (i :: j :: ids) (i :: j :: ids) w1) as [M2 H2]. injection H as <-.
      split; [exact (marked_trans _ _ _ _ _ _ _ _ _ M1 M2)|]. intros _ k s' Hk Hs'.
      rewrite (H2 k s' Hk Hs'). rewrite (remove_first_marked _ _ _ _ _ _ _ M1). by apply remove_first_perm.
  Qed.
  Lemma label_err w lowest e : disqualify_and_label m w lowest = Err e -> lowest <> [] ->
    e = AttributeError /\ exists a, Sum a ∈ lowest.
  Proof.
    unfold disqualify_and_label. destruct lowest as [|h lo] eqn:El; [done|]. rewrite <-El. 
    destruct (mapM as_saddle lowest) as [ids|] eqn:E.
    - apply mapM_saddles in E. destruct ids; [subst; done|]. by case_match.
    - intros [= <-] _. split; [done|]. clear El. induction lowest as [|n l IH]; [done|]. cbn in E.
      destruct n as [i|a]; cbn in E; [|exists a; by left]. destruct (mapM as_saddle l); [done|].
      destruct IH as [a Ha]; [done|]. exists a. by right.
  Qed.

  (** ** The invariant of a search *)
  Record tree (root : node) (look : gmap node node) (d : node -> nat) : Prop := {
    t_root : look !! root = Some root;
    t_up : forall n p, look !! n = Some p -> n <> root -> is_Some (look !! p) /\ (d p < d n)%nat;
    t_sz : forall n, is_Some (look !! n) -> (d n < size look)%nat }.

  Lemma linked_cons {A} (R : A -> A -> Prop) x l :
    linked R (x :: l) <-> (forall y, l !! 0%nat = Some y -> R x y) /\ linked R l.
  Proof.
    split.
    - intros H. split; [intros y Hy; by apply (H 0%nat)|]. intros i a b Ha Hb. by apply (H (S i)).
    - intros [H1 H2] [|i] a b Ha Hb; cbn in *; [injection Ha as <-; by apply H1|by apply (H2 i)].
  Qed.

  Lemma chain_up_ok root look d pn : tree root look d -> forall fuel p, is_Some (look !! p) -> (d p < fuel)%nat ->
    exists l q, chain_up fuel root look pn p = Ok (l, q) /\
      (forall x, x ∈ l ++ [q] -> is_Some (look !! x)).
  Proof.
    intros T. induction fuel as [|fuel IH]; intros p Hp Hd; [lia|]. cbn [chain_up].
    destruct (decide (p ∈ pn)).
    { exists [], p. split; [done|]. by intros x ->%elem_of_list_singleton. }
    destruct (look !! p) as [p'|] eqn:E; [|by destruct Hp].
    destruct (decide (p' = root)) as [->|Hne].
    { exists [p], root. split; [done|]. intros x. rewrite elem_of_app, !elem_of_list_singleton.
      intros [->|Hx]; [by eexists|]. subst. eexists. apply T. }
    assert (p <> root) as Hr. { intros ->. rewrite (t_root _ _ _ T) in E. congruence. }
    destruct (t_up _ _ _ T p p' E Hr) as [H1 H2]. destruct (IH p' H1) as (l & q & H3 & H4); [lia|].
    rewrite H3. cbn. exists (p :: l), q. split; [done|]. intros x [->|Hx]%elem_of_cons; [by eexists|by apply H4].
  Qed.

  (** [P] is a property of the cycles found; [w0] and [feats0] are the state and
      the features at the start; the nodes [dn] have been taken from the stack. *)
  Record sinv (P : list node -> Prop) (w0 : world) (root : node) (feats0 : list nat) (dn : list node)
      (st : bstate) : Prop := {
    si_mark : exists B A, marked [] B A w0 (bs_world st) /\
      (forall b, b ∈ B -> blamed P w0 b /\ is_Some (bs_look st !! Sad b)) /\
      (forall a, a ∈ A -> alternatives m P w0 (bs_world st) a /\ is_Some (bs_look st !! Sad a)) /\
      (bs_cyc st <> [] -> B <> []) /\ (bs_cyc st = [] -> bs_world st = w0 /\ B = []);
    si_tree : exists d, tree root (bs_look st) d;
    si_expl : forall n, is_Some (bs_expl st !! n) <-> is_Some (bs_look st !! n);
    si_open : forall n, is_Some (bs_look st !! n) -> dead w0 n = false;
    si_nodup : NoDup (dn ++ bs_stack st);
    si_seen : forall n, n ∈ dn ++ bs_stack st <-> is_Some (bs_look st !! n);
    si_feats : bs_feats st `sublist_of` feats0;
    si_gone : forall i, i ∈ feats0 -> i ∉ bs_feats st -> dead (bs_world st) (Sad i) = true }.

  Lemma pop_feat_sub n l : pop_feat n l `sublist_of` l.
  Proof. destruct n; [apply filter_sublist_of|done]. Qed.
  Lemma pop_feat_gone n l i : i ∈ l -> i ∉ pop_feat n l -> n = Sad i.
  Proof.
    destruct n as [j|a]; cbn; [|done]. intros Hi Hn. destruct (decide (i = j)) as [->|]; [done|].
    destruct Hn. by apply elem_of_list_filter.
  Qed.

  Lemma sinv_pop P w0 root feats0 dn st n : sinv P w0 root feats0 dn st -> dead (bs_world st) n = true ->
    sinv P w0 root feats0 dn (BState (bs_world st) (pop_feat n (bs_feats st)) (bs_stack st) (bs_look st)
      (bs_expl st) (bs_cyc st)).
  Proof.
    intros I Hd. destruct I as [I1 I2 I3 I4 I5 I6 I7 I8]. split; cbn [bs_world bs_feats bs_stack bs_look bs_expl bs_cyc]; try done.
    - etrans; [apply pop_feat_sub|done].
    - intros i Hi Hn. destruct (decide (i ∈ bs_feats st)) as [Hin|Hin]; [|by apply I8].
      rewrite <-(pop_feat_gone n (bs_feats st) i Hin Hn). done.
  Qed.

  Lemma sinv_new P w0 root feats0 dn st z nbr : sinv P w0 root feats0 dn st ->
    is_Some (bs_look st !! z) -> bs_expl st !! nbr = None -> dead (bs_world st) nbr = false ->
    sinv P w0 root feats0 dn (BState (bs_world st) (bs_feats st) (nbr :: bs_stack st) (<[nbr := z]> (bs_look st))
      (<[nbr := [z]]> (bs_expl st)) (bs_cyc st)).
  Proof.
    intros I Hz Hn Hd. destruct I as [I1 I2 I3 I4 I5 I6 I7 I8].
    assert (bs_look st !! nbr = None) as Hl.
    { apply eq_None_not_Some. rewrite <-I3, Hn. by intros []. }
    split; cbn [bs_world bs_feats bs_stack bs_look bs_expl bs_cyc]; try done.
    - destruct I1 as (B & A & M & HB & HA & HC). exists B, A. split; [done|]. split_and!.
      + intros b Hb. destruct (HB b Hb) as [H1 H2]. split; [done|]. apply lookup_insert_is_Some. destruct (decide (nbr = Sad b)); tauto.
      + intros a Ha. destruct (HA a Ha) as [H1 H2]. split; [done|]. apply lookup_insert_is_Some. destruct (decide (nbr = Sad a)); tauto.
      + apply HC.
      + apply HC.
    - destruct I2 as [d T]. exists (fun x => if decide (x = nbr) then size (bs_look st) else d x).
      assert (root <> nbr) as Hr. { intros ->. by rewrite (t_root _ _ _ T) in Hl. }
      split.
      + rewrite lookup_insert_ne by done. apply T.
      + intros n p. destruct (decide (n = nbr)) as [->|Hne].
        * rewrite lookup_insert. intros [= <-] _. destruct (decide (z = nbr)) as [->|Hzn]; [rewrite Hl in Hz; by destruct Hz|].
          rewrite lookup_insert_ne by done. split; [done|]. by apply (t_sz _ _ _ T).
        * rewrite lookup_insert_ne by done. intros Hp Hnr. destruct (t_up _ _ _ T n p Hp Hnr) as [H1 H2].
          destruct (decide (p = nbr)) as [->|]; [rewrite Hl in H1; by destruct H1|].
          by rewrite lookup_insert_ne.
      + intros n Hs. rewrite map_size_insert_None by done. destruct (decide (n = nbr)) as [->|Hne]; [lia|].
        rewrite lookup_insert_ne in Hs by done. specialize (t_sz _ _ _ T n Hs). lia.
    - intros n. rewrite !lookup_insert_is_Some, I3. done.
    - intros n [->|[Hne Hs]]%lookup_insert_is_Some; [|by apply I4].
      destruct I1 as (B & A & M & _). destruct (dead w0 n) eqn:E; [|done].
      by rewrite (marked_dead _ _ _ _ _ _ M E) in Hd.
    - rewrite <-Permutation_middle. constructor; [|done]. rewrite I6, Hl. by intros [].
    - intros n. rewrite <-Permutation_middle, elem_of_cons, I6, lookup_insert_is_Some.
      destruct (decide (n = nbr)) as [->|]; [naive_solver|]. naive_solver.
  Qed.

  Lemma sinv_cycle P w0 root feats0 dn st z nbr pn l q w' : sinv P w0 root feats0 dn st ->
    is_Some (bs_look st !! z) -> bs_expl st !! nbr = Some pn ->
    (forall x, x ∈ l ++ [q] -> is_Some (bs_look st !! x)) ->
    P (nbr :: z :: l ++ [q]) ->
    disqualify_and_label m (bs_world st) (find_lowest (bs_world st) (nbr :: z :: l ++ [q])) = Ok w' ->
    sinv P w0 root feats0 dn (BState w' (bs_feats st) (bs_stack st) (bs_look st) (<[nbr := z :: pn]> (bs_expl st))
                  (nbr :: z :: l)).
  Proof.
    intros I Hz Hn Hlq HP Hw. destruct I as [I1 I2 I3 I4 I5 I6 I7 I8].
    set (c := nbr :: z :: l ++ [q]) in *.
    assert (forall x, x ∈ c -> is_Some (bs_look st !! x)) as Hc.
    { intros x [->|[->|Hx]%elem_of_cons]%elem_of_cons; [|done|by apply Hlq]. apply I3. by rewrite Hn. }
    destruct I1 as (B & A & M & HB & HA & HC1 & HC2).
    destruct (find_lowest_spec (bs_world st) c ltac:(done)) as (L1 & L2 & L3 & L4).
    set (low := find_lowest (bs_world st) c) in *. clearbody low.
    destruct (label_spec _ _ _ Hw) as (i & ids & -> & M' & Halt).
    { intros i Hi%L2%Hc%I4. destruct (w_saddles (bs_world st) !! i) eqn:E; [by eexists|].
      destruct (w_saddles w0 !! i) as [a|] eqn:E'.
      - destruct (mk_saddle _ _ _ _ _ M _ _ E') as (b & Hb & _). congruence.
      - cbn in Hi. by rewrite E' in Hi. }
    assert (forall j, Sad j ∈ map Sad (i :: ids) <-> j ∈ i :: ids) as Hmap.
    { intros j. change (map Sad (i :: ids)) with (Sad <$> (i :: ids)). rewrite elem_of_list_fmap. split.
      - by intros (? & [= <-] & ?).
      - intros H. by exists j. }
    assert (forall j, j ∈ i :: ids <-> lowest_on w0 c j) as Hlow.
    { intros j. rewrite <-Hmap. split.
      - intros Hj. pose proof (L2 _ Hj) as Hjc. split; [done|]. intros y Hy.
        rewrite <-!ele_node, <-!(marked_ele _ _ _ _ _ _ M). by apply (proj2 (L3 _ Hjc)).
      - intros [Hj1 Hj2]. apply L3; [done|]. intros y Hy. rewrite !(marked_ele _ _ _ _ _ _ M), !ele_node. by apply Hj2. }
    pose proof (marked_trans _ _ _ _ _ _ _ _ _ M M') as M2. cbn [app] in M2.
    split; cbn [bs_world bs_feats bs_stack bs_look bs_expl bs_cyc]; try done.
    - eexists _, _. split; [exact M2|]. split_and!.
      + intros b [Hb|Hb%elem_of_list_singleton]%elem_of_app; [by apply HB|]. subst b. split.
        * exists c. split; [done|]. apply Hlow. by left.
        * apply Hc, L2. cbn. by left.
      + intros a Ha. destruct (decide (a ∈ (if decide (ids = []) then [] else i :: ids))) as [Hin|Hin].
        * destruct (decide (ids = [])) as [|Hids]; [by apply elem_of_nil in Hin|].
          split; [|by apply Hc, L2, Hmap].
          assert (is_Some (w_saddles w' !! a)) as [s Hs].
          { pose proof (I4 _ (Hc _ (L2 _ (proj2 (Hmap a) Hin)))) as Hd. cbn in Hd.
            destruct (w_saddles w0 !! a) as [a0|] eqn:E; [|done].
            destruct (mk_saddle _ _ _ _ _ M2 _ _ E) as (b & Hb & _). by eexists. }
          destruct (Halt Hids a s Hin Hs) as (x & Hx1 & Hx2).
          exists c, (i :: ids), x, s. split; [done|]. split; [destruct ids; [done|cbn; lia]|].
          split; [intros Hnd; apply L4 in Hnd; by apply NoDup_fmap_1 in Hnd|].
          split; [done|]. split; [done|]. split; [done|]. split; [|done].
          by rewrite <-(saddle_same_marked _ _ _ _ _ _ _ M).
        * apply elem_of_app in Ha as [Ha|Ha]; [|done]. destruct (HA a Ha) as [(c' & low' & x & s & A1 & A2 & A3 & A4 & A5 & A6 & A7) A8].
          split; [|done]. destruct (mk_saddle _ _ _ _ _ M' _ _ A6) as (b & Hb & _ & _ & _ & _ & _ & _ & _ & E).
          exists c', low', x, b. split_and!; try done; [apply A7|]. rewrite (E Hin). apply A7.
      + intros _ Habs. by destruct B.
      + done.
    - intros n. rewrite lookup_insert_is_Some. rewrite <-I3. destruct (decide (nbr = n)) as [->|]; [|tauto].
      rewrite Hn. naive_solver.
    - intros j Hj Hn'. apply (marked_dead _ _ _ _ _ _ M'). by apply I8.
  Qed.

  (** ** The loops *)
  Lemma foldM_inv {A T} (f : A -> T -> res T) (I : list A -> T -> Prop) (E : exn -> Prop) (l : list A) :
    (forall pre a post s, l = pre ++ a :: post -> I pre s ->
       match f a s with Ok s' => I (pre ++ [a]) s' | Err e => E e end) ->
    forall s, I [] s -> match foldM f l s with Ok s' => I l s' | Err e => E e end.
  Proof.
    intros H. assert (forall post pre s, l = pre ++ post -> I pre s ->
      match foldM f post s with Ok s' => I l s' | Err e => E e end) as G.
    { induction post as [|a post IH]; intros pre s El Hs; cbn.
      - rewrite app_nil_r in El. by subst.
      - specialize (H pre a post s El Hs). destruct (f a s) as [s'|e]; cbn; [|done].
        apply (IH (pre ++ [a])); [by rewrite <-app_assoc|done]. }
    intros s Hs. by apply (G l []).
  Qed.

  Definition with_stack (st : bstate) (s : list node) : bstate :=
    BState (bs_world st) (bs_feats st) s (bs_look st) (bs_expl st) (bs_cyc st).
  Definition with_feats (st : bstate) (f : list nat) : bstate :=
    BState (bs_world st) f (bs_stack st) (bs_look st) (bs_expl st) (bs_cyc st).

  Lemma search_inv (w0 : world) root (N : nat) (I : list node -> bstate -> Prop)
      (V : list node -> node -> list node -> bstate -> Prop) (E : exn -> Prop) :
    (forall dn st, I dn st -> (length dn <= N)%nat) ->
    (forall dn st z, I dn st -> feature_neighbors (bs_world st) z = feature_neighbors w0 z) ->
    (forall dn st z stack, I dn st -> bs_stack st = z :: stack -> dead (bs_world st) z = true ->
       I (dn ++ [z]) (with_feats (with_stack st stack) (pop_feat z (bs_feats st)))) ->
    (forall dn st z stack, I dn st -> bs_stack st = z :: stack -> dead (bs_world st) z = false ->
       V dn z [] (with_stack st stack)) ->
    (forall dn z pre a post st, V dn z pre st -> feature_neighbors w0 z = pre ++ a :: post ->
       match visit m root z a st with Ok st' => V dn z (pre ++ [a]) st' | Err e => E e end) ->
    (forall dn z st, V dn z (feature_neighbors w0 z) st -> I (dn ++ [z]) st) ->
    forall fuel dn st, I dn st -> (S N <= fuel + length dn)%nat ->
      match search m fuel root st with
      | Ok st' => bs_stack st' = [] /\ exists dn', I dn' st'
      | Err e => E e
      end.
  Proof.
    intros HN Hnb Hdead Hpop Hvis Hdone. induction fuel as [|fuel IH]; intros dn st HI Hf.
    - specialize (HN _ _ HI). lia.
    - cbn [search]. destruct (bs_stack st) as [|z stack] eqn:Es; [split; [done|by exists dn]|].
      destruct (dead (bs_world st) z) eqn:Ed.
      + apply (IH (dn ++ [z])); [by apply Hdead|]. rewrite app_length. cbn. lia.
      + rewrite (Hnb _ _ z HI).
        pose proof (foldM_inv (visit m root z) (V dn z) E (feature_neighbors w0 z)) as F.
        specialize (F (fun pre a post s El HV => Hvis dn z pre a post s HV El) (with_stack st stack) (Hpop _ _ _ _ HI Es Ed)).
        change (BState (bs_world st) (bs_feats st) stack (bs_look st) (bs_expl st) (bs_cyc st)) with (with_stack st stack).
        destruct (foldM _ _ _) as [st'|e]; cbn [rbind]; [|done].
        apply (IH (dn ++ [z])); [by apply Hdone|]. rewrite app_length. cbn. lia.
  Qed.

  Lemma neighbors_marked S B A w w' z : marked S B A w w' -> feature_neighbors w' z = feature_neighbors w z.
  Proof.
    intros M. destruct z as [i|a]; cbn.
    - destruct (w_saddles w !! i) as [s|] eqn:E.
      + destruct (mk_saddle _ _ _ _ _ M _ _ E) as (b & -> & _ & -> & _). apply omap_ext_all. intros k.
        pose proof (marked_link_summit _ _ _ _ _ k M) as H. destruct (w_links w' !! k), (w_links w !! k); cbn in *; congruence.
      + destruct (w_saddles w' !! i) eqn:E'; [|done]. destruct (marked_back _ _ _ _ _ _ _ M E'). congruence.
    - rewrite (mk_summits _ _ _ _ _ M). destruct (w_summits w !! a); [|done]. apply omap_ext_all. intros k.
      pose proof (marked_link_saddle _ _ _ _ _ k M) as H. destruct (w_links w' !! k), (w_links w !! k); cbn in *; congruence.
  Qed.

  Lemma nodes_bound w (l : list node) : NoDup l -> (forall n, n ∈ l -> dead w n = false) ->
    (length l <= length (w_saddles w) + length (w_summits w))%nat.
  Proof.
    intros Hnd Hd.
    assert (l ⊆+ map Sad (seq 0 (length (w_saddles w))) ++ map Sum (seq 0 (length (w_summits w)))) as H.
    { apply NoDup_submseteq; [done|]. intros [i|a] Hn%Hd; apply elem_of_app; cbn in Hn.
      - left. change (map Sad) with (fmap (M:=list) Sad). apply elem_of_list_fmap. exists i. split; [done|]. apply elem_of_seq.
        destruct (w_saddles w !! i) eqn:E; [|done]. apply lookup_lt_Some in E. lia.
      - right. change (map Sum) with (fmap (M:=list) Sum). apply elem_of_list_fmap. exists a. split; [done|]. apply elem_of_seq.
        destruct (w_summits w !! a) eqn:E; [|done]. apply lookup_lt_Some in E. lia. }
    apply submseteq_length in H. by rewrite app_length, !map_length, !seq_length in H.
  Qed.

  Lemma sinv_len P w0 root feats0 dn st : sinv P w0 root feats0 dn st ->
    (length dn <= length (w_saddles w0) + length (w_summits w0))%nat.
  Proof.
    intros I. apply nodes_bound.
    - pose proof (si_nodup _ _ _ _ _ _ I) as H. apply NoDup_app in H. apply H.
    - intros n Hn. apply (si_open _ _ _ _ _ _ I). apply (si_seen _ _ _ _ _ _ I), elem_of_app. by left.
  Qed.
  Lemma sinv_nbrs P w0 root feats0 dn st z : sinv P w0 root feats0 dn st ->
    feature_neighbors (bs_world st) z = feature_neighbors w0 z.
  Proof. intros I. destruct (si_mark _ _ _ _ _ _ I) as (B & A & M & _). by eapply neighbors_marked. Qed.

  Lemma sinv_take P w0 root feats0 dn st z stack : sinv P w0 root feats0 dn st -> bs_stack st = z :: stack ->
    sinv P w0 root feats0 (dn ++ [z]) (with_stack st stack).
  Proof.
    intros I Es. destruct I as [I1 I2 I3 I4 I5 I6 I7 I8]. rewrite Es in *.
    split; cbn [with_stack bs_world bs_feats bs_stack bs_look bs_expl bs_cyc]; try done.
    - by rewrite <-app_assoc.
    - intros n. rewrite <-app_assoc. apply I6.
  Qed.
  Lemma sinv_dead P w0 root feats0 dn st z stack : sinv P w0 root feats0 dn st -> bs_stack st = z :: stack ->
    dead (bs_world st) z = true ->
    sinv P w0 root feats0 (dn ++ [z]) (with_feats (with_stack st stack) (pop_feat z (bs_feats st))).
  Proof. intros I Es Hd. by apply (sinv_pop _ _ _ _ _ (with_stack st stack) z); [eapply sinv_take|]. Qed.
  Lemma sinv_init P w features root : dead w root = false -> sinv P w root features [] (search_init w features root).
  Proof.
    intros Hd. unfold search_init. split; cbn [bs_world bs_feats bs_stack bs_look bs_expl bs_cyc]; try done.
    - exists [], []. split; [apply marked_refl|]. split_and!; try done; by intros b H%elem_of_nil.
    - exists (fun _ => 0%nat). split.
      + apply lookup_singleton.
      + intros n p [<- _]%lookup_singleton_Some. done.
      + intros n _. rewrite map_size_singleton. lia.
    - intros n. destruct (decide (n = root)) as [->|]; [rewrite !lookup_singleton; split; intros _; by eexists|rewrite !lookup_singleton_ne by done; split; by intros []].
    - intros n [x [<- _]%lookup_singleton_Some]. done.
    - apply NoDup_singleton.
    - intros n. cbn. rewrite elem_of_list_singleton. split.
      + intros ->. rewrite lookup_singleton. by eexists.
      + by intros [x [<- _]%lookup_singleton_Some].
  Qed.

  Definition any (c : list node) : Prop := True.
  Lemma visit_any w0 root feats0 dn z a st : sinv any w0 root feats0 dn st -> z ∈ dn ->
    match visit m root z a st with Ok st' => sinv any w0 root feats0 dn st' | Err e => e = AttributeError end.
  Proof.
    intros I Hz. assert (is_Some (bs_look st !! z)) as Hlz.
    { apply (si_seen _ _ _ _ _ _ I), elem_of_app. by left. }
    unfold visit. destruct (dead (bs_world st) a) eqn:Ed; [by apply sinv_pop|].
    destruct (bs_expl st !! a) as [pn|] eqn:Ee; [|by apply sinv_new].
    destruct (node_same m (bs_world st) a z); [done|].
    destruct (decide _); [done|].
    destruct (bs_look st !! z) as [p|] eqn:El; [|by destruct Hlz].
    destruct (si_tree _ _ _ _ _ _ I) as [d T].
    assert (is_Some (bs_look st !! p)) as Hp.
    { destruct (decide (z = root)) as [->|Hr].
      - rewrite (t_root _ _ _ T) in El. injection El as <-. eexists. apply T.
      - apply (t_up _ _ _ T z p El Hr). }
    destruct (chain_up_ok root _ d pn T (S (size (bs_look st))) p Hp) as (l & q & Hc & Hlq).
    { specialize (t_sz _ _ _ T p Hp). lia. }
    rewrite Hc. cbn [rbind fst snd].
    destruct (disqualify_and_label m (bs_world st) _) as [w'|e] eqn:Ew; cbn [rbind].
    - by eapply (sinv_cycle any).
    - apply label_err in Ew as [-> _]; [done|]. apply find_lowest_spec. done.
  Qed.

  Lemma search_any w root features : dead w root = false ->
    match search m (search_fuel w) root (search_init w features root) with
    | Ok st => bs_stack st = [] /\ exists dn, sinv any w root features dn st
    | Err e => e = AttributeError
    end.
  Proof.
    intros Hd. apply (search_inv w root (length (w_saddles w) + length (w_summits w))
      (sinv any w root features) (fun dn z _ st => sinv any w root features (dn ++ [z]) st)
      (fun e => e = AttributeError)) with (dn := []).
    - intros dn st. apply sinv_len.
    - intros dn st z. apply sinv_nbrs.
    - intros dn st z stack. apply sinv_dead.
    - intros dn st z stack I Es _. by eapply sinv_take.
    - intros dn z pre a post st I _. apply visit_any; [done|]. apply elem_of_app. right. by left.
    - done.
    - by apply sinv_init.
    - unfold search_fuel. cbn. lia.
  Qed.
End search.
