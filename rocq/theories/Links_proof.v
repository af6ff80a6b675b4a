(** The walk keeps the link table, the saddles, the summits and the domains
    consistent. *)
From Verif Require Import Tree_spec Walk_model Raster_spec Raster_proof Raster_facts Contig_proof Closest_spec
  Closest_proof Feature_spec Network_spec Rebuild_proof Climb_spec Climb_proof Climb_facts Graph_spec Graph_proof
  Walk_spec Walk_proof Synth_proof.
From Coq Require Import ZifyBool.
Local Open Scope Z_scope.

(** ** Results *)
Section rs.
  (** [C] rules out exceptions. *)
  Variable C : Prop.
  Definition rs {A} (P : A -> Prop) (r : res A) : Prop :=
    match r with Ok a => P a | Err e => e <> OutOfFuel /\ ~ C end.
  Lemma rs_bind {A B} (P : A -> Prop) (Q : B -> Prop) r k :
    rs P r -> (forall a, P a -> rs Q (k a)) -> rs Q (rbind r k).
  Proof. destruct r; cbn; auto. Qed.
  Lemma rs_weaken {A} (P Q : A -> Prop) r : rs P r -> (forall a, P a -> Q a) -> rs Q r.
  Proof. destruct r; cbn; auto. Qed.
  Lemma rs_fold {A S} (f : A -> S -> res S) (I : list A -> S -> Prop) l :
    (forall pre a s, (exists post, l = pre ++ a :: post) -> I pre s -> rs (I (pre ++ [a])) (f a s)) ->
    forall s, I [] s -> rs (I l) (foldM f l s).
  Proof.
    intros Hf s Hs.
    enough (H : forall post pre s, l = pre ++ post -> I pre s -> rs (I l) (foldM f post s)) by (by apply (H l [])).
    clear s Hs. induction post as [|a post IH]; intros pre s -> HI; cbn [foldM].
    - by rewrite app_nil_r.
    - eapply rs_bind; [apply Hf; [by exists post|exact HI]|]. intros s' Hs'.
      apply (IH (pre ++ [a])); [by rewrite <-app_assoc|done].
  Qed.
End rs.

(** ** How worlds grow *)
Record grow (w w' : world) : Prop := {
  gr_sa : forall j o, w_saddles w !! j = Some o -> exists o', w_saddles w' !! j = Some o' /\
    sa_feat o' = sa_feat o /\ (forall k, k ∈ sa_links o -> k ∈ sa_links o') /\
    (is_Some (sa_parent o) -> is_Some (sa_parent o')) /\ (sa_over o = Some true -> sa_over o' = Some true);
  gr_su : forall d su, w_summits w !! d = Some su -> exists su', w_summits w' !! d = Some su' /\
    su_feat su' = su_feat su /\ (forall k, k ∈ su_links su -> k ∈ su_links su') /\
    (forall ds, su_domain su = Some ds -> exists ds', su_domain su' = Some ds' /\ forall x, x ∈ ds -> x ∈ ds');
  gr_links : w_links w `prefix_of` w_links w' }.

Lemma grow_refl w : grow w w.
Proof.
  split; [|intros d su H; exists su; split_and!; eauto|done].
  intros j o H. exists o. split_and!; auto.
Qed.
Lemma grow_trans w1 w2 w3 : grow w1 w2 -> grow w2 w3 -> grow w1 w3.
Proof.
  intros [A1 A2 A3] [B1 B2 B3]. split.
  - intros j o Ho. destruct (A1 j o Ho) as (o2 & H1 & H2 & H3 & H4 & H5).
    destruct (B1 j o2 H1) as (o3 & K1 & K2 & K3 & K4 & K5). exists o3. split_and!; [done|congruence|auto..].
  - intros d su Hd. destruct (A2 d su Hd) as (s2 & H1 & H2 & H3 & H4).
    destruct (B2 d s2 H1) as (s3 & K1 & K2 & K3 & K4). exists s3. split_and!; [done|congruence|auto|].
    intros ds Hds. destruct (H4 ds Hds) as (d2 & Hd2 & Hs2). destruct (K4 d2 Hd2) as (d3 & Hd3 & Hs3).
    exists d3. split; [done|auto].
  - by etrans.
Qed.
Lemma grow_link w w' k l : grow w w' -> w_links w !! k = Some l -> w_links w' !! k = Some l.
Proof. intros [_ _ H] Hk. by eapply prefix_lookup. Qed.
Lemma grow_saddle_spot m w w' i a : grow w w' -> saddle_spot m w i = Some a -> saddle_spot m w' i = Some a.
Proof.
  unfold saddle_spot. intros Hg H. destruct (w_saddles w !! i) as [o|] eqn:E; [|done].
  destruct (gr_sa _ _ Hg i o E) as (o' & -> & He & _). cbn in *. by rewrite He.
Qed.
Lemma grow_summit_spot m w w' i a : grow w w' -> summit_spot m w i = Some a -> summit_spot m w' i = Some a.
Proof.
  unfold summit_spot. intros Hg H. destruct (w_summits w !! i) as [o|] eqn:E; [|done].
  destruct (gr_su _ _ Hg i o E) as (o' & -> & He & _). cbn in *. by rewrite He.
Qed.
Lemma grow_same m w w' k k' : grow w w' -> link_same m w k k' = true -> link_same m w' k k' = true.
Proof.
  intros Hg. unfold link_same. destruct (w_links w !! k) as [a|] eqn:Ea; [|done].
  destruct (w_links w !! k') as [b|] eqn:Eb; [|done].
  rewrite (grow_link _ _ _ _ Hg Ea), (grow_link _ _ _ _ Hg Eb). rewrite !andb_true_iff. intros [H1 H2].
  unfold summit_same, saddle_same in *. apply orb_true_iff in H1, H2. split; apply orb_true_iff.
  - destruct H1 as [H1|H1]; [by left|right].
    destruct (summit_spot m w (ln_summit a)) eqn:E1; [|done].
    destruct (summit_spot m w (ln_summit b)) eqn:E2; [|done].
    by rewrite (grow_summit_spot _ _ _ _ _ Hg E1), (grow_summit_spot _ _ _ _ _ Hg E2).
  - destruct H2 as [H2|H2]; [by left|right].
    destruct (saddle_spot m w (ln_saddle a)) eqn:E1; [|done].
    destruct (saddle_spot m w (ln_saddle b)) eqn:E2; [|done].
    by rewrite (grow_saddle_spot _ _ _ _ _ Hg E1), (grow_saddle_spot _ _ _ _ _ Hg E2).
Qed.

Lemma add_remote_length m b k w :
  length (w_saddles (add_to_remote m b k w)) = length (w_saddles w).
Proof.
  unfold add_to_remote. destruct (w_links w !! k); [|done].
  repeat match goal with |- context [if ?b then _ else _] => destruct b end; cbn; rewrite ?alter_length; done.
Qed.

Lemma add_remote_links m b k w : w_links (add_to_remote m b k w) = w_links w.
Proof.
  unfold add_to_remote. destruct (w_links w !! k); [|done].
  by repeat match goal with |- context [if ?b then _ else _] => destruct b end.
Qed.

Section links.
  Variables (near : searches) (m : datamap).
  Hypotheses (Hnear : sound_searches near m) (Hok : map_ok m) (Hup : north_up m)
    (Hlow : climbable m) (Hreach : pixels_in_reach m).
  Variable dom : nat -> xy -> Prop.
  (** [w0]: the world when the saddles start being walked; [C]: every peak is
      registered. *)
  Variables (w0 : world) (C : Prop).
  Notation n0 := (length (w_links w0)).

  (** One link; [X] are saddles being processed. *)
  Record link_ok (X : list nat) (s : walk_state) (k : nat) (l : link) : Prop := {
    lo_ends : exists o su ds, w_saddles (ws_world s) !! ln_saddle l = Some o /\
      w_summits (ws_world s) !! ln_summit l = Some su /\ su_domain su = Some ds /\
      ln_saddle l ∈ ds /\ ln_disq l = false /\ leads m dom (sa_feat o) (ln_summit l) /\
      (exists k', k' ∈ sa_links o /\ (k' = k \/ link_same m (ws_world s) k k' = true)) /\
      (exists k', k' ∈ su_links su /\ (k' = k \/ link_same m (ws_world s) k k' = true)) /\
      (is_Some (sa_parent o) \/ ln_saddle l ∈ X \/ (k ∈ sa_links o /\ k ∈ su_links su));
    lo_out : ln_saddle l ∈ X \/ ln_saddle l ∈ ws_feats s }.

  Record winv (X : list nat) (s : walk_state) : Prop := {
    v_linkers : (n0 <= length (w_links (ws_world s)))%nat /\
      ws_linkers s = seq n0 (length (w_links (ws_world s)) - n0);
    v_link : forall k l, w_links (ws_world s) !! k = Some l -> (n0 <= k)%nat -> link_ok X s k l;
    v_sa : forall i o k, w_saddles (ws_world s) !! i = Some o -> k ∈ sa_links o -> (n0 <= k)%nat ->
      exists l, w_links (ws_world s) !! k = Some l /\ ln_saddle l = i;
    v_su : forall d su k, w_summits (ws_world s) !! d = Some su -> k ∈ su_links su -> (n0 <= k)%nat ->
      exists l, w_links (ws_world s) !! k = Some l /\ ln_summit l = d;
    v_dom : forall d x, x ∈ domain_saddles (ws_world s) d -> x ∈ domain_saddles w0 d \/
      exists k l, (n0 <= k)%nat /\ w_links (ws_world s) !! k = Some l /\ ln_summit l = d /\ ln_saddle l = x;
    v_reg : forall d t, dom d t -> exists su, w_summits (ws_world s) !! d = Some su /\ is_Some (su_domain su);
    v_climb : inv m dom (ws_climb s);
    v_complete : C -> complete m (ws_climb s) }.

  Lemma winv_weaken X Y s : (forall x, x ∈ X -> x ∈ Y) -> winv X s -> winv Y s.
  Proof.
    intros HXY [V1 V2 V3 V4 V5 V6 V7 V8]. split; try done. intros k l Hk Hle.
    destruct (V2 k l Hk Hle) as [(o & su & ds & A1 & A2 & A3 & A4 & A5 & A6 & A7 & A8 & A9) B]. split.
    - exists o, su, ds. split_and!; try done. destruct A9 as [|[|]]; auto.
    - destruct B; auto.
  Qed.

  (** The world is as before except for the families and for new objects
      without links. *)
  Definition fam_change (w w' : world) : Prop :=
    w_summits w' = w_summits w /\ w_links w' = w_links w /\
    (forall j o, w_saddles w !! j = Some o -> exists o', w_saddles w' !! j = Some o' /\
      sa_feat o' = sa_feat o /\ sa_links o' = sa_links o /\ (is_Some (sa_parent o) -> is_Some (sa_parent o')) /\
      (sa_over o = Some true -> sa_over o' = Some true)) /\
    (forall j o', w_saddles w' !! j = Some o' -> w_saddles w !! j = None -> sa_links o' = []).

  Lemma fam_change_refl w : fam_change w w.
  Proof.
    split; [done|]. split; [done|]. split.
    - intros j o H. exists o. split_and!; auto.
    - intros j o' H H'. congruence.
  Qed.
  Lemma fam_change_grow w w' : fam_change w w' -> grow w w'.
  Proof.
    intros (A1 & A2 & A3 & A4). split.
    - intros j o Ho. destruct (A3 j o Ho) as (o' & H1 & H2 & H3 & H4 & H5). exists o'. split_and!; auto.
      by rewrite H3.
    - intros d su Hd. exists su. rewrite A1. split_and!; eauto.
    - by rewrite A2.
  Qed.
  Lemma fam_change_trans w1 w2 w3 : fam_change w1 w2 -> fam_change w2 w3 -> fam_change w1 w3.
  Proof.
    intros (A1 & A2 & A3 & A4) (B1 & B2 & B3 & B4). split; [congruence|]. split; [congruence|]. split.
    - intros j o Ho. destruct (A3 j o Ho) as (o2 & H1 & H2 & H3 & H4 & H5).
      destruct (B3 j o2 H1) as (o3 & K1 & K2 & K3 & K4 & K5). exists o3. split_and!; [done|congruence|congruence|auto..].
    - intros j o' Ho' Hn. destruct (w_saddles w2 !! j) as [o2|] eqn:E2.
      + destruct (B3 j o2 E2) as (o3 & K1 & K2 & K3 & _). assert (o3 = o') as -> by congruence.
        rewrite K3. by eapply A4.
      + by eapply B4.
  Qed.
  Lemma fam_change_upd i f w : (forall o, sa_feat (f o) = sa_feat o /\ sa_links (f o) = sa_links o /\
      (is_Some (sa_parent o) -> is_Some (sa_parent (f o))) /\ (sa_over o = Some true -> sa_over (f o) = Some true)) ->
    fam_change w (upd_saddle i f w).
  Proof.
    intros Hf. split; [done|]. split; [done|]. split.
    - intros j o Ho. rewrite upd_saddle_lookup, Ho. destruct (decide (j = i)).
      + exists (f o). split; [done|]. apply Hf.
      + exists o. split_and!; auto.
    - intros j o' Ho' Hn. rewrite upd_saddle_lookup, Hn in Ho'. by destruct (decide (j = i)).
  Qed.

  Lemma winv_fam X s w' : winv X s -> fam_change (ws_world s) w' -> winv X (set_world w' s).
  Proof.
    intros V H. pose proof (fam_change_grow _ _ H) as Hg. destruct H as (A1 & A2 & A3 & A4).
    destruct V as [V1 V2 V3 V4 V5 V6 V7 V8]. split; cbn [set_world ws_world ws_linkers ws_climb]; rewrite ?A1, ?A2; try done.
    - intros k l Hk Hle.
      destruct (V2 k l Hk Hle) as [(o & su & ds & B1 & B2 & B3 & B4 & B5 & B6 & B7 & B8 & B9) B]. split; [|done].
      cbn [set_world ws_world]. destruct (A3 _ o B1) as (o' & K1 & K2 & K3 & K4 & _).
      exists o', su, ds. rewrite K2, K3, A1. split_and!; try done.
      + destruct B7 as (k' & Hk' & B7). exists k'. split; [done|]. destruct B7; [by left|right]. by eapply grow_same.
      + destruct B8 as (k' & Hk' & B8). exists k'. split; [done|]. destruct B8; [by left|right]. by eapply grow_same.
      + destruct B9 as [B9|[B9|B9]]; auto.
    - intros i o' k Ho' Hk Hle. destruct (w_saddles (ws_world s) !! i) as [o|] eqn:E.
      + destruct (A3 i o E) as (o2 & K1 & K2 & K3 & _). assert (o2 = o') as -> by congruence.
        rewrite K3 in Hk. by eapply V3.
      + rewrite (A4 i o' Ho' E) in Hk. by apply elem_of_nil in Hk.
    - intros d x Hx. apply V5. unfold domain_saddles in *. by rewrite A1 in Hx.
  Qed.

  (** The saddle [k] is done: it is in the output and has a parent or all its
      links are listed. *)
  Lemma winv_done X k s : winv (k :: X) s -> k ∈ ws_feats s ->
    (forall j l o su, w_links (ws_world s) !! j = Some l -> (n0 <= j)%nat -> ln_saddle l = k ->
       w_saddles (ws_world s) !! k = Some o -> w_summits (ws_world s) !! ln_summit l = Some su ->
       is_Some (sa_parent o) \/ (j ∈ sa_links o /\ j ∈ su_links su)) ->
    winv X s.
  Proof.
    intros [V1 V2 V3 V4 V5 V6 V7 V8] Hin Hk. split; try done. intros j l Hj Hle.
    destruct (V2 j l Hj Hle) as [(o & su & ds & A1 & A2 & A3 & A4 & A5 & A6 & A7 & A8 & A9) B]. split.
    - exists o, su, ds. split_and!; try done.
      destruct A9 as [A9|[[A9|A9]%elem_of_cons|A9]]; auto.
      rewrite A9 in A1. destruct (Hk j l o su); auto.
    - destruct B as [[B|B]%elem_of_cons|B]; auto. right. by rewrite B.
  Qed.

  Lemma winv_feat X s k : winv X s -> winv X (add_feat k s).
  Proof.
    intros [V1 V2 V3 V4 V5 V6 V7 V8]. split; try done. intros j l Hj Hle.
    destruct (V2 j l Hj Hle) as [A B]. split; [exact A|]. cbn. rewrite elem_of_app. destruct B; auto.
  Qed.

  (** *** A new link *)
  Section new_link.
    Variables (X : list nat) (s : walk_state) (ign : bool) (d k : nat) (o : saddle).
    Hypotheses (V : winv X s) (Ho : w_saddles (ws_world s) !! k = Some o)
      (Hl : leads m dom (sa_feat o) d).
    Let s' := link_saddle m ign d k s.
    Let n := length (w_links (ws_world s)).

    Lemma link_world : exists su ds (bu ba : bool) o' su',
      w_summits (ws_world s) !! d = Some su /\ su_domain su = Some ds /\
      o' = set_links (if ba then sa_links o else sa_links o ++ [n]) o /\
      su' = Summit (su_feat su) (if bu then su_links su else su_links su ++ [n]) (Some (ds ++ [k])) /\
      (forall j, w_saddles (ws_world s') !! j = if decide (j = k) then Some o' else w_saddles (ws_world s) !! j) /\
      (forall e, w_summits (ws_world s') !! e = if decide (e = d) then Some su' else w_summits (ws_world s) !! e) /\
      w_links (ws_world s') = w_links (ws_world s) ++ [Link d k false] /\
      ws_linkers s' = ws_linkers s ++ [n] /\ ws_climb s' = ws_climb s /\ ws_feats s' = ws_feats s /\
      (ign = false -> bu = false /\ ba = false) /\
      (ba = true -> exists k', k' ∈ sa_links o /\ link_same m (ws_world s') n k' = true) /\
      (bu = true -> exists k', k' ∈ su_links su /\ link_same m (ws_world s') n k' = true).
    Proof.
      assert (Hsu : exists su ds, w_summits (ws_world s) !! d = Some su /\ su_domain su = Some ds).
      { assert (Ht : exists t, dom d t) by (destruct Hl as [(g & z & t & _ & _ & H & _)|(_ & t & H & _)]; eauto).
        destruct Ht as [t Ht]. destruct (v_reg _ _ V d t Ht) as (su & H1 & [ds H2]). eauto. }
      destruct Hsu as (su & ds & Hsu & Hds).
      unfold s', link_saddle.
      set (w1 := upd_summit d _ (ws_world s)).
      set (w2 := World (w_saddles w1) (w_summits w1) (w_links w1 ++ [Link d k false])).
      change (length (w_links w1)) with n.
      assert (Hln : w_links w2 !! n = Some (Link d k false)).
      { unfold w2, w1; cbn. rewrite lookup_app_r by done. unfold n. by rewrite Nat.sub_diag. }
      assert (Hk2 : w_saddles w2 !! k = Some o) by done.
      assert (Hd2 : w_summits w2 !! d = Some (Summit (su_feat su) (su_links su) (Some (ds ++ [k])))).
      { change (w_summits w2 !! d) with (w_summits w1 !! d). unfold w1. rewrite upd_summit_lookup.
        rewrite decide_True by done. rewrite Hsu. cbn. by rewrite Hds. }
      unfold add_to_remote. rewrite Hln. cbn [ln_summit ln_saddle]. rewrite Hd2, Hk2.
      cbn [su_links].
      set (bu := ign && existsb (link_same m w2 n) (su_links su)).
      set (ba := ign && existsb (link_same m w2 n) (sa_links o)).
      set (w3 := if bu then w2 else upd_summit d (fun s => Summit (su_feat s) (su_links s ++ [n]) (su_domain s)) w2).
      set (w4 := if ba then w3 else upd_saddle k (fun s => set_links (sa_links s ++ [n]) s) w3).
      exists su, ds, bu, ba. eexists _, _. split; [done|]. split; [done|]. split; [reflexivity|]. split; [reflexivity|].
      cbn [ws_world ws_linkers ws_climb ws_feats].
      assert (Hsa4 : forall j, w_saddles w4 !! j = if decide (j = k) then
          Some (set_links (if ba then sa_links o else sa_links o ++ [n]) o) else w_saddles (ws_world s) !! j).
      { intros j. assert (H3 : w_saddles w3 = w_saddles (ws_world s)) by (unfold w3; by destruct bu).
        unfold w4. destruct ba.
        - rewrite H3. destruct (decide (j = k)) as [->|]; [|done]. rewrite Ho. by destruct o.
        - rewrite upd_saddle_lookup, H3. destruct (decide (j = k)) as [->|]; [|done]. by rewrite Ho. }
      assert (Hsu4 : forall e, w_summits w4 !! e = if decide (e = d) then
          Some (Summit (su_feat su) (if bu then su_links su else su_links su ++ [n]) (Some (ds ++ [k])))
          else w_summits (ws_world s) !! e).
      { intros e. assert (H4 : w_summits w4 = w_summits w3) by (unfold w4; by destruct ba). rewrite H4.
        unfold w3. destruct bu.
        - destruct (decide (e = d)) as [->|He]; [done|]. change (w_summits w2 !! e) with (w_summits w1 !! e).
          unfold w1. rewrite upd_summit_lookup. by rewrite decide_False by done.
        - rewrite upd_summit_lookup. destruct (decide (e = d)) as [->|He]; [by rewrite Hd2|].
          change (w_summits w2 !! e) with (w_summits w1 !! e).
          unfold w1. rewrite upd_summit_lookup. by rewrite decide_False by done. }
      assert (Hl4 : w_links w4 = w_links (ws_world s) ++ [Link d k false]).
      { unfold w4, w3. by destruct ba, bu. }
      assert (Hsame : forall k', link_same m w2 n k' = true -> link_same m w4 n k' = true).
      { intros k'. apply grow_same. split.
        - intros j o2 Hj. rewrite Hsa4. change (w_saddles w2) with (w_saddles (ws_world s)) in Hj.
          destruct (decide (j = k)) as [->|].
          + assert (o2 = o) as -> by congruence. eexists. split; [done|]. cbn. split_and!; auto.
            intros x Hx. destruct ba; [done|]. apply elem_of_app. by left.
          + exists o2. split_and!; auto.
        - intros e su2 He. rewrite Hsu4. destruct (decide (e = d)) as [->|Hne].
          + rewrite Hd2 in He. injection He as <-. eexists. split; [done|]. cbn. split_and!; auto.
            * intros x Hx. destruct bu; [done|]. apply elem_of_app. by left.
            * intros ds' [= <-]. by eexists.
          + exists su2. change (w_summits w2 !! e) with (w_summits w1 !! e) in He.
            unfold w1 in He. rewrite upd_summit_lookup in He. rewrite decide_False in He by done.
            split_and!; eauto.
        - by rewrite Hl4. }
      split_and!; try done.
      - intros ->. done.
      - intros Hb. unfold ba in Hb. apply andb_true_iff in Hb as [_ Hb]. apply existsb_exists in Hb as (k' & Hk' & Hs).
        exists k'. split; [by apply elem_of_list_In|by apply Hsame].
      - intros Hb. unfold bu in Hb. apply andb_true_iff in Hb as [_ Hb]. apply existsb_exists in Hb as (k' & Hk' & Hs).
        exists k'. split; [by apply elem_of_list_In|by apply Hsame].
    Qed.

    Lemma link_saddle_ok : k ∈ X ->
      winv X s' /\ grow (ws_world s) (ws_world s') /\ frame k (ws_world s) (ws_world s') /\
      (exists L, w_saddles (ws_world s') !! k = Some (set_links L o)) /\
      length (w_saddles (ws_world s')) = length (w_saddles (ws_world s)) /\
      ws_feats s' = ws_feats s /\ ws_climb s' = ws_climb s /\
      n ∈ ws_linkers s' /\ w_links (ws_world s') !! n = Some (Link d k false) /\
      (ign = false ->
       forall su', w_summits (ws_world s') !! d = Some su' -> n ∈ su_links su' /\
       forall o', w_saddles (ws_world s') !! k = Some o' -> n ∈ sa_links o').
    Proof.
      intros HkX.
      destruct link_world as (su & ds & bu & ba & o' & su' & Hsu & Hds & Eo' & Esu' & Hsa & Hsu' & Hlk & Hlr & Hcl & Hft
        & Hig & Hba & Hbu).
      assert (Hlen : length (w_saddles (ws_world s')) = length (w_saddles (ws_world s))).
      { unfold s', link_saddle. cbn [ws_world]. by rewrite add_remote_length. }
      clearbody s'.
      assert (Hg : grow (ws_world s) (ws_world s')).
      { split.
        - intros j o2 Hj. rewrite Hsa. destruct (decide (j = k)) as [->|].
          + assert (o2 = o) as -> by congruence. eexists. split; [done|]. rewrite Eo'. cbn. split_and!; auto.
            intros x Hx. destruct ba; [done|]. apply elem_of_app. by left.
          + exists o2. split_and!; auto.
        - intros e su2 He. rewrite Hsu'. destruct (decide (e = d)) as [->|Hne].
          + rewrite Hsu in He. injection He as <-. eexists. split; [done|]. rewrite Esu'. cbn. split_and!; auto.
            * intros x Hx. destruct bu; [done|]. apply elem_of_app. by left.
            * intros ds' Hds'. rewrite Hds in Hds'. injection Hds' as <-. eexists. split; [done|].
              intros x Hx. apply elem_of_app. by left.
          + exists su2. split_and!; eauto.
        - rewrite Hlk. by eexists. }
      assert (Hsak : w_saddles (ws_world s') !! k = Some o') by (rewrite Hsa; by rewrite decide_True by done).
      assert (Hsud : w_summits (ws_world s') !! d = Some su') by (rewrite Hsu'; by rewrite decide_True by done).
      assert (Hn : w_links (ws_world s') !! n = Some (Link d k false)).
      { rewrite Hlk, lookup_app_r by done. unfold n. by rewrite Nat.sub_diag. }
      assert (Hfo : sa_feat o' = sa_feat o /\ sa_parent o' = sa_parent o) by (by rewrite Eo').
      split; [|split_and!; try done].
      2:{ intros j o2 Hj Hne. rewrite Hsa. by rewrite decide_False by done. }
      2:{ rewrite Hsak, Eo'. by eexists. }
      2:{ rewrite Hlr. apply elem_of_app. right. by left. }
      2:{ intros E. destruct (Hig E) as [-> ->]. rewrite Hsud, Hsak. intros su2 [= <-]. rewrite Esu'; cbn. split.
          - apply elem_of_app. right. by left.
          - intros o2 [= <-]. rewrite Eo'; cbn. apply elem_of_app. right. by left. }
      destruct V as [[V1a V1b] V2 V3 V4 V5 V6 V7 V8]. split.
      - rewrite Hlk, app_length. cbn. split; [lia|]. rewrite Hlr, V1b. unfold n.
        replace (length (w_links (ws_world s)) + 1 - n0)%nat
          with (length (w_links (ws_world s)) - n0 + 1)%nat by lia.
        rewrite seq_app. f_equal. cbn. f_equal. lia.
      - intros j l Hj Hle. rewrite Hlk in Hj. apply lookup_app_Some in Hj as [Hj|[Hge Hj]].
        + destruct (V2 j l Hj Hle) as [(o2 & su2 & ds2 & A1 & A2 & A3 & A4 & A5 & A6 & A7 & A8 & A9) B].
          split; [|by rewrite Hft].
          destruct (gr_sa _ _ Hg _ _ A1) as (o3 & K1 & K2 & K3 & K4 & _).
          destruct (gr_su _ _ Hg _ _ A2) as (su3 & L1 & L2 & L3 & L4).
          destruct (L4 _ A3) as (ds3 & L5 & L6).
          exists o3, su3, ds3. rewrite K2. split_and!; auto.
          * destruct A7 as (k' & Hk' & A7). exists k'. split; [by apply K3|]. destruct A7; [by left|right].
            by eapply grow_same.
          * destruct A8 as (k' & Hk' & A8). exists k'. split; [by apply L3|]. destruct A8; [by left|right].
            by eapply grow_same.
          * destruct A9 as [A9|[A9|[A9 A10]]]; auto.
        + destruct (j - length (w_links (ws_world s)))%nat eqn:Ej; [|done]. cbn in Hj. injection Hj as <-.
          assert (j = n) as -> by (unfold n; lia). split; [|by left]. cbn [ln_saddle ln_summit ln_disq].
          exists o', su', (ds ++ [k]). destruct Hfo as [-> ->]. split_and!; try done.
          * by rewrite Esu'.
          * apply elem_of_app. right. by left.
          * destruct ba eqn:Eba.
            -- destruct (Hba eq_refl) as (k' & Hk' & Hs). exists k'. rewrite Eo'. auto.
            -- exists n. rewrite Eo'. cbn. split; [|by left]. apply elem_of_app. right. by left.
          * destruct bu eqn:Ebu.
            -- destruct (Hbu eq_refl) as (k' & Hk' & Hs). exists k'. rewrite Esu'. auto.
            -- exists n. rewrite Esu'. cbn. split; [|by left]. apply elem_of_app. right. by left.
          * auto.
      - intros i o2 j Hi Hj Hle. rewrite Hsa in Hi. destruct (decide (i = k)) as [->|].
        + injection Hi as <-. rewrite Eo' in Hj. cbn in Hj.
          assert (Hj' : j ∈ sa_links o \/ j = n).
          { destruct ba; [by left|]. apply elem_of_app in Hj as [|Hj%elem_of_list_singleton]; auto. }
          destruct Hj' as [Hj'| ->]; [|eauto].
          destruct (V3 _ _ _ Ho Hj' Hle) as (l & Hl' & ?). exists l. split; [|done]. by eapply grow_link.
        + destruct (V3 _ _ _ Hi Hj Hle) as (l & Hl' & ?). exists l. split; [|done]. by eapply grow_link.
      - intros e su2 j He Hj Hle. rewrite Hsu' in He. destruct (decide (e = d)) as [->|].
        + injection He as <-. rewrite Esu' in Hj. cbn in Hj.
          assert (Hj' : j ∈ su_links su \/ j = n).
          { destruct bu; [by left|]. apply elem_of_app in Hj as [|Hj%elem_of_list_singleton]; auto. }
          destruct Hj' as [Hj'| ->]; [|eauto].
          destruct (V4 _ _ _ Hsu Hj' Hle) as (l & Hl' & ?). exists l. split; [|done]. by eapply grow_link.
        + destruct (V4 _ _ _ He Hj Hle) as (l & Hl' & ?). exists l. split; [|done]. by eapply grow_link.
      - intros e x Hx. unfold domain_saddles in Hx. rewrite Hsu' in Hx.
        assert (Hx' : x ∈ domain_saddles (ws_world s) e \/ (e = d /\ x = k)).
        { unfold domain_saddles. destruct (decide (e = d)) as [->|]; [|by left].
          cbn in Hx. rewrite Esu' in Hx. cbn in Hx. rewrite Hsu. cbn. rewrite Hds. cbn.
          apply elem_of_app in Hx as [|Hx%elem_of_list_singleton]; auto. }
        destruct Hx' as [Hx'|[-> ->]].
        + destruct (V5 _ _ Hx') as [|(j & l & H1 & H2 & H3 & H4)]; [by left|right].
          exists j, l. split_and!; try done. by eapply grow_link.
        + right. exists n, (Link d k false). split_and!; try done.
      - intros e t He. destruct (V6 e t He) as (su2 & H1 & [ds2 H2]).
        destruct (gr_su _ _ Hg _ _ H1) as (su3 & L1 & _ & _ & L4).
        exists su3. split; [done|]. destruct (L4 _ H2) as (ds4 & H5 & _). rewrite H5. eauto.
      - by rewrite Hcl.
      - by rewrite Hcl.
    Qed.
  End new_link.
End links.
