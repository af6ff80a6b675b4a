(** Parents and children after a walk, for saddles that were not related before. *)
From Verif Require Import Walk_model Graph_spec Synth_proof Links_proof.
Local Open Scope nat_scope.

Definition kind_of (w : world) (j : nat) : option kind := (fun o => ft_kind (sa_feat o)) <$> w_saddles w !! j.
(** Saddles are only related to saddles for which [X] holds; there are no
    alternatives. *)
Definition kin (w : world) (X : nat -> Prop) : Prop :=
  forall i o, w_saddles w !! i = Some o -> sa_alts o = [] /\
    (ft_kind (sa_feat o) = KSaddle -> forall j, j ∈ sa_children o \/ sa_parent o = Some j -> X j /\ kind_of w j = Some KSaddle).

(** What the relations depend on. *)
Definition kin_view (o : saddle) := (sa_feat o, sa_parent o, sa_children o, sa_alts o).
Definition same_view (w w' : world) : Prop := kin_view <$> w_saddles w' = kin_view <$> w_saddles w.

Lemma same_view_refl w : same_view w w.
Proof. done. Qed.
Lemma same_view_trans w1 w2 w3 : same_view w1 w2 -> same_view w2 w3 -> same_view w1 w3.
Proof. unfold same_view. congruence. Qed.
Lemma view_lookup w w' i o : same_view w w' -> w_saddles w' !! i = Some o ->
  exists o', w_saddles w !! i = Some o' /\ kin_view o' = kin_view o.
Proof.
  intros H Ho. assert ((kin_view <$> w_saddles w) !! i = Some (kin_view o)) as E by (rewrite <-H, list_lookup_fmap, Ho; done).
  rewrite list_lookup_fmap in E. destruct (w_saddles w !! i) as [o'|]; [|done]. exists o'. split; [done|]. change (Some (kin_view o') = Some (kin_view o)) in E. congruence.
Qed.
Lemma view_kind w w' j : same_view w w' -> kind_of w' j = kind_of w j.
Proof.
  intros H. unfold kind_of. destruct (w_saddles w' !! j) as [o|] eqn:E.
  - destruct (view_lookup _ _ _ _ H E) as (o' & -> & E'). injection E' as E' _ _ _. cbn. by rewrite E'.
  - destruct (w_saddles w !! j) as [o|] eqn:E'; [|done].
    destruct (view_lookup w' w j o) as (o' & E'' & _); [by symmetry|done|]. by rewrite E in E''.
Qed.
Lemma view_length w w' : same_view w w' -> length (w_saddles w') = length (w_saddles w).
Proof. intros H. apply (f_equal length) in H. by rewrite !fmap_length in H. Qed.
Lemma view_kin w w' X : same_view w w' -> kin w X -> kin w' X.
Proof.
  intros H K i o Ho. destruct (view_lookup _ _ _ _ H Ho) as (o' & Ho' & [= E1 E2 E3 E4]). destruct (K i o' Ho') as [K1 K2].
  split; [congruence|]. intros Hk j Hj. rewrite (view_kind w w'); [|done]. apply K2; [congruence|]. by rewrite E2, E3.
Qed.
Lemma kin_weaken w (X Y : nat -> Prop) : (forall j, X j -> Y j) -> kin w X -> kin w Y.
Proof. intros H K i o Ho. destruct (K i o Ho) as [K1 K2]. split; [done|]. intros Hk j Hj. destruct (K2 Hk j Hj). auto. Qed.
Lemma view_upd i f w : (forall o, kin_view (f o) = kin_view o) -> same_view w (upd_saddle i f w).
Proof.
  intros Hf. unfold same_view. cbn. apply list_eq. intros j. rewrite !list_lookup_fmap. destruct (decide (i = j)) as [->|].
  - rewrite list_lookup_alter. destruct (w_saddles w !! j); [|done]. cbn. by rewrite Hf.
  - by rewrite list_lookup_alter_ne.
Qed.
Lemma view_remote m b k w : same_view w (add_to_remote m b k w).
Proof.
  unfold add_to_remote. destruct (w_links w !! k) as [l|]; [|done].
  repeat match goal with |- context [if ?b then _ else _] => destruct b end; try done;
    (eapply same_view_trans; [|apply view_upd; done]); done.
Qed.

(** The same listing, the same relations. *)
Definition quiet (s s' : walk_state) : Prop := ws_feats s' = ws_feats s /\ same_view (ws_world s) (ws_world s').
Lemma quiet_refl s : quiet s s.
Proof. done. Qed.
Lemma quiet_trans s1 s2 s3 : quiet s1 s2 -> quiet s2 s3 -> quiet s1 s3.
Proof. intros [A1 A2] [B1 B2]. split; [congruence|by eapply same_view_trans]. Qed.
Lemma foldM_quiet {A} (f : A -> walk_state -> res walk_state) l :
  (forall a s s', f a s = Ok s' -> quiet s s') -> forall s s', foldM f l s = Ok s' -> quiet s s'.
Proof.
  intros Hf. induction l as [|a l IH]; intros s s'; cbn; [intros [= ->]; apply quiet_refl|].
  destruct (f a s) as [s1|] eqn:E; [|done]. cbn. intros H. eapply quiet_trans; [by eapply Hf|by apply IH].
Qed.

Lemma list_filter_iff' {A} (P Q : A -> Prop) `{!forall x, Decision (P x), !forall x, Decision (Q x)} (l : list A) :
  (forall x, x ∈ l -> P x <-> Q x) -> filter P l = filter Q l.
Proof.
  induction l as [|a l IH]; intros HPQ; [done|]. rewrite !filter_cons. rewrite IH by (intros x Hx; apply HPQ; by right).
  specialize (HPQ a (elem_of_list_here a l)). destruct (decide (P a)), (decide (Q a)); tauto.
Qed.

Section fam.
  Variables (fpath : datamap -> list mpoint -> mpoint -> mpoint -> option (list mpoint * Q)).
  Variables (near : searches) (m : datamap).

  Lemma link_quiet b d k s : quiet s (link_saddle m b d k s).
  Proof.
    split; [done|]. unfold link_saddle. cbn [ws_world]. eapply same_view_trans; [|apply view_remote]. done.
  Qed.
  Lemma link_edge_quiet b k g s s' : link_edge m b k g s = Ok s' -> quiet s s'.
  Proof.
    unfold link_edge. destruct g as [|h g]; [done|]. destruct (_ !! _); intros [= <-]; [apply link_quiet|apply quiet_refl].
  Qed.
  Lemma climb_quiet k s s' : climb_edges near m k s = Ok s' -> quiet s s'.
  Proof.
    unfold climb_edges. destruct (hpn_of k s) as [hs|]; [|done]. cbn [rbind].
    destruct (foldM _ hs (ws_climb s)); [|done]. cbn. by intros [= <-].
  Qed.

  (** A new saddle. *)
  Lemma alloc_kin s w X : ft_kind (sa_feat s) = KSaddle -> sa_alts s = [] -> sa_children s = [] -> sa_parent s = None ->
    kin w X -> kin (alloc_saddle s w).1 X.
  Proof.
    intros Hk Ha Hc Hp K i o. rewrite alloc_lookup. destruct (decide _) as [->|Hi].
    - intros [= <-]. split; [done|]. intros _ j. rewrite Hc, Hp. by intros [?%elem_of_nil|].
    - intros Ho. destruct (K i o Ho) as [K1 K2]. split; [done|]. intros Hk' j Hj. destruct (K2 Hk' j Hj) as [K3 K4]. split; [done|].
      unfold kind_of. rewrite alloc_lookup. destruct (decide _) as [->|]; [|exact K4]. cbn. by rewrite Hk.
  Qed.
  Lemma alloc_kind s w j : kind_of (alloc_saddle s w).1 j =
    if decide (j = length (w_saddles w)) then Some (ft_kind (sa_feat s)) else kind_of w j.
  Proof. unfold kind_of. rewrite alloc_lookup. by destruct (decide _). Qed.

  (** Changing the relations of one saddle. *)
  Lemma upd_kind i f w j : (forall o, sa_feat (f o) = sa_feat o) -> kind_of (upd_saddle i f w) j = kind_of w j.
  Proof.
    intros Hf. unfold kind_of. cbn. destruct (decide (i = j)) as [->|].
    - rewrite list_lookup_alter. destruct (_ !! j); [|done]. cbn. by rewrite Hf.
    - by rewrite list_lookup_alter_ne.
  Qed.
  Lemma upd_kin i f w (X : nat -> Prop) : (forall o, sa_feat (f o) = sa_feat o /\ sa_alts (f o) = sa_alts o) ->
    (forall o j, w_saddles w !! i = Some o -> ft_kind (sa_feat o) = KSaddle -> j ∈ sa_children (f o) \/ sa_parent (f o) = Some j ->
       j ∈ sa_children o \/ sa_parent o = Some j \/ (X j /\ kind_of w j = Some KSaddle)) ->
    kin w X -> kin (upd_saddle i f w) X.
  Proof.
    intros Hf Hn K j o Ho. cbn in Ho. destruct (decide (i = j)) as [->|Hij].
    - rewrite list_lookup_alter in Ho. destruct (w_saddles w !! j) as [o0|] eqn:E; [|done]. injection Ho as <-.
      destruct (Hf o0) as [F1 F2]. destruct (K j o0 E) as [K1 K2]. split; [congruence|]. intros Hk c Hc. rewrite F1 in Hk.
      rewrite upd_kind by apply Hf. destruct (Hn o0 c eq_refl Hk Hc) as [H|[H|H]]; auto.
    - rewrite list_lookup_alter_ne in Ho by done. destruct (K j o Ho) as [K1 K2]. split; [done|]. intros Hk c Hc.
      rewrite upd_kind by apply Hf. auto.
  Qed.

  (** The children made from a border saddle. *)
  Lemma children_kin i f : forall rs w w' js, alloc_children i f rs w = (w', js) -> i < length (w_saddles w) ->
    js = seq (length (w_saddles w)) (length js) /\ length (w_saddles w') = length (w_saddles w) + length js /\
    (forall j, j < length (w_saddles w) -> sa_feat <$> w_saddles w' !! j = sa_feat <$> w_saddles w !! j) /\
    (forall j, j ∈ js -> kind_of w' j = Some KSaddle) /\
    forall X : nat -> Prop, kin w X ->
      ((exists pos e h c, New pos e h (Some c) ∈ rs) -> X i /\ kind_of w i = Some KSaddle /\ forall j, j ∈ js -> X j) -> kin w' X.
  Proof.
    induction rs as [|[f' dq|pos e h c] rs IH]; intros w w' js; cbn [alloc_children].
    - intros [= <- <-] _. cbn. split_and!; try done; try lia. by intros j ?%elem_of_nil.
    - intros H Hi. destruct (IH w w' js H Hi) as (A1 & A2 & A3 & A4 & A5). split_and!; try done.
      intros X K HX. apply A5; [done|]. intros (p & e & h & c & Hin). apply HX. exists p, e, h, c. by right.
    - destruct (alloc_saddle (new_saddle (piece f pos h)) w) as [w1 j] eqn:Ea. assert (w1 = (alloc_saddle (new_saddle (piece f pos h)) w).1) as Ew1 by (by rewrite Ea).
      assert (j = length (w_saddles w)) as -> by (unfold alloc_saddle in Ea; by injection Ea).
      set (w2 := match c with Some _ => _ | None => w1 end).
      destruct (alloc_children i f rs w2) as [w3 js'] eqn:Ec. intros [= <- <-] Hi.
      assert (length (w_saddles w1) = S (length (w_saddles w))) as L1 by (rewrite Ew1; unfold alloc_saddle; cbn; rewrite app_length; cbn; lia).
      assert (length (w_saddles w2) = S (length (w_saddles w))) as L2.
      { unfold w2. destruct c; [|done]. cbn. by rewrite !alter_length. }
      destruct (IH w2 w3 js' Ec) as (A1 & A2 & A3 & A4 & A5); [lia|]. rewrite L2 in *.
      assert (forall x, kind_of w2 x = kind_of w1 x) as Hk2.
      { intros x. unfold w2. destruct c; [|done]. by rewrite !upd_kind. }
      assert (kind_of w1 (length (w_saddles w)) = Some KSaddle) as Hk1 by (rewrite Ew1, alloc_kind, decide_True; done).
      assert (forall x, sa_feat <$> w_saddles w2 !! x = sa_feat <$> w_saddles w1 !! x) as Hf2.
      { intros x. unfold w2. destruct c; [|done]. cbn.
        destruct (decide (i = x)) as [->|]; [rewrite list_lookup_alter|rewrite list_lookup_alter_ne by done].
        all: destruct (decide (length (w_saddles w) = x)) as [->|]; [rewrite list_lookup_alter|rewrite list_lookup_alter_ne by done].
        all: by destruct (w_saddles w1 !! _). }
      split_and!.
      + cbn. by f_equal.
      + cbn. lia.
      + intros x Hx. rewrite A3 by lia. rewrite Hf2, Ew1, alloc_lookup, decide_False by lia. done.
      + intros x [->|Hx]%elem_of_cons; [|by apply A4]. assert (kind_of w2 (length (w_saddles w)) = Some KSaddle) as E by (rewrite Hk2; exact Hk1).
        unfold kind_of in E |- *. specialize (A3 (length (w_saddles w))). destruct (w_saddles w2 !! length (w_saddles w)); [|done].
        cbn in A3. destruct (w_saddles w3 !! length (w_saddles w)) as [o3|]; cbn in *; [|specialize (A3 ltac:(lia)); done].
        specialize (A3 ltac:(lia)). injection A3 as ->. exact E.
      + intros X K HX. assert (kin w1 X) as K1 by (rewrite Ew1; by apply alloc_kin).
        apply A5.
        * unfold w2. destruct c as [c|]; [|done].
          destruct HX as (X1 & X2 & X3); [exists pos, e, h, c; by left|].
          assert (kind_of w1 i = Some KSaddle) as Hki by (rewrite Ew1, alloc_kind, decide_False by lia; done).
          apply upd_kin; [done| |].
          -- intros o x Ho Hk Hx. cbn in Hx. destruct Hx as [Hx|Hx]; [|auto]. apply elem_of_app in Hx as [Hx| ->%elem_of_list_singleton]; [auto|].
             right. right. split; [apply X3; by left|]. by rewrite upd_kind.
          -- apply upd_kin; [done| |done]. intros o x Ho Hk [Hx|[= <-]]; [auto|]. right. right. done.
        * intros (p' & e' & h' & c' & Hin). destruct HX as (X1 & X2 & X3); [exists p', e', h', c'; by right|]. split; [done|].
          split; [by rewrite Hk2, Ew1, alloc_kind, decide_False by lia|]. intros x Hx. apply X3. by right.
  Qed.

  Lemma mapM_res_in {A B} (f : A -> res B) l rs r : mapM_res f l = Ok rs -> r ∈ rs -> exists a, f a = Ok r.
  Proof.
    revert rs. induction l as [|a l IH]; intros rs; cbn; [intros [= <-] H; by apply elem_of_nil in H|].
    destruct (f a) as [b|] eqn:E; [|done]. cbn. destruct (mapM_res f l) as [bs|]; [|done]. cbn. intros [= <-] [->|H]%elem_of_cons; eauto.
  Qed.
  Lemma generated_child f rs pos e h c : generate_child_saddles near m f = Ok rs -> New pos e h (Some c) ∈ rs -> ft_edge f = true.
  Proof.
    unfold generate_child_saddles. destruct (build_internal_tree near m (ft_hpn f)) as [ls|]; [|done]. cbn. intros H Hin.
    destruct (mapM_res_in _ _ _ _ H Hin) as [l Hl]. revert Hl. unfold child_saddle. destruct (vl_local l), (vl_remote l); try done.
    destruct (if decide _ then _ else _); [|done]. cbn. by destruct (ft_edge f).
  Qed.

  (** The saddles made from saddle [i]. *)
  Lemma synth_kin i w w' ks o : generate_synthetic_saddles fpath near m i w = Ok (w', ks) -> w_saddles w !! i = Some o ->
    (w' = w /\ ks = [i] /\ length (ft_hpn (sa_feat o)) < 2) \/
    (ks = seq (length (w_saddles w)) (length ks) /\ length (w_saddles w') = length (w_saddles w) + length ks /\
     (forall j, j < length (w_saddles w) -> sa_feat <$> w_saddles w' !! j = sa_feat <$> w_saddles w !! j) /\
     (forall j, j ∈ ks -> kind_of w' j = Some KSaddle) /\
     forall X : nat -> Prop, kin w X ->
       (ft_edge (sa_feat o) = true -> X i /\ kind_of w i = Some KSaddle /\ forall j, j ∈ ks -> X j) -> kin w' X).
  Proof.
    intros H Ho. unfold generate_synthetic_saddles in H. rewrite Ho in H.
    assert (forall f pos hpn, alloc_saddle (new_saddle (piece f pos hpn)) w = (w', length (w_saddles w)) ->
      [length (w_saddles w)] = seq (length (w_saddles w)) (length [length (w_saddles w)]) /\ length (w_saddles w') = length (w_saddles w) + length [length (w_saddles w)] /\
      (forall j, j < length (w_saddles w) -> sa_feat <$> w_saddles w' !! j = sa_feat <$> w_saddles w !! j) /\
      (forall j, j ∈ [length (w_saddles w)] -> kind_of w' j = Some KSaddle) /\
      forall X : nat -> Prop, kin w X -> (ft_edge (sa_feat o) = true -> X i /\ kind_of w i = Some KSaddle /\ forall j, j ∈ [length (w_saddles w)] -> X j) -> kin w' X) as Hone.
    { intros f pos hpn Ea. assert (w' = (alloc_saddle (new_saddle (piece f pos hpn)) w).1) as -> by (by rewrite Ea). split_and!.
      - done.
      - cbn. by rewrite app_length.
      - intros j Hj. rewrite alloc_lookup, decide_False by lia. done.
      - intros j ->%elem_of_list_singleton. by rewrite alloc_kind, decide_True.
      - intros X K _. by apply alloc_kin. }
    destruct (ft_hpn (sa_feat o)) as [|g0 [|g1 [|g2 gs]]].
    - injection H as <- <-. left. cbn. split_and!; try done. lia.
    - injection H as <- <-. left. cbn. split_and!; try done. lia.
    - right. destruct (ft_multi (sa_feat o)) as [|z zs].
      + destruct (highest g0) as [h0|]; [|done]. cbn in H. destruct (highest g1) as [h1|]; [|done]. cbn in H.
        injection H as <- <-. by apply (Hone (sa_feat o) (ft_pos (sa_feat o)) [h0; h1]).
      + destruct (hpn_shortest_path fpath m (sa_feat o)) as [[[a b] mid]|]; [|done]. cbn in H.
        destruct (as_pte a) as [a'|]; [|done]. cbn in H. destruct (as_pte b) as [b'|]; [|done]. cbn in H.
        injection H as <- <-. by apply (Hone (sa_feat o) mid.1 [[a']; [b']]).
    - right. destruct (generate_child_saddles near m (sa_feat o)) as [rs|] eqn:Er; [|done]. cbn in H. injection H as H.
      destruct (children_kin i (sa_feat o) rs w w' ks H) as (A1 & A2 & A3 & A4 & A5); [by eapply lookup_lt_Some|].
      split_and!; try done. intros X K HX. apply A5; [done|]. intros (pos & e & h & c & Hin). apply HX. by eapply generated_child.
  Qed.

  Definition same_feats (w w' : world) : Prop := forall j o, w_saddles w !! j = Some o -> sa_feat <$> w_saddles w' !! j = Some (sa_feat o).
  Lemma same_feats_trans w1 w2 w3 : same_feats w1 w2 -> same_feats w2 w3 -> same_feats w1 w3.
  Proof.
    intros A B j o Ho. specialize (A j o Ho). destruct (w_saddles w2 !! j) as [o2|] eqn:E; [|done]. injection A as <-. by apply B.
  Qed.
  Lemma view_feats w w' : same_view w w' -> same_feats w w'.
  Proof.
    intros H j o Ho. assert (same_view w' w) as H' by (by symmetry). destruct (view_lookup _ _ _ _ H' Ho) as (o' & -> & [= E _ _ _]). cbn. by rewrite E.
  Qed.
  Lemma upd_feats i f w : (forall o, sa_feat (f o) = sa_feat o) -> same_feats w (upd_saddle i f w).
  Proof.
    intros Hf j o Ho. cbn. destruct (decide (i = j)) as [->|]; [rewrite list_lookup_alter|rewrite list_lookup_alter_ne by done].
    all: rewrite Ho; cbn; by rewrite ?Hf.
  Qed.
  Lemma feats_kind w w' j k : same_feats w w' -> kind_of w j = Some k -> kind_of w' j = Some k.
  Proof.
    intros H. unfold kind_of. destruct (w_saddles w !! j) as [o|] eqn:E; [|done]. intros [= <-]. specialize (H j o E).
    destruct (w_saddles w' !! j); [|done]. cbn in *. injection H as ->. done.
  Qed.

  (** One edge saddle. *)
  Lemma edge_saddle_kin (X : nat -> Prop) i k s s' : edge_saddle m i k s = Ok s' -> kin (ws_world s) X ->
    (kind_of (ws_world s) i = Some KSaddle -> X k /\ kind_of (ws_world s) k = Some KSaddle) ->
    (kind_of (ws_world s) k = Some KSaddle -> X i /\ kind_of (ws_world s) i = Some KSaddle) ->
    kin (ws_world s') X /\ ws_feats s' = ws_feats s ++ [k] /\ same_feats (ws_world s) (ws_world s') /\
    length (w_saddles (ws_world s')) = length (w_saddles (ws_world s)) /\ forall j, kind_of (ws_world s') j = kind_of (ws_world s) j.
  Proof.
    unfold edge_saddle. destruct (hpn_of k s) as [hs|]; [|done]. cbn [rbind]. destruct (foldM _ hs s) as [s1|] eqn:E; [|done]. cbn [rbind].
    intros [= <-] K Hi Hk. destruct (foldM_quiet _ _ (link_edge_quiet true k) _ _ E) as [Q1 Q2].
    rewrite <-!(view_kind _ _ _ Q2) in Hi, Hk. apply (view_kin _ _ _ Q2) in K. cbn [ws_world ws_feats add_feat set_world]. rewrite Q1. split_and!.
    - apply (upd_kin i (set_over (Some true))); [done|intros o j _ _ [?|?]; auto|].
      apply (upd_kin i (fun o => set_children (sa_children o ++ [k]) o)); [done| |apply (upd_kin k (set_parent (Some i))); [done| |done]].
      + intros o j Ho Hko [Hj|Hj]; [|auto]. cbn in Hj. apply elem_of_app in Hj as [Hj| ->%elem_of_list_singleton]; [auto|].
        right. right. rewrite upd_kind by done. apply Hi. assert (kind_of (upd_saddle k (set_parent (Some i)) (ws_world s1)) i = Some KSaddle) as F.
        { unfold kind_of. rewrite Ho. cbn. by rewrite Hko. }
        by rewrite upd_kind in F.
      + intros o j Ho Hko [Hj|[= <-]]; [auto|]. right. right. apply Hk. unfold kind_of. rewrite Ho. cbn. by rewrite Hko.
    - done.
    - eapply same_feats_trans; [apply (view_feats _ _ Q2)|].
      apply (same_feats_trans _ (upd_saddle k (set_parent (Some i)) (ws_world s1))); [by apply upd_feats|].
      apply (same_feats_trans _ (upd_saddle i (fun o => set_children (sa_children o ++ [k]) o) (upd_saddle k (set_parent (Some i)) (ws_world s1))));
        by apply upd_feats.
    - cbn. rewrite !alter_length. by apply view_length.
    - intros j. rewrite !upd_kind by done. by apply view_kind.
  Qed.
  Lemma edge_saddles_kin (X : nat -> Prop) i ks : forall s s', foldM (edge_saddle m i) ks s = Ok s' -> kin (ws_world s) X ->
    (kind_of (ws_world s) i = Some KSaddle -> forall k, k ∈ ks -> X k /\ kind_of (ws_world s) k = Some KSaddle) ->
    (forall k, k ∈ ks -> kind_of (ws_world s) k = Some KSaddle -> X i /\ kind_of (ws_world s) i = Some KSaddle) ->
    kin (ws_world s') X /\ ws_feats s' = ws_feats s ++ ks /\ same_feats (ws_world s) (ws_world s') /\
    length (w_saddles (ws_world s')) = length (w_saddles (ws_world s)) /\ forall j, kind_of (ws_world s') j = kind_of (ws_world s) j.
  Proof.
    induction ks as [|k ks IH]; intros s s'; cbn.
    - intros [= <-] K _ _. rewrite app_nil_r. split_and!; try done. by intros j o ->.
    - destruct (edge_saddle m i k s) as [s1|] eqn:E; [|done]. cbn. intros H K Hi Hk.
      destruct (edge_saddle_kin X i k s s1 E K) as (A1 & A2 & A3 & A4 & A5).
      { intros F. apply Hi; [done|by left]. }
      { intros F. apply (Hk k); [by left|done]. }
      destruct (IH s1 s' H A1) as (B1 & B2 & B3 & B4 & B5).
      { rewrite A5. intros F k' Hk'. rewrite A5. apply Hi; [done|by right]. }
      { intros k' Hk'. rewrite !A5. apply Hk. by right. }
      split_and!; [done|rewrite B2, A2, <-app_assoc; done|by eapply same_feats_trans|congruence|]. intros j. by rewrite B5.
  Qed.

  Lemma synthetics_kin ks : forall s s', foldM (walk_synthetic near m) ks s = Ok s' ->
    ws_feats s' = ws_feats s ++ ks /\ same_view (ws_world s) (ws_world s').
  Proof.
    induction ks as [|k ks IH]; intros s s'; cbn.
    - intros [= <-]. rewrite app_nil_r. done.
    - destruct (walk_synthetic near m k s) as [s1|] eqn:E; [|done]. cbn. intros H. destruct (IH s1 s' H) as [B1 B2].
      unfold walk_synthetic in E. destruct (climb_edges near m k s) as [s2|] eqn:E2; [|done]. cbn in E.
      destruct (hpn_of k s2) as [hs|]; [|done]. cbn in E. destruct (foldM _ hs s2) as [s3|] eqn:E3; [|done]. cbn in E. injection E as <-.
      apply climb_quiet in E2. apply (foldM_quiet _ _ (link_edge_quiet false k)) in E3. destruct (quiet_trans _ _ _ E2 E3) as [Q1 Q2].
      cbn in B1, B2. split; [rewrite B1, Q1, <-app_assoc; done|]. by eapply same_view_trans.
  Qed.

  Lemma runoff_kind w j : is_runoff w j = true <-> kind_of w j = Some KRunoff.
  Proof.
    unfold is_runoff, kind_of. destruct (w_saddles w !! j) as [o|]; [|done]. cbn. rewrite bool_decide_eq_true. split; [by intros ->|congruence].
  Qed.
  Lemma runoff_feats w w' j : same_feats w w' -> j < length (w_saddles w) -> is_runoff w' j = is_runoff w j.
  Proof.
    intros H Hj. apply lookup_lt_is_Some in Hj as [o Ho]. specialize (H j o Ho). unfold is_runoff. rewrite Ho.
    destruct (w_saddles w' !! j); [|done]. injection H as ->. done.
  Qed.

  (** During the walk: [w] at its beginning, [pre] walked so far. *)
  Record kinv (w : world) (pre : list nat) (s : walk_state) : Prop := {
    k_kin : kin (ws_world s) (fun j => j ∈ ws_feats s);
    k_feats : same_feats w (ws_world s);
    k_len : length (w_saddles w) <= length (w_saddles (ws_world s));
    k_list : forall j, j ∈ ws_feats s -> j < length (w_saddles (ws_world s)) /\ (length (w_saddles w) <= j \/ j ∈ pre);
    k_new : forall j, length (w_saddles w) <= j -> j < length (w_saddles (ws_world s)) -> kind_of (ws_world s) j = Some KSaddle;
    k_once : NoDup (filter (fun j => is_runoff (ws_world s) j = false) (ws_feats s)) }.

  Lemma kinv_add w pre i s s' new : kinv w pre s -> i ∉ pre -> i < length (w_saddles w) ->
    ws_feats s' = ws_feats s ++ new ->
    (forall j, j ∈ new -> j < length (w_saddles (ws_world s')) /\ (j = i \/ length (w_saddles (ws_world s)) <= j)) ->
    same_feats (ws_world s) (ws_world s') -> length (w_saddles (ws_world s)) <= length (w_saddles (ws_world s')) ->
    (forall j, length (w_saddles (ws_world s)) <= j -> j < length (w_saddles (ws_world s')) -> kind_of (ws_world s') j = Some KSaddle) ->
    NoDup (filter (fun j => is_runoff (ws_world s') j = false) new) ->
    kin (ws_world s') (fun j => j ∈ ws_feats s ++ new) -> kinv w (pre ++ [i]) s'.
  Proof.
    intros [K1 K2 K3 K4 K5 K6] Hi Hlt Hfeats Hnew Hsame Hlen Hk Hnd Hkin. split.
    - by rewrite Hfeats.
    - by eapply same_feats_trans.
    - lia.
    - intros j. rewrite Hfeats, !elem_of_app, elem_of_list_singleton. intros [Hj|Hj].
      + destruct (K4 j Hj) as [? [?|?]]; split; try lia; auto.
      + destruct (Hnew j Hj) as [? [->|?]]; split; auto. left. lia.
    - intros j H1 H2. destruct (decide (j < length (w_saddles (ws_world s)))) as [H3|H3]; [|apply Hk; lia].
      apply (feats_kind (ws_world s)); [done|]. by apply K5.
    - rewrite Hfeats, filter_app. apply NoDup_app. split_and!; [| |done].
      + assert (filter (fun j => is_runoff (ws_world s') j = false) (ws_feats s) = filter (fun j => is_runoff (ws_world s) j = false) (ws_feats s)) as ->;
          [|done]. apply list_filter_iff'. intros j Hj. rewrite (runoff_feats (ws_world s)); [done|done|]. by apply K4.
      + intros j [_ Hj]%elem_of_list_filter [_ Hj']%elem_of_list_filter. destruct (K4 j Hj) as [H1 H2]. destruct (Hnew j Hj') as [_ [->|H3]]; [|lia].
        destruct H2; [lia|done].
  Qed.

  Lemma border_kin i k ks s s' : kind_of (ws_world s) i = Some k ->
    (let* s := foldM (edge_saddle m i) ks s in
     Ok (add_feat i (set_world (upd_saddle i (set_over (Some true)) (ws_world s)) s))) = Ok s' ->
    forall X : nat -> Prop, kin (ws_world s) X ->
    (k = KSaddle -> X i /\ forall k, k ∈ ks -> X k /\ kind_of (ws_world s) k = Some KSaddle) ->
    (k <> KSaddle -> forall k, k ∈ ks -> kind_of (ws_world s) k <> Some KSaddle) ->
    kin (ws_world s') X /\ ws_feats s' = ws_feats s ++ ks ++ [i] /\ same_feats (ws_world s) (ws_world s') /\
    length (w_saddles (ws_world s')) = length (w_saddles (ws_world s)) /\ forall j, kind_of (ws_world s') j = kind_of (ws_world s) j.
  Proof.
    intros Hk H X K H1 H2. destruct (foldM _ ks s) as [s1|] eqn:E; [|done]. cbn in H. injection H as <-.
    destruct (edge_saddles_kin X i ks s s1 E K) as (A1 & A2 & A3 & A4 & A5).
    - rewrite Hk. intros [= ->]. by apply H1.
    - intros c Hc Hkc. destruct (decide (k = KSaddle)) as [->|Hn]; [|by destruct (H2 Hn c Hc)]. split; [by destruct (H1 eq_refl)|done].
    - cbn [ws_world ws_feats add_feat set_world]. split_and!.
      + apply (upd_kin i (set_over (Some true))); [done|intros o j _ _ [?|?]; auto|done].
      + by rewrite A2, <-app_assoc.
      + eapply same_feats_trans; [exact A3|]. by apply upd_feats.
      + cbn. by rewrite alter_length.
      + intros j. by rewrite upd_kind.
  Qed.

  Lemma fresh_nodup w n0 ks (l : list nat) i : ks = seq n0 (length ks) -> i < n0 -> (forall j, j ∈ l -> j = i) -> NoDup l ->
    NoDup (filter (fun j => is_runoff w j = false) (ks ++ l)).
  Proof.
    intros E Hi Hl Hnd. apply NoDup_filter. apply NoDup_app. split_and!; [rewrite E; apply NoDup_seq| |done].
    intros j Hj Hj'. rewrite E in Hj. apply elem_of_seq in Hj. apply Hl in Hj'. lia.
  Qed.

  Lemma walk_one_kin w pre i s s' : kinv w pre s -> i ∉ pre -> walk_one fpath near m i s = Ok s' ->
    (exists o, w_saddles w !! i = Some o /\ (ft_kind (sa_feat o) = KSaddle -> ft_edge (sa_feat o) = true -> 2 <= length (ft_hpn (sa_feat o))) /\
       (ft_kind (sa_feat o) = KSaddle \/ (ft_kind (sa_feat o) = KRunoff /\ ft_edge (sa_feat o) = true))) ->
    kinv w (pre ++ [i]) s'.
  Proof.
    intros K Hi H (o & Ho & Hg & Hkind). pose proof (k_feats _ _ _ K i o Ho) as Hf. pose proof (lookup_lt_Some _ _ _ Ho) as Hlt.
    pose proof (k_len _ _ _ K) as Hle. unfold walk_one in H.
    destruct (w_saddles (ws_world s) !! i) as [o1|] eqn:Ho1; [|done]. injection Hf as Hf. rewrite Hf in H.
    destruct (ft_edge (sa_feat o)) eqn:He.
    - unfold walk_border in H. destruct (climb_edges near m i s) as [s1|] eqn:E1; [|done]. cbn [rbind] in H.
      apply climb_quiet in E1 as [Q1 Q2].
      destruct (w_saddles (ws_world s1) !! i) as [o2|] eqn:Ho2; [|done].
      assert (sa_feat o2 = sa_feat o) as Hf2.
      { pose proof (view_feats _ _ Q2 i o1 Ho1) as F. rewrite Ho2 in F. cbn in F. congruence. }
      rewrite Hf2 in H. assert (kin (ws_world s1) (fun j => j ∈ ws_feats s)) as K1 by (apply (view_kin _ _ _ Q2), K).
      assert (forall s2 X, quiet s1 s2 -> kind_of (ws_world s2) i = Some (ft_kind (sa_feat o)) /\ (kin (ws_world s1) X -> kin (ws_world s2) X) /\
        ws_feats s2 = ws_feats s /\ same_feats (ws_world s) (ws_world s2) /\ length (w_saddles (ws_world s2)) = length (w_saddles (ws_world s)) /\
        exists o3, w_saddles (ws_world s2) !! i = Some o3 /\ sa_feat o3 = sa_feat o) as Hq.
      { intros s2 X [R1 R2]. assert (same_view (ws_world s2) (ws_world s1)) as R2' by (by symmetry). split_and!.
        - rewrite (view_kind _ _ _ R2). unfold kind_of. rewrite Ho2. cbn. by rewrite Hf2.
        - intros K'. by eapply view_kin.
        - congruence.
        - eapply same_feats_trans; by apply view_feats.
        - rewrite (view_length _ _ R2). by apply view_length.
        - destruct (view_lookup _ _ _ _ R2' Ho2) as (o3 & Ho3 & [= V1 _ _ _]). exists o3. split; congruence. }
      destruct (decide (ft_kind (sa_feat o) = KRunoff)) as [Hk|Hk].
      + (* a runoff *)
        assert (forall s2, quiet s1 s2 ->
          (let* s := foldM (edge_saddle m i) [i] s2 in
           Ok (add_feat i (set_world (upd_saddle i (set_over (Some true)) (ws_world s)) s))) = Ok s' -> kinv w (pre ++ [i]) s') as Hrun.
        { intros s2 Hs2 E. destruct (Hq s2 (fun j => j ∈ ws_feats s ++ [i; i]) Hs2) as (H1 & H2 & H3 & H4 & H5 & _).
          destruct (border_kin i _ [i] s2 s' H1 E (fun j => j ∈ ws_feats s ++ [i; i])) as (B1 & B2 & B3 & B4 & B5).
          - apply H2. eapply kin_weaken; [|exact K1]. intros j Hj. apply elem_of_app. by left.
          - congruence.
          - intros _ c ->%elem_of_list_singleton. rewrite H1. congruence.
          - apply (kinv_add w pre i s s' [i; i]); try done.
            + by rewrite B2, H3.
            + intros j Hj. assert (j = i) as -> by (rewrite !elem_of_cons, elem_of_nil in Hj; tauto). split; [lia|auto].
            + by eapply same_feats_trans.
            + lia.
            + intros j J1 J2. lia.
            + rewrite !filter_cons. assert (is_runoff (ws_world s') i = true) as ->; [|rewrite decide_False by done; constructor].
              apply runoff_kind. by rewrite B5, H1, Hk. }
        destruct (decide (ft_hpn (sa_feat o) = [])) as [Hh|Hh].
        * destruct (latlong_to_xy m _ _) as [c|]; [|done]. cbn [rbind] in H. destruct (cs_table (ws_climb s1) !! c) as [d|].
          -- pose proof (link_quiet true d i s1) as Hs2. set (s2 := link_saddle m true d i s1) in *.
             destruct (Hq s2 (fun _ => True) Hs2) as (_ & _ & _ & _ & _ & o3 & Ho3 & Hf3).
             unfold generate_synthetic_saddles in H. rewrite Ho3, Hf3, Hh in H. cbn [rbind] in H.
             replace (set_world (ws_world s2) s2) with s2 in H by (by destruct s2). by apply (Hrun s2).
          -- injection H as <-. apply (kinv_add w pre i s _ [i]); try done.
             ++ cbn. by rewrite Q1.
             ++ intros j ->%elem_of_list_singleton. cbn. rewrite (view_length _ _ Q2). split; [lia|auto].
             ++ cbn. by apply view_feats.
             ++ cbn. by rewrite (view_length _ _ Q2).
             ++ intros j J1 J2. cbn in J2. rewrite (view_length _ _ Q2) in J2. lia.
             ++ rewrite filter_cons, filter_nil. destruct (decide _); [apply NoDup_singleton|constructor].
             ++ eapply kin_weaken; [|exact K1]. intros j Hj. apply elem_of_app. by left.
        * by apply (Hrun s1 (quiet_refl s1)).
      + (* a saddle *)
        destruct Hkind as [Hkind|[? _]]; [|done]. specialize (Hg Hkind eq_refl).
        destruct (Hq s1 (fun _ => True) (quiet_refl s1)) as (H1 & _ & H3 & H4 & H5 & _).
        destruct (generate_synthetic_saddles fpath near m i (ws_world s1)) as [[w2 ks]|] eqn:Es; [|done]. cbn [rbind] in H.
        destruct (synth_kin i _ _ _ _ Es Ho2) as [(_ & _ & F)|(F1 & F2 & F3 & F4 & F5)]; [rewrite Hf2 in F; lia|].
        rewrite Hf2 in F5. rewrite H1, Hkind, H5 in *.
        assert (kind_of w2 i = Some KSaddle) as Hki.
        { unfold kind_of in H1 |- *. specialize (F3 i ltac:(lia)). rewrite Ho2 in *. destruct (w_saddles w2 !! i); [|done]. cbn in *. congruence. }
        destruct (border_kin i KSaddle ks (set_world w2 s1) s' Hki H (fun j => j ∈ ws_feats s ++ ks ++ [i])) as (B1 & B2 & B3 & B4 & B5).
        * cbn. apply F5.
          -- eapply kin_weaken; [|exact K1]. intros j Hj. apply elem_of_app. by left.
          -- intros _. split; [rewrite !elem_of_app, elem_of_list_singleton; auto|]. split; [done|]. intros j Hj. rewrite !elem_of_app. auto.
        * intros _. split; [rewrite !elem_of_app, elem_of_list_singleton; auto|]. intros c Hc. split; [rewrite !elem_of_app; auto|]. by apply F4.
        * done.
        * cbn [ws_world ws_feats set_world] in *.
          assert (same_feats (ws_world s1) w2) as F3'.
          { intros j oj Hj. rewrite F3 by (rewrite <-H5; by eapply lookup_lt_Some). by rewrite Hj. }
          apply (kinv_add w pre i s s' (ks ++ [i])); try done.
          -- by rewrite B2, H3.
          -- intros j [Hj| ->%elem_of_list_singleton]%elem_of_app; [|split; [lia|auto]]. rewrite F1 in Hj. apply elem_of_seq in Hj. split; [lia|]. right. lia.
          -- eapply same_feats_trans; [exact H4|]. by eapply same_feats_trans.
          -- lia.
          -- intros j J1 J2. rewrite B5. apply F4. rewrite F1. apply elem_of_seq. lia.
          -- apply (fresh_nodup _ _ ks [i] i F1); [lia|by intros j ->%elem_of_list_singleton|apply NoDup_singleton].
    - (* off the border *)
      destruct (generate_synthetic_saddles fpath near m i (ws_world s)) as [[w2 ks]|] eqn:Es; [|done]. cbn [rbind] in H.
      apply synthetics_kin in H as [S1 S2]. cbn in S1, S2.
      destruct (synth_kin i _ _ _ _ Es Ho1) as [(-> & -> & F)|(F1 & F2 & F3 & F4 & F5)].
      + apply (kinv_add w pre i s s' [i]); try done.
        * intros j ->%elem_of_list_singleton. rewrite (view_length _ _ S2). split; [lia|auto].
        * by apply view_feats.
        * by rewrite (view_length _ _ S2).
        * intros j J1 J2. rewrite (view_length _ _ S2) in J2. lia.
        * rewrite filter_cons, filter_nil. destruct (decide _); [apply NoDup_singleton|constructor].
        * apply (view_kin _ _ _ S2). eapply kin_weaken; [|apply K]. intros j Hj. apply elem_of_app. by left.
      + assert (same_feats (ws_world s) w2) as F3'.
        { intros j oj Hj. rewrite F3 by (by eapply lookup_lt_Some). by rewrite Hj. }
        apply (kinv_add w pre i s s' ks); try done.
        * intros j Hj. rewrite F1 in Hj. apply elem_of_seq in Hj. rewrite (view_length _ _ S2). split; [lia|]. right. lia.
        * eapply same_feats_trans; [exact F3'|]. by apply view_feats.
        * rewrite (view_length _ _ S2). lia.
        * intros j J1 J2. rewrite (view_length _ _ S2) in J2. rewrite (view_kind _ _ _ S2). apply F4. rewrite F1. apply elem_of_seq. lia.
        * rewrite <-(app_nil_r ks). apply (fresh_nodup _ _ ks [] i F1); [lia|by intros j ?%elem_of_nil|constructor].
        * apply (view_kin _ _ _ S2). apply F5; [|rewrite Hf, He; done].
          eapply kin_weaken; [|apply K]. intros j Hj. apply elem_of_app. by left.
  Qed.

  Lemma init_view w summits s : walk_init m w summits = Ok s -> w_saddles (ws_world s) = w_saddles w /\ ws_feats s = [].
  Proof.
    unfold walk_init. set (f := fun i s => _). enough (forall l s s', foldM f l s = Ok s' ->
      w_saddles (ws_world s') = w_saddles (ws_world s) /\ ws_feats s' = ws_feats s) as H by (intros E; by apply H in E).
    clear s. intros l. induction l as [|i l IH]; intros s s'; cbn; [by intros [= <-]|].
    destruct (f i s) as [s1|] eqn:E; [|done]. cbn. intros H. apply IH in H as [-> ->]. unfold f in E.
    destruct (w_summits (ws_world s) !! i) as [su|]; [|done]. destruct (su_domain su); [by injection E as <-|].
    destruct (summit_cells m (su_feat su)); [|done]. cbn in E. by injection E as <-.
  Qed.

  (** The whole walk. *)
  Lemma walk_kin w summits feats s : climb_from_saddles fpath near m w summits feats = Ok s -> NoDup feats ->
    (forall i, i ∈ feats -> exists o, w_saddles w !! i = Some o /\
       (ft_kind (sa_feat o) = KSaddle -> ft_edge (sa_feat o) = true -> 2 <= length (ft_hpn (sa_feat o))) /\
       (ft_kind (sa_feat o) = KSaddle \/ (ft_kind (sa_feat o) = KRunoff /\ ft_edge (sa_feat o) = true))) ->
    (forall i o, w_saddles w !! i = Some o -> sa_alts o = [] /\ sa_children o = [] /\ sa_parent o = None) ->
    kinv w feats s.
  Proof.
    unfold climb_from_saddles. destruct (walk_init m w summits) as [s0|] eqn:E0; [|done]. cbn. intros H Hnd Hin Hbare.
    destruct (init_view _ _ _ E0) as [I1 I2].
    assert (kinv w [] s0) as K0.
    { split; rewrite ?I2, ?I1.
      - intros i o Ho. rewrite I1 in Ho. destruct (Hbare i o Ho) as (B1 & B2 & B3). split; [done|]. intros _ j. rewrite B2, B3. by intros [?%elem_of_nil|].
      - intros j o Ho. by rewrite I1, Ho.
      - done.
      - by intros j ?%elem_of_nil.
      - lia.
      - constructor. }
    enough (forall l pre s0, feats = pre ++ l -> kinv w pre s0 -> foldM (walk_one fpath near m) l s0 = Ok s -> kinv w feats s) as G
      by (by apply (G feats [] s0)).
    clear s0 E0 H I1 I2 K0. intros l. induction l as [|i l IH]; intros pre s0 E K H; cbn in H.
    - injection H as <-. by rewrite E, app_nil_r.
    - destruct (walk_one fpath near m i s0) as [s1|] eqn:E1; [|done]. cbn in H. apply (IH (pre ++ [i]) s1); [by rewrite <-app_assoc| |done].
      apply (walk_one_kin w pre i s0 s1 K); [|done|].
      + rewrite E in Hnd. apply NoDup_app in Hnd as (_ & Hd & _). intros Hi. apply (Hd i Hi). by left.
      + apply Hin. rewrite E. apply elem_of_app. right. by left.
  Qed.
End fam.
