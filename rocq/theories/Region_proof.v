(** Proofs about the exploration of a graph without closed chains. *)
From Verif Require Import Base_model Graph_model Divide_model Basin_model Graph_spec Basin_spec Search_proof Forest_proof
  Detect_proof Divide_spec Region_spec Divide_proof.
Local Open Scope Z_scope.

(** ** Chains in a graph without closed chains *)
Section forest.
  Context {A : Type} `{EqDecision A}.
  Variable R : A -> A -> Prop.
  Hypothesis Rsym : forall x y, R x y -> R y x.
  Hypothesis Hfor : forall c, ~ closed R c.

  Lemma last_in (l : list A) x : last l = Some x -> x ∈ l.
  Proof. intros [l' ->]%last_Some. apply elem_of_app. right. by left. Qed.

  (** The first member is joined to no other than the second. *)
  Lemma no_chord b l z : NoDup (b :: l) -> linked R (b :: l) -> z ∈ l -> R b z -> l !! 0%nat = Some z.
  Proof.
    intros Hnd Hl (l1 & l2 & ->)%elem_of_list_split Hbz. destruct l1 as [|y l1]; [done|]. exfalso.
    apply (Hfor (b :: (y :: l1) ++ [z])). split; [|split].
    - cbn. rewrite app_length. cbn. lia.
    - replace (b :: (y :: l1) ++ z :: l2) with ((b :: (y :: l1) ++ [z]) ++ l2) in Hnd by (cbn; by rewrite <-app_assoc).
      by apply NoDup_app in Hnd as (? & _).
    - replace (b :: (y :: l1) ++ z :: l2) with ((b :: (y :: l1) ++ [z]) ++ l2) in Hl by (cbn; by rewrite <-app_assoc).
      apply linked_app in Hl as [Hl _]. cbn [take]. rewrite app_comm_cons, <-app_assoc. apply linked_app_intro; [done|].
      apply linked_cons. split; [|by intros [|i] ? ? ? ?]. intros y' [= <-]. by apply Rsym.
  Qed.

  Lemma chain_rtc (P : A -> Prop) x l y : linked R (x :: l) -> last (x :: l) = Some y -> (forall z, z ∈ x :: l -> P z) ->
    rtc (fun a b => R a b /\ P a /\ P b) x y.
  Proof.
    revert x. induction l as [|z l IH]; intros x Hl Hlast HP; cbn in Hlast.
    - injection Hlast as ->. done.
    - apply linked_cons in Hl as [H1 H2]. eapply rtc_l; [|apply (IH z H2 Hlast)].
      + split; [by apply H1|]. split; apply HP; [by left|right; by left].
      + intros u Hu. apply HP. by right.
  Qed.

  (** Chains between the same ends are equal. *)
  Lemma unique_chain l : forall b l', NoDup (b :: l) -> linked R (b :: l) -> NoDup (b :: l') -> linked R (b :: l') ->
    last (b :: l) = last (b :: l') -> l = l'.
  Proof.
    induction l as [|x l IH]; intros b l' Hnd Hl Hnd' Hl' Hlast.
    - destruct l' as [|x' l']; [done|]. exfalso. apply NoDup_cons in Hnd' as [Hb _]. apply Hb. apply last_in.
      symmetry. exact Hlast.
    - destruct l' as [|x' l'].
      { exfalso. apply NoDup_cons in Hnd as [Hb _]. apply Hb. apply last_in. exact Hlast. }
      change (last (x :: l) = last (x' :: l')) in Hlast.
      apply linked_cons in Hl as [Hbx Hl]. apply linked_cons in Hl' as [Hbx' Hl'].
      specialize (Hbx x eq_refl). specialize (Hbx' x' eq_refl).
      apply NoDup_cons in Hnd as [Hb Hnd]. apply NoDup_cons in Hnd' as [Hb' Hnd'].
      destruct (decide (x = x')) as [<-|Hne]; [f_equal; by eapply IH|]. exfalso.
      destruct (last (x :: l)) as [m|] eqn:Em; [|by apply last_None in Em].
      assert (rtc (fun u v => R u v /\ u <> b /\ v <> b) x x') as HR.
      { etrans; [eapply (chain_rtc (fun u => u <> b)); [exact Hl|exact Em|by intros z Hz ->]|].
        apply rtc_sym'; [intros u v (? & ? & ?); split; [by apply Rsym|done]|].
        eapply (chain_rtc (fun u => u <> b)); [exact Hl'|by rewrite <-Hlast|by intros z Hz ->]. }
      apply rtc_chain in HR as (q & Hq & Hndq & Hlq).
      assert (forall u, u ∈ x :: q -> u <> b) as Hav.
      { intros u Hu. apply elem_of_list_lookup in Hu as [i Hi]. destruct i as [|i].
        - injection Hi as <-. intros ->. apply Hb. by left.
        - destruct (lookup_lt_is_Some_2 (x :: q) i) as [v Hv]; [apply lookup_lt_Some in Hi; lia|].
          apply (Hq i v u Hv Hi). }
      apply (Hfor (b :: x :: q)). split; [|split].
      + destruct q; [|cbn; lia]. cbn in Hlq. congruence.
      + constructor; [|done]. intros Hin. by apply (Hav b Hin).
      + cbn [take]. apply last_Some in Hlq as Hlq'. destruct Hlq' as [q' Eq'].
        rewrite Eq' in Hq |- *. cbn [app]. rewrite <-app_assoc. cbn [app].
        change (b :: q' ++ [x'; b]) with ((b :: q') ++ x' :: [b]). apply linked_app_intro.
        * change (linked R (b :: (q' ++ [x']))). apply linked_cons. split.
          -- intros y Hy. rewrite <-Eq' in Hy. injection Hy as <-. done.
          -- eapply linked_mono; [|exact Hq]. by intros u v [? _].
        * apply linked_cons. split; [|by intros [|i] ? ? ? ?]. intros y [= <-]. by apply Rsym.
  Qed.
End forest.

(** ** The graph *)

Section region.
  Variable m : datamap.
  Variable w : world.
  Hypothesis G : tree_graph w.
  Variable master : nat.
  Hypothesis Hmaster : open_ w (Sum master).

  Let Hown : own_links w := tg_own w G.

  (** Summit and saddle are joined, from either side. *)
  Definition side (n n' : node) : Prop :=
    match n, n' with
    | inr a, inl s | inl s, inr a => open_ w (Sum a) /\ open_ w (Sad s) /\ exists k, at_saddle w s k /\ joins w k a s
    | _, _ => False
    end.
  Lemma side_sym n n' : side n n' -> side n' n.
  Proof. by destruct n, n'. Qed.
  Lemma side_edge n n' : side n n' -> open_edge w n n'.
  Proof.
    assert (forall a s, open_ w (Sum a) -> open_ w (Sad s) -> (exists k, at_saddle w s k /\ joins w k a s) ->
      edge w (Sum a) (Sad s) /\ edge w (Sad s) (Sum a)) as H.
    { intros a s Ha Hs (k & Hk & Hj). split; cbn.
      - destruct (tg_sad w G s k Hs Hk) as (a' & Hj' & Hat). destruct (joins_det w _ _ _ _ _ Hj Hj') as [<- _].
        destruct (Hat Ha) as (su & Esu & Hin). unfold saddles_of. rewrite Esu. apply elem_of_list_omap. exists k. split; [done|].
        destruct Hj as (l & -> & _ & <- & _). done.
      - destruct Hk as (sa & Esa & Hin). unfold summits_of. rewrite Esa. apply elem_of_list_omap. exists k. split; [done|].
        destruct Hj as (l & -> & <- & _). done. }
    destruct n as [s|a], n' as [s'|a']; try done; intros (H1 & H2 & H3); split; try done; split; try done; by apply H.
  Qed.
  Lemma side_forest c : ~ closed side c.
  Proof. intros H. apply (tg_forest w G c). eapply closed_mono; [|exact H]. apply side_edge. Qed.

  Local Notation tp := (descent w master).
  Local Notation tp_nil := (descent_nil w master).
  Local Notation tp_step := (descent_step w master).

  Lemma tp_open p b ns : tp p b ns -> open_ w (Sum b).
  Proof. destruct 1 as [|p b ns k s j c _ Hh]; [done|]. by destruct Hh as (_ & _ & _ & _ & _ & _ & (su & E & E2) & _); exists su. Qed.
  Lemma tp_head p b ns : tp p b ns -> exists ns', ns = Sum b :: ns'.
  Proof. destruct 1; by eexists. Qed.
  Lemma tp_last p b ns : tp p b ns -> last ns = Some (Sum master).
  Proof.
    induction 1 as [|p b ns k s j c H IH]; [done|]. destruct (tp_head _ _ _ H) as [ns' ->]. exact IH.
  Qed.
  Lemma tp_nodes p b ns : tp p b ns -> forall n, n ∈ ns -> open_ w n.
  Proof.
    induction 1 as [|p b ns k s j c H IH Hh]; intros n; [by intros ->%elem_of_list_singleton|].
    destruct Hh as (_ & _ & H3 & _ & _ & _ & (su & E & E2) & _).
    intros [->|[->|?]%elem_of_cons]%elem_of_cons; [by exists su|done|auto].
  Qed.
  Lemma tp_nodup p b ns : tp p b ns -> NoDup ns.
  Proof.
    induction 1 as [|p b ns k s j c H IH Hh Hs Hc]; [apply NoDup_singleton|]. constructor; [|by constructor].
    rewrite elem_of_cons. by intros [|].
  Qed.
  Lemma live_open s : live_saddle w s false -> open_ w (Sad s).
  Proof. intros (sa & H1 & H2 & H3). by exists sa. Qed.
  Lemma tp_linked p b ns : tp p b ns -> linked side ns.
  Proof.
    induction 1 as [|p b ns k s j c H IH Hh Hs Hc]; [by intros [|i] ? ? ? ?|].
    pose proof (tp_open _ _ _ H) as Hb. pose proof (tp_open _ _ _ (tp_step _ _ _ _ _ _ _ H Hh Hs Hc)) as Hco.
    destruct Hh as (H1 & H2 & H3 & H4 & H5 & H6 & _). apply live_open in H3.
    destruct (tp_head _ _ _ H) as [ns' ->].
    apply linked_cons. split; [intros y [= <-]; split; [done|]; split; [done|]; by exists j|].
    apply linked_cons. split; [|done]. intros y [= <-]. split; [done|]. split; [done|]. exists k. split; [|done].
    by apply (tg_sum w G b k s).
  Qed.
  Lemma tp_leads p b ns : tp p b ns -> leads w master p b.
  Proof. induction 1; [constructor|]. by eapply leads_step. Qed.

  Lemma tp_links p b ns : tp p b ns -> forall p', tp p' b ns -> p = p'.
  Proof.
    induction 1 as [|p b ns k s j c H IH Hh Hs Hc]; intros p' H'.
    - by inversion H'.
    - inversion H' as [E|p1 b1 ns1 k1 s1 j1 c1 H1 Hh1 Hs1 Hc1]; simplify_eq.
      assert (b1 = b) as ->. { destruct (tp_head _ _ _ H1), (tp_head _ _ _ H). congruence. }
      pose proof (tp_open _ _ _ H) as Hb.
      destruct Hh as (A1 & A2 & A3 & A4 & A5 & A6 & _), Hh1 as (B1 & B2 & _ & B4 & B5 & B6 & _). apply live_open in A3.
      f_equal; [by apply IH|]. f_equal; [|f_equal].
      + apply (tg_one w G s k k1 b); try done; by apply (tg_sum w G b).
      + by apply (tg_one w G s j j1 c).
  Qed.
  Lemma tp_unique p b ns p' ns' : tp p b ns -> tp p' b ns' -> p = p' /\ ns = ns'.
  Proof.
    intros H H'. assert (ns = ns') as <-.
    { destruct (tp_head _ _ _ H) as [n E], (tp_head _ _ _ H') as [n' E']. rewrite E, E'. f_equal.
      apply (unique_chain side side_sym side_forest n (Sum b) n'); rewrite <-?E, <-?E'.
      - by eapply tp_nodup.
      - by eapply tp_linked.
      - by eapply tp_nodup.
      - by eapply tp_linked.
      - by rewrite (tp_last _ _ _ H), (tp_last _ _ _ H'). }
    split; [|done]. by eapply tp_links.
  Qed.

  (** Link [k] is listed by a summit to which an extension of [p] leads. *)
  Definition under (p : list nat) (k : nat) : Prop :=
    exists r b ns s, tp (p ++ r) b ns /\ at_summit w b k /\ joins w k b s.
  Definition ending (b k s : nat) : Prop := border_at w b k s \/ divide_at w b k s.

  Lemma under_short q r k : under (q ++ r) k -> under q k.
  Proof. intros (r' & b & ns & s & H1 & H2). exists (r ++ r'), b, ns, s. by rewrite app_assoc. Qed.
  (** The path of a link is determined. *)
  Lemma under_is p k b ns s : under p k -> forall q, tp q b ns -> joins w k b s -> exists r, q = p ++ r.
  Proof.
    intros (r & b' & ns' & s' & H1 & H2 & H3) q Hq Hj. destruct (joins_det w _ _ _ _ _ H3 Hj) as [-> _].
    destruct (tp_unique _ _ _ _ _ H1 Hq) as [<- _]. by exists r.
  Qed.
  (** A link met by the way back. *)
  Lemma joint p b ns s c : tp p b ns -> side (Sum b) (Sad s) -> side (Sad s) (Sum c) -> Sad s ∉ ns -> c <> b -> Sum c ∉ ns.
  Proof.
    intros H H1 H2 Hs Hne Hc. pose proof (tp_nodup _ _ _ H) as Hnd. pose proof (tp_linked _ _ _ H) as Hl.
    destruct (tp_head _ _ _ H) as [ns' ->].
    assert (l0 : (Sum b :: ns') !! 0%nat = Some (Sum c)).
    { apply (no_chord side side_sym side_forest (Sad s)).
      - by constructor.
      - apply linked_cons. split; [|done]. intros y [= <-]. by apply side_sym.
      - done.
      - done. }
    cbn in l0. congruence.
  Qed.
  (** An open summit across a saddle off the path is reached by the path through it. *)
  Lemma across p b ns s c q ns' : tp p b ns -> side (Sum b) (Sad s) -> side (Sad s) (Sum c) -> Sad s ∉ ns -> c <> b ->
    tp q c ns' -> exists k j, hop w b k s j c /\ q = p ++ [k; j].
  Proof.
    intros H H1 H2 Hs Hne Hq. pose proof (joint _ _ _ _ _ H H1 H2 Hs Hne) as Hc.
    pose proof (tp_nodup _ _ _ H) as Hnd. pose proof (tp_linked _ _ _ H) as Hl.
    assert (ns' = Sum c :: Sad s :: ns) as ->.
    { destruct (tp_head _ _ _ Hq) as [n' E']. rewrite E'. f_equal.
      apply (unique_chain side side_sym side_forest n' (Sum c)); rewrite <-?E'.
      - by eapply tp_nodup.
      - by eapply tp_linked.
      - constructor; [rewrite elem_of_cons; by intros [|]|by constructor].
      - apply linked_cons. split; [intros y [= <-]; by apply side_sym|]. apply linked_cons. split; [|done].
        destruct (tp_head _ _ _ H) as [n ->]. intros y [= <-]. by apply side_sym.
      - rewrite (tp_last _ _ _ Hq). destruct (tp_head _ _ _ H) as [n E]. rewrite E.
        change (Some (Sum master) = last (Sum b :: n)). rewrite <-E. symmetry. by eapply tp_last. }
    inversion Hq as [E|p1 b1 ns1 k1 s1 j1 c1 Hp1 Hh1 Hs1 Hc1]; simplify_eq.
    assert (b1 = b) as ->. { destruct (tp_head _ _ _ Hp1), (tp_head _ _ _ H). congruence. }
    exists k1, j1. split; [done|]. f_equal. by eapply tp_links.
  Qed.

  (** ** What a call reports *)

  Lemma next_busted rec me be path k l t j : (forall b p t, lp_busted (rec b p t) = [] -> lp_busted t = []) ->
    lp_busted (next_step m w rec me be path k l t j) = [] -> lp_busted t = [].
  Proof.
    intros Hrec. unfold next_step. destruct (w_links w !! j) as [n|]; [|done]. destruct (decide _); [done|].
    destruct (ln_disq l); [done|]. destruct (w_summits w !! ln_summit n) as [su|]; [|done].
    destruct (_ && _); [done|]. destruct (_ <=? _); [apply Hrec|done].
  Qed.
  Lemma link_busted rec me be path t k : (forall b p t, lp_busted (rec b p t) = [] -> lp_busted t = []) ->
    lp_busted (link_step m w rec me be path t k) = [] -> lp_busted t = [].
  Proof.
    intros Hrec. unfold link_step. destruct (w_links w !! k) as [l|]; [|done]. destruct (ln_disq l); [done|].
    destruct (decide _); [done|]. destruct (w_saddles w !! ln_saddle l) as [sa|]; [|done].
    destruct (disqualified sa); [done|]. destruct (ft_edge _); [done|]. set (js := linkers_to_summits_connected_via_saddle _ _ _ _).
    change (lp_busted t) with (lp_busted (lp_mark k t)). generalize (lp_mark k t) as t1.
    induction js as [|j js IH]; intros t1; [done|]. cbn. intros H. apply IH in H. by eapply next_busted.
  Qed.
  Lemma chaser_busted room b p t : lp_busted (branch_chaser m w room master b p t) = [] -> lp_busted t = [].
  Proof. apply (chaser_complete m w Hown master room b p t). Qed.

  (** The saddle on the way leads back. *)
  Lemma way_back p b ns k s j : tp p b ns -> at_summit w b k -> joins w k b s -> open_ w (Sad s) -> Sad s ∈ ns ->
    at_saddle w s j -> j <> k -> exists p' k', p = p' ++ [j; k'].
  Proof.
    intros H Hk Hj Hs Hin Hjs Hne. pose proof (tp_open _ _ _ H) as Hb.
    assert (at_saddle w s k) as Hks by by apply (tg_sum w G b k s).
    assert (side (Sum b) (Sad s)) as Hside by (split; [done|]; split; [done|]; by exists k).
    destruct H as [|p b0 ns k0 s0 j0 b H Hh Hs0 Hb0].
    { apply elem_of_list_singleton in Hin. done. }
    exists p, j0. f_equal. f_equal.
    pose proof (tp_step _ _ _ _ _ _ _ H Hh Hs0 Hb0) as H'.
    assert ((Sad s0 :: ns) !! 0%nat = Some (Sad s)) as E.
    { apply (no_chord side side_sym side_forest (Sum b)); [by eapply tp_nodup|by eapply tp_linked| |done].
      apply elem_of_cons in Hin as [|Hin]; done. }
    injection E as <-. destruct Hh as (A1 & A2 & A3 & A4 & A5 & A6 & _).
    assert (at_saddle w s0 k0) as A1' by (apply (tg_sum w G b0); [by eapply tp_open|done|done|done]).
    assert (j0 = k) as -> by by apply (tg_one w G s0 j0 k b).
    (* at most two links *)
    destruct Hs as (sa & Esa & Hq & He). pose proof (tg_two w G s0 sa ltac:(by exists sa) Esa) as H2.
    destruct A1' as (sa1 & E1 & I1), Hks as (sa2 & E2 & I2), Hjs as (sa3 & E3 & I3).
    assert (sa1 = sa) as -> by congruence. assert (sa2 = sa) as -> by congruence. assert (sa3 = sa) as -> by congruence.
    destruct (sa_links sa) as [|x [|y [|z l]]]; cbn in H2; try lia; repeat (rewrite elem_of_cons in *); rewrite ?elem_of_nil in *; naive_solver.
  Qed.

  Lemma tp_even p b ns : tp p b ns -> exists n, length p = (n + n)%nat.
  Proof.
    induction 1 as [|p b ns k s j c _ (n & E)]; [by exists 0%nat|]. exists (S n). rewrite app_length, E. cbn. lia.
  Qed.
  (** The first step of an extension. *)
  Lemma tp_split p b ns q c ns' : tp p b ns -> tp q c ns' -> forall r, q = p ++ r ->
    (r = [] /\ c = b /\ ns' = ns) \/
    exists k j r' s d, r = k :: j :: r' /\ hop w b k s j d /\ Sad s ∉ ns /\ Sum d ∉ ns.
  Proof.
    intros H Hq. pose proof Hq as Hq0. induction Hq as [|q b1 ns1 k s j c Hq IH Hh Hs Hc]; intros r E.
    - symmetry in E. apply app_nil in E as [-> ->]. left. inversion H as [|p1 b2 ns2 k2 s2 j2 c2 _ _ _ _ E1]; simplify_eq; [done|].
      by destruct p1.
    - destruct (tp_even _ _ _ H) as [n1 E1]. destruct (tp_even _ _ _ Hq) as [n2 E2].
      assert (r = [] \/ exists x, r = [x] \/ exists r1 x y, r = r1 ++ [x; y]) as Hr.
      { destruct r as [|z r _] using rev_ind; [by left|]. right. exists z. destruct r as [|z' r _] using rev_ind; [by left|].
        right. exists r, z', z. by rewrite <-app_assoc. }
      destruct Hr as [->|(x & [->|(r1 & y & z & ->)])].
      + left. rewrite app_nil_r in E. subst p. split; [done|]. 
        assert (exists n, Sum c :: Sad s :: ns1 = Sum c :: n) as _ by eauto.
        inversion H as [E3|p3 b3 ns3 k3 s3 j3 c3 H3 Hh3 Hs3 Hc3 E3]; [by destruct q|]. subst c3 ns.
        apply app_inj_2 in E3 as [-> [= -> ->]]; [|done].
        destruct Hh as (_ & A2 & _ & _ & _ & A6 & _), Hh3 as (_ & B2 & _ & _ & _ & B6 & _).
        destruct (joins_det w _ _ _ _ _ A2 B2) as [-> ->]. destruct (joins_det w _ _ _ _ _ A6 B6) as [-> _].
        split; [done|]. by destruct (tp_unique _ _ _ _ _ Hq H3) as [_ ->].
      + exfalso. apply (f_equal length) in E. rewrite !app_length in E. cbn in E. lia.
      + rewrite app_assoc in E. apply app_inj_2 in E as [-> [= -> ->]]; [|done]. right.
        destruct (IH Hq r1 eq_refl) as [(-> & -> & ->)|(k0 & j0 & r' & s0 & d & -> & ? & ? & ?)].
        * exists y, z, [], s, c. done.
        * exists k0, j0, (r' ++ [y; z]), s0, d. done.
  Qed.

  Record pre (p : list nat) (t : lpr) : Prop := {
    pr_known : forall k, k ∈ lp_exempt t -> under [] k;
    pr_fresh : forall k, under p k -> k ∉ lp_exempt t;
    pr_back : forall q k j, p = q ++ [k; j] -> k ∈ lp_exempt t }.
  Record post (p : list nat) (t t' : lpr) : Prop := {
    po_keep : forall k, k ∈ lp_exempt t -> k ∈ lp_exempt t';
    po_new : forall k, k ∈ lp_exempt t' -> k ∈ lp_exempt t \/ under p k;
    po_grow : forall x, x ∈ lp_paths t -> x ∈ lp_paths t';
    po_all : forall r b ns k s, tp (p ++ r) b ns -> at_summit w b k -> joins w k b s -> Sad s ∉ ns -> ending b k s ->
      ((p ++ r) ++ [k], s) ∈ lp_paths t';
    po_only : forall q s, (q, s) ∈ lp_paths t' -> (q, s) ∈ lp_paths t \/ way_out w master q s }.

  Lemma chaser_reports room : forall b p ns t, tp p b ns -> pre p t ->
    lp_busted (branch_chaser m w room master b p t) = [] -> post p t (branch_chaser m w room master b p t).
  Proof.
    induction room as [|room IH]; intros b p ns t Hp Hpre Hbust.
    { exfalso. cbn in Hbust. unfold lp_bust in Hbust. destruct (existsb _ _) eqn:Ex.
      - rewrite Hbust in Ex. done.
      - cbn in Hbust. by destruct (lp_busted t). }
    cbn [branch_chaser] in *. pose proof (tp_open _ _ _ Hp) as Hb. destruct Hb as (bo & Ebo & Hbe) eqn:Eb. clear Eb.
    rewrite Ebo in *. set (f := link_step _ _ _ _ _ _) in *.
    pose proof (tg_once w G b bo Hb Ebo) as Hnd.
    (* the links of [b] in order *)
    set (inv := fun (ls : list nat) (t' : lpr) => lp_busted t' = [] ->
      (forall k, k ∈ lp_exempt t -> k ∈ lp_exempt t') /\
      (forall k, k ∈ lp_exempt t' -> k ∈ lp_exempt t \/ (k ∈ ls /\ exists s, joins w k b s) \/
         exists k0 j0, k0 ∈ ls /\ under (p ++ [k0; j0]) k) /\
      (forall x, x ∈ lp_paths t -> x ∈ lp_paths t') /\
      (forall k s, k ∈ ls -> joins w k b s -> Sad s ∉ ns -> ending b k s -> (p ++ [k], s) ∈ lp_paths t') /\
      (forall k0 j0 r c ns' k s, k0 ∈ ls -> tp (p ++ k0 :: j0 :: r) c ns' -> at_summit w c k -> joins w k c s -> Sad s ∉ ns' ->
         ending c k s -> ((p ++ k0 :: j0 :: r) ++ [k], s) ∈ lp_paths t') /\
      (forall q s, (q, s) ∈ lp_paths t' -> (q, s) ∈ lp_paths t \/ way_out w master q s)).
    assert (forall ls ls' t', su_links bo = ls ++ ls' -> inv ls t' -> lp_busted (foldl f t' ls') = [] -> inv (su_links bo) (foldl f t' ls')) as Hloop.
    { intros ls ls'. revert ls. induction ls' as [|k ls' IHl]; intros ls t1 E Hinv Hb'.
      { rewrite app_nil_r in E. by rewrite E. }
      cbn in *. apply (IHl (ls ++ [k])); [by rewrite <-app_assoc| |done]. clear IHl Hb'.
      intros Hbust1. assert (lp_busted t1 = []) as Hb1.
      { eapply link_busted; [|exact Hbust1]. intros. by eapply chaser_busted. }
      destruct (Hinv Hb1) as (I1 & I2 & I3 & I4 & I5 & I6). clear Hinv.
      assert (k ∈ su_links bo) as Hk. { rewrite E. apply elem_of_app. right. by left. }
      assert (forall x, x ∈ ls -> at_summit w b x) as Hls.
      { intros x Hx. exists bo. split; [done|]. rewrite E. apply elem_of_app. by left. }
      assert (k ∉ ls) as Hkls.
      { rewrite E in Hnd. apply NoDup_app in Hnd as (_ & Hd & _). intros Hin. apply (Hd k Hin). by left. }
      assert (at_summit w b k) as Hat by by exists bo.
      destruct (proj1 Hown _ _ _ Ebo Hk) as (l & El & Hsu).
      (* it is enough to look at link [k] *)
      assert (forall tm, lp_paths tm = lp_paths t1 -> (forall x, x ∈ lp_exempt t1 -> x ∈ lp_exempt tm) ->
        (forall x, x ∈ lp_exempt tm -> x ∈ lp_exempt t1 \/ (x = k /\ exists s, joins w k b s)) -> forall t2,
        (forall x, x ∈ lp_exempt tm -> x ∈ lp_exempt t2) ->
        (forall x, x ∈ lp_exempt t2 -> x ∈ lp_exempt tm \/ exists j0, under (p ++ [k; j0]) x) ->
        (forall x, x ∈ lp_paths t1 -> x ∈ lp_paths t2) ->
        (forall s, joins w k b s -> Sad s ∉ ns -> ending b k s -> (p ++ [k], s) ∈ lp_paths t2) ->
        (forall j0 r c ns' k' s', tp (p ++ k :: j0 :: r) c ns' -> at_summit w c k' -> joins w k' c s' -> Sad s' ∉ ns' ->
          ending c k' s' -> ((p ++ k :: j0 :: r) ++ [k'], s') ∈ lp_paths t2) ->
        (forall q s, (q, s) ∈ lp_paths t2 -> (q, s) ∈ lp_paths t1 \/ way_out w master q s) ->
        (forall k, k ∈ lp_exempt t -> k ∈ lp_exempt t2) /\
        (forall x, x ∈ lp_exempt t2 -> x ∈ lp_exempt t \/ (x ∈ ls ++ [k] /\ exists s, joins w x b s) \/
          exists k0 j0, k0 ∈ ls ++ [k] /\ under (p ++ [k0; j0]) x) /\
        (forall x, x ∈ lp_paths t -> x ∈ lp_paths t2) /\
        (forall x s, x ∈ ls ++ [k] -> joins w x b s -> Sad s ∉ ns -> ending b x s -> (p ++ [x], s) ∈ lp_paths t2) /\
        (forall k0 j0 r c ns' x s, k0 ∈ ls ++ [k] -> tp (p ++ k0 :: j0 :: r) c ns' -> at_summit w c x -> joins w x c s -> Sad s ∉ ns' ->
          ending c x s -> ((p ++ k0 :: j0 :: r) ++ [x], s) ∈ lp_paths t2) /\
        (forall q s, (q, s) ∈ lp_paths t2 -> (q, s) ∈ lp_paths t \/ way_out w master q s)) as Hone.
      { intros tm Em M1 M2 t2 K N P R D O. split_and!.
        - auto.
        - intros x Hx. destruct (N x Hx) as [Hx1|(j0 & Hu)].
          + destruct (M2 x Hx1) as [Hx2|(-> & Hj)].
            * destruct (I2 x Hx2) as [?|[(? & ?)|(k0 & j0 & ? & ?)]]; [by left| |].
              -- right; left. split; [|done]. apply elem_of_app. by left.
              -- right; right. exists k0, j0. split; [|done]. apply elem_of_app. by left.
            * right; left. split; [|done]. apply elem_of_app. right. by left.
          + right; right. exists k, j0. split; [|done]. apply elem_of_app. right. by left.
        - auto.
        - intros x s [Hx|Hx]%elem_of_app Hj Hs He; [by apply P, I4|]. apply elem_of_list_singleton in Hx as ->. by apply R.
        - intros k0 j0 r c ns' x s [Hx|Hx]%elem_of_app H1 H2 H3 H4 H5; [by apply P; eapply I5|].
          apply elem_of_list_singleton in Hx as ->. by eapply D.
        - intros q s Hq. destruct (O q s Hq) as [Hq'|?]; [by apply I6|by right]. }
      assert (forall j0 r c ns', tp (p ++ k :: j0 :: r) c ns' -> exists s d, hop w b k s j0 d /\ Sad s ∉ ns /\ Sum d ∉ ns) as Hfirst.
      { intros j0 r c ns' Htp. destruct (tp_split _ _ _ _ _ _ Hp Htp _ eq_refl) as [[? _]|(k1 & j1 & r' & s & d & [= <- <- <-] & ? & ? & ?)]; [done|].
        by exists s, d. }
      destruct (ln_disq l) eqn:Ed.
      { (* a disqualified link *)
        assert (forall a s, ~ joins w k a s) as Hno by (intros a s (l' & E' & _ & _ & Hd); congruence).
        assert (f t1 k = t1) as -> by (unfold f, link_step; by rewrite El, Ed).
        apply (Hone t1); try done; auto.
        - intros s Hj. by destruct (Hno _ _ Hj).
        - intros j0 r c ns' k' s' Htp. destruct (Hfirst _ _ _ _ Htp) as (s & d & (_ & Hj & _) & _). by destruct (Hno _ _ Hj). }
      assert (joins w k b (ln_saddle l)) as Hj by by exists l.
      set (s := ln_saddle l) in *.
      assert (forall k0 j0, under (p ++ [k0; j0]) k -> False) as Hlong.
      { intros k0 j0 Hu. destruct (under_is _ _ _ _ _ Hu _ Hp Hj) as [r Er]. apply (f_equal length) in Er.
        rewrite !app_length in Er. cbn in Er. lia. }
      assert (k ∉ lp_exempt t1) as Hkt.
      { intros Hin. destruct (I2 k Hin) as [Hx|[(Hx & _)|(k0 & j0 & _ & Hu)]]; [|done|by eapply Hlong].
        apply (pr_fresh _ _ Hpre k); [|done]. exists [], b, ns, s. by rewrite app_nil_r. }
      unfold f, link_step in Hbust1 |- *. rewrite El, Ed in *. rewrite decide_False in * by done. fold s in Hbust1 |- *.
      set (tm := lp_mark k t1) in *.
      assert (lp_paths tm = lp_paths t1) as Em by done.
      assert (forall x, x ∈ lp_exempt t1 -> x ∈ lp_exempt tm) as M1 by (intros x Hx; cbn; apply elem_of_app; by left).
      assert (k ∈ lp_exempt tm) as Mk by (cbn; apply elem_of_app; right; by left).
      assert (forall x, x ∈ lp_exempt tm -> x ∈ lp_exempt t1 \/ (x = k /\ exists s, joins w k b s)) as M2.
      { intros x [Hx|Hx]%elem_of_app; [by left|]. apply elem_of_list_singleton in Hx as ->. right. by split; [|exists s]. }
      specialize (Hone tm Em M1 M2).
      destruct (w_saddles w !! s) as [sa|] eqn:Esa.
      2: { apply Hone; try done; auto.
           - intros s' Hj' _ Hend. destruct (joins_det w _ _ _ _ _ Hj Hj') as [_ <-].
             destruct Hend as [[(o & Ho & _)|((o & Ho & _) & _)]|((o & Ho & _) & _)]; congruence.
           - intros j0 r c ns' k' s' Htp. destruct (Hfirst _ _ _ _ Htp) as (s1 & d & (_ & Hj' & (o & Ho & _) & _) & _).
             destruct (joins_det w _ _ _ _ _ Hj Hj') as [_ <-]. congruence. }
      destruct (disqualified sa) eqn:Edq.
      { apply Hone; try done; auto.
        - intros s' Hj' _ Hend. destruct (joins_det w _ _ _ _ _ Hj Hj') as [_ <-].
          destruct Hend as [[(o & Ho & Hq & _)|((o & Ho & Hq & _) & _)]|((o & Ho & Hq & _) & _)]; congruence.
        - intros j0 r c ns' k' s' Htp. destruct (Hfirst _ _ _ _ Htp) as (s1 & d & (_ & Hj' & (o & Ho & Hq & _) & _) & _).
          destruct (joins_det w _ _ _ _ _ Hj Hj') as [_ <-]. congruence. }
      destruct (ft_edge (sa_feat sa)) eqn:Ee.
      { apply Hone; try done; auto.
        - intros x Hx. cbn. apply elem_of_app. by left.
        - intros s' Hj' _ _. destruct (joins_det w _ _ _ _ _ Hj Hj') as [_ <-]. cbn. apply elem_of_app. right. by left.
        - intros j0 r c ns' k' s' Htp. destruct (Hfirst _ _ _ _ Htp) as (s1 & d & (_ & Hj' & (o & Ho & Hq & Hq') & _) & _).
          destruct (joins_det w _ _ _ _ _ Hj Hj') as [_ <-]. congruence.
        - intros q s' [Hq|Hq]%elem_of_app; [by left|]. apply elem_of_list_singleton in Hq as [= -> ->]. right.
          exists p, b, ns, k. split; [done|]. split; [done|]. split; [done|]. split; [done|]. split; [|left; left; by exists sa].
          intros Hin. destruct (tp_nodes _ _ _ Hp _ Hin) as (o & Ho & _ & Hq'). congruence. }
      assert (open_ w (Sad s)) as Hs by by exists sa.
      assert (at_saddle w s k) as Hks by by apply (tg_sum w G b k s).
      set (js := linkers_to_summits_connected_via_saddle w true true k) in *.
      assert (forall j, j ∈ js <-> at_saddle w s j /\ j <> k /\ exists c, joins w j c s) as Hjs.
      { intros j. unfold js. rewrite (others_spec w Hown k l j El). fold s. split.
        - intros (H1 & H2 & n & H3 & H4 & H5). split; [done|]. split; [done|]. exists (ln_summit n), n. done.
        - intros (H1 & H2 & c & n & H3 & H4 & H5 & H6). split; [done|]. split; [done|]. by exists n. }
      assert ((length js <= 1)%nat) as Hlen.
      { pose proof (tg_two w G s sa Hs Esa) as H2. unfold js, linkers_to_summits_connected_via_saddle, saddle_links.
        rewrite El. fold s. rewrite Esa. destruct Hks as (sa' & E' & Hin). assert (sa' = sa) as -> by congruence.
        match goal with |- (length ?L <= 1)%nat => assert (length L < length (sa_links sa))%nat as Hlt; [|lia] end.
        apply (filter_length_lt _ _ k Hin). unfold help_exclude_self. rewrite Nat.eqb_refl. cbn. by rewrite andb_false_r. }
      assert (forall s' j0 d, hop w b k s' j0 d -> s' = s /\ j0 ∈ js) as Hhop.
      { intros s' j0 d (_ & Hj' & _ & A4 & A5 & A6 & _). destruct (joins_det w _ _ _ _ _ Hj Hj') as [_ <-]. split; [done|].
        apply Hjs. split; [done|]. split; [done|]. by exists d. }
      assert (forall s', joins w k b s' -> ending b k s' -> s' = s /\ exists j0 c, j0 ∈ js /\ joins w j0 c s /\
        ((summit_on_border w c true /\ not_higher w c b) \/ higher w c b)) as Hend.
      { intros s' Hj' Hend. destruct (joins_det w _ _ _ _ _ Hj Hj') as [_ <-]. split; [done|].
        destruct Hend as [[(o & Ho & _ & Hq)|(_ & j0 & c & A1 & A2 & A3 & A4)]|(_ & j0 & c & A1 & A2 & A3 & A4)]; [congruence| |];
          exists j0, c; (split; [apply Hjs; split; [done|]; split; [done|]; by exists c|]); split; try done; [by left|by right]. }
      destruct js as [|j [|j' js']]; [| |cbn in Hlen; lia].
      { cbn [foldl]. apply Hone; try done; auto.
        - intros s' Hj' _ He. destruct (Hend s' Hj' He) as (_ & j0 & c & Hin & _). by apply elem_of_nil in Hin.
        - intros j0 r c ns' k' s' Htp. destruct (Hfirst _ _ _ _ Htp) as (s1 & d & Hh & _).
          destruct (Hhop _ _ _ Hh) as [_ Hin]. by apply elem_of_nil in Hin. }
      destruct (proj1 (Hjs j) ltac:(by left)) as (Hjat & Hjk & c & Hjc). cbn [foldl] in Hbust1 |- *.
      assert (forall j0, j0 ∈ [j] -> j0 = j) as Honly by (intros j0 Hin; by apply elem_of_list_singleton in Hin).
      assert (c <> b) as Hcb.
      { intros ->. apply Hjk. by apply (tg_one w G s j k b). }
      assert (side (Sum b) (Sad s)) as Hside by (split; [done|]; split; [done|]; by exists k).
      destruct Hjc as (n & En & Hnc & Hns & Hnd') eqn:Ejc. clear Ejc.
      unfold next_step in Hbust1 |- *. rewrite En, Ed in *. fold s in Hbust1 |- *.
      destruct (decide (Sad s ∈ ns)) as [Hback|Hnback].
      { (* the way back *)
        destruct (way_back _ _ _ _ _ _ Hp Hat Hj Hs Hback Hjat Hjk) as (p' & k' & Ep).
        rewrite decide_True in * by (apply M1, I1; by eapply (pr_back _ _ Hpre)).
        apply Hone; try done; auto.
        - intros s' Hj' Hns'. by destruct (joins_det w _ _ _ _ _ Hj Hj') as [_ <-].
        - intros j0 r d ns' k1 s' Htp. destruct (Hfirst _ _ _ _ Htp) as (s1 & d1 & Hh & Hn1 & _).
          by destruct (Hhop _ _ _ Hh) as [-> _]. }
      assert (forall q ns', tp q c ns' -> exists j1, hop w b k s j1 c /\ q = p ++ [k; j1]) as Hacross.
      { intros q ns' Hq. destruct (across p b ns s c q ns' Hp Hside) as (k1 & j1 & Hh & ->); try done.
        - split; [by eapply tp_open|]. split; [done|]. by exists j.
        - exists j1. pose proof Hh as (A1 & A2 & _). assert (k1 = k) as ->; [|done].
          apply (tg_one w G s k1 k b); try done. by apply (tg_sum w G b k1 s). }
      assert (j ∉ lp_exempt tm) as Hjtm.
      { intros [Hin|Hin]%elem_of_app; [|by apply elem_of_list_singleton in Hin].
        destruct (I2 j Hin) as [Hx|[(Hx & s1 & Hj1)|(k0 & j0 & Hk0 & (r & c1 & ns1 & s1 & H1 & H2 & H3))]].
        - destruct (pr_known _ _ Hpre j Hx) as (r & c1 & ns1 & s1 & H1 & H2 & H3).
          destruct (joins_det w _ _ _ _ _ Hjc H3) as [<- _]. destruct (Hacross _ _ H1) as (j1 & Hh & Eq).
          apply (pr_fresh _ _ Hpre j); [|done]. exists [k; j1], c, ns1, s1. by rewrite <-Eq.
        - apply Hcb. by destruct (joins_det w _ _ _ _ _ Hjc Hj1).
        - destruct (joins_det w _ _ _ _ _ Hjc H3) as [<- _]. destruct (Hacross _ _ H1) as (j1 & Hh & Eq).
          rewrite <-app_assoc in Eq. apply app_inv_head in Eq. injection Eq as -> _ _. done. }
      rewrite decide_False in * by done.
      destruct (w_summits w !! ln_summit n) as [su|] eqn:Esu.
      2: { rewrite Hnc in Esu. apply Hone; try done; auto.
           - intros s' Hj' _ He. destruct (Hend s' Hj' He) as (_ & j0 & c0 & Hin & Hj0 & Hcase). rewrite (Honly _ Hin) in Hj0.
             destruct (joins_det w _ _ _ _ _ Hjc Hj0) as [<- _].
             destruct Hcase as [((o & Ho & _) & _)|(x & y & (o & Ho & _) & _)]; congruence.
           - intros j0 r d ns' k1 s' Htp. destruct (Hfirst _ _ _ _ Htp) as (s1 & d1 & Hh & _).
             destruct (Hhop _ _ _ Hh) as [-> Hin]. rewrite (Honly _ Hin) in Hh. destruct Hh as (_ & _ & _ & _ & _ & A6 & (o & Ho & _) & _).
             destruct (joins_det w _ _ _ _ _ Hjc A6) as [<- _]. congruence. }
      rewrite Hnc in *. destruct (ft_ele (su_feat su) <=? ft_ele (su_feat bo)) eqn:Ele; cbn [andb] in *.
      - apply Z.leb_le in Ele. destruct (ft_edge (su_feat su)) eqn:Eedge.
        + (* the border *)
          apply Hone; try done; auto.
          * intros x Hx. cbn. apply elem_of_app. by left.
          * intros s' Hj' _ _. destruct (joins_det w _ _ _ _ _ Hj Hj') as [_ <-]. cbn. apply elem_of_app. right. by left.
          * intros j0 r d ns' k1 s' Htp. destruct (Hfirst _ _ _ _ Htp) as (s1 & d1 & Hh & _).
            destruct (Hhop _ _ _ Hh) as [-> Hin]. rewrite (Honly _ Hin) in Hh. destruct Hh as (_ & _ & _ & _ & _ & A6 & (o & Ho & Hq) & _).
            destruct (joins_det w _ _ _ _ _ Hjc A6) as [<- _]. congruence.
          * intros q s' [Hq|Hq]%elem_of_app; [by left|]. apply elem_of_list_singleton in Hq as [= -> ->]. right.
            exists p, b, ns, k. split; [done|]. split; [done|]. split; [done|]. split; [done|]. split; [done|].
            left. right. split; [by exists sa|]. exists j, c. split; [done|]. split; [done|]. split; [done|]. split; [by exists su|].
            exists (ft_ele (su_feat su)), (ft_ele (su_feat bo)). split; [by exists su|]. split; [by exists bo|done].
        + (* down *)
          assert (hop w b k s j c) as Hh.
          { split; [done|]. split; [done|]. split; [by exists sa|]. split; [done|]. split; [done|]. split; [done|].
            split; [by exists su|]. exists (ft_ele (su_feat su)), (ft_ele (su_feat bo)). split; [by exists su|]. split; [by exists bo|done]. }
          assert (open_ w (Sum c)) as Hc by by exists su.
          assert (side (Sad s) (Sum c)) as Hside2 by (split; [done|]; split; [done|]; by exists j).
          assert (tp (p ++ [k; j]) c (Sum c :: Sad s :: ns)) as Hp'.
          { apply tp_step with b; try done. by eapply joint. }
          assert (pre (p ++ [k; j]) tm) as Hpre'.
          { assert (forall x, x ∈ ls -> forall s0, joins w x b s0 -> under (p ++ [k; j]) x -> False) as Hx1.
            { intros x _ s0 Hxj Hu. destruct (under_is _ _ _ _ _ Hu _ Hp Hxj) as [r Er]. apply (f_equal length) in Er.
              rewrite !app_length in Er. cbn in Er. lia. }
            split.
            - intros x [Hx|Hx]%elem_of_app.
              + destruct (I2 x Hx) as [Hx'|[(Hx' & s0 & Hj0)|(k0 & j0 & _ & Hu)]].
                * by apply (pr_known _ _ Hpre).
                * exists p, b, ns, s0. split; [done|]. split; [by apply Hls|done].
                * by apply (under_short [] (p ++ [k0; j0])).
              + apply elem_of_list_singleton in Hx as ->. by exists p, b, ns, s.
            - intros x Hu [Hx|Hx]%elem_of_app.
              + destruct (I2 x Hx) as [Hx'|[(Hx' & s0 & Hj0)|(k0 & j0 & Hk0 & (r & c1 & ns1 & s1 & H1 & H2 & H3))]].
                * apply (pr_fresh _ _ Hpre x); [|done]. by eapply under_short.
                * by eapply Hx1.
                * destruct (under_is _ _ _ _ _ Hu _ H1 H3) as [r' Er]. rewrite <-!app_assoc in Er. apply app_inv_head in Er.
                  injection Er as -> _ _. done.
              + apply elem_of_list_singleton in Hx as ->. by eapply Hlong.
            - intros q k1 j1 Eq. apply app_inj_2 in Eq as [_ [= <- <-]]; done. }
          destruct (IH c (p ++ [k; j]) _ tm Hp' Hpre' Hbust1) as [P1 P2 P3 P4 P5].
          apply Hone; try done.
          * intros x Hx. destruct (P2 x Hx) as [?|?]; [by left|right; by exists j].
          * intros s' Hj' _ He. exfalso. destruct (Hend s' Hj' He) as (_ & j0 & c0 & Hin & Hj0 & Hcase). rewrite (Honly _ Hin) in Hj0.
            destruct (joins_det w _ _ _ _ _ Hjc Hj0) as [<- _].
            destruct Hcase as [((o & Ho & Hq) & _)|(x & y & (o & Ho & <-) & (o' & Ho' & <-) & Hlt)]; [congruence|].
            assert (o = su) as -> by congruence. assert (o' = bo) as -> by congruence. lia.
          * intros j0 r d ns' k1 s' Htp. destruct (Hfirst _ _ _ _ Htp) as (s1 & d1 & Hh1 & _).
            destruct (Hhop _ _ _ Hh1) as [-> Hin]. rewrite (Honly _ Hin) in *.
            replace (p ++ k :: j :: r) with ((p ++ [k; j]) ++ r) in * by (by rewrite <-app_assoc). by apply P4.
      - (* up *)
        apply Z.leb_gt in Ele. apply Hone; try done; auto.
        * intros x Hx. cbn. apply elem_of_app. by left.
        * intros s' Hj' _ _. destruct (joins_det w _ _ _ _ _ Hj Hj') as [_ <-]. cbn. apply elem_of_app. right. by left.
        * intros j0 r d ns' k1 s' Htp. destruct (Hfirst _ _ _ _ Htp) as (s1 & d1 & Hh & _).
          destruct (Hhop _ _ _ Hh) as [-> Hin]. rewrite (Honly _ Hin) in Hh.
          destruct Hh as (_ & _ & _ & _ & _ & A6 & _ & (x & y & (o & Ho & <-) & (o' & Ho' & <-) & Hle)).
          destruct (joins_det w _ _ _ _ _ Hjc A6) as [<- _]. assert (o = su) as -> by congruence. assert (o' = bo) as -> by congruence. lia.
        * intros q s' [Hq|Hq]%elem_of_app; [by left|]. apply elem_of_list_singleton in Hq as [= -> ->]. right.
          exists p, b, ns, k. split; [done|]. split; [done|]. split; [done|]. split; [done|]. split; [done|].
          right. split; [by exists sa|]. exists j, c. split; [done|]. split; [done|]. split; [done|].
          exists (ft_ele (su_feat su)), (ft_ele (su_feat bo)). split; [by exists su|]. split; [by exists bo|done]. }
    assert (inv [] t) as H0.
    { intros _. split_and!; try done; auto.
      - intros k s Hk. by apply elem_of_nil in Hk.
      - intros k0 j0 r c ns' k s Hk. by apply elem_of_nil in Hk. }
    destruct (Hloop [] (su_links bo) t eq_refl H0 Hbust Hbust) as (I1 & I2 & I3 & I4 & I5 & I6). split; try done.
    - intros k Hk. destruct (I2 k Hk) as [?|[(Hin & s & Hj)|(k0 & j0 & _ & Hu)]]; [by left| |right; by eapply under_short].
      right. exists [], b, ns, s. rewrite app_nil_r. split; [done|]. split; [by exists bo|done].
    - intros r c ns' k s Htp Hat Hj Hs He.
      destruct (tp_split _ _ _ _ _ _ Hp Htp r eq_refl) as [(-> & -> & ->)|(k0 & j0 & r' & s0 & d & -> & Hh & _)].
      + rewrite app_nil_r. apply I4; try done. destruct Hat as (o & Ho & Hin). congruence.
      + eapply I5; try done. destruct Hh as ((o & Ho & Hin) & _). congruence.
  Qed.

  Lemma region_paths t0 : lp_busted (local_prominent_region m w master t0) = [] ->
    forall q s, (q, s) ∈ lp_paths (local_prominent_region m w master t0) <-> way_out w master q s.
  Proof.
    intros Hb q s. unfold local_prominent_region in *.
    match goal with |- context[branch_chaser _ _ _ _ _ _ ?t] => set (t1 := t) in * end.
    assert (pre [] t1) as Hpre.
    { split; cbn.
      - intros x Hx. by apply elem_of_nil in Hx.
      - intros x _ Hx. by apply elem_of_nil in Hx.
      - intros q' x y E. by destruct q'. }
    destruct (chaser_reports max_depth master [] [Sum master] t1 tp_nil Hpre Hb) as [_ _ _ H1 H2]. split.
    - intros Hq. destruct (H2 q s Hq) as [Hin|?]; [by apply elem_of_nil in Hin|done].
    - intros (p & b & ns & k & -> & Hp & Hk & Hj & Hs & He). exact (H1 p b ns k s Hp Hk Hj Hs He).
  Qed.

  Lemma tp_below p b ns : tp p b ns -> not_higher w b master.
  Proof.
    induction 1 as [|p b ns k s j c H IH Hh _ _].
    - destruct Hmaster as (su & E & _). exists (ft_ele (su_feat su)), (ft_ele (su_feat su)). split; [by exists su|]. split; [by exists su|lia].
    - destruct Hh as (_ & _ & _ & _ & _ & _ & _ & (x & y & Hx & (o & Ho & <-) & Hle)).
      destruct IH as (x' & y' & (o' & Ho' & <-) & Hy & Hle'). assert (o' = o) as -> by congruence.
      exists x, y'. split; [done|]. split; [done|lia].
  Qed.

  Local Notation over := (over w).

  Lemma region_key t0 (ok : nat -> Prop) : lp_busted (local_prominent_region m w master t0) = [] ->
    (forall i, not_disq w i -> summits_of w i <> [] -> open_ w (Sad i)) ->
    (forall i a, not_disq w i -> a ∈ summits_of w i -> is_Some (w_summits w !! a)) ->
    forall y, joined w ok master y ->
      (exists p ns, tp p y ns /\ over ok p) \/
      exists q s, (q, s) ∈ lp_paths (local_prominent_region m w master t0) /\ over ok q.
  Proof.
    intros Hb Hopen Hsum. unfold joined. apply rtc_ind_r.
    { left. exists [], [Sum master]. split; [constructor|]. intros k a s Hk. by apply elem_of_nil in Hk. }
    intros b c Hy (i & Hok & Hnd & Hbi & Hci) [(p & ns & Hp & Hov)|?]; [|by right].
    assert (open_ w (Sad i)) as Hi. { apply Hopen; [done|]. intros E. rewrite E in Hbi. by apply elem_of_nil in Hbi. }
    assert (forall a, a ∈ summits_of w i -> exists k, at_saddle w i k /\ joins w k a i /\ (open_ w (Sum a) -> at_summit w a k)) as Hlink.
    { intros a Ha. unfold summits_of in Ha. destruct (w_saddles w !! i) as [sa|] eqn:Ei; [|by apply elem_of_nil in Ha].
      apply elem_of_list_omap in Ha as (k & Hk & E). destruct (w_links w !! k) as [l|] eqn:El; [|done]. injection E as <-.
      exists k. split; [by exists sa|]. destruct (tg_sad w G i k Hi) as (a & Hj & Ha); [by exists sa|].
      pose proof Hj as (l' & El' & E1 & _). assert (l' = l) as -> by congruence. by rewrite E1. }
    destruct (Hlink b Hbi) as (k & Hk & Hkj & Hkb). specialize (Hkb (tp_open _ _ _ Hp)).
    destruct (Hlink c Hci) as (j & Hj & Hjj & _).
    destruct (decide (c = b)) as [->|Hne]; [left; by exists p, ns|].
    assert (j <> k) as Hjk. { intros ->. apply Hne. by destruct (joins_det w _ _ _ _ _ Hkj Hjj). }
    destruct (decide (Sad i ∈ ns)) as [Hin|Hin].
    { left. destruct (way_back _ _ _ _ _ _ Hp Hkb Hkj Hi Hin Hj Hjk) as (p' & k' & ->).
      inversion Hp as [E|p1 b1 ns1 k1 s1 j1 c1 H1 Hh1 Hs1 Hc1 E].
      - by destruct p'.
      - apply app_inj_2 in E as [-> [= -> ->]]; [|done]. subst. destruct Hh1 as (_ & Hj1 & _).
        destruct (joins_det w _ _ _ _ _ Hjj Hj1) as [<- _]. exists p', ns1. split; [done|].
        intros x a s Hx. apply (Hov x a s). apply elem_of_app. by left. }
    assert (over ok (p ++ [k])) as Hovk.
    { intros x a s [Hx|Hx]%elem_of_app Hxj; [by eapply Hov|]. apply elem_of_list_singleton in Hx as ->.
      by destruct (joins_det w _ _ _ _ _ Hkj Hxj) as [_ <-]. }
    assert (live_saddle w i false) as Hlive by done.
    assert (side (Sum b) (Sad i)) as Hside by (split; [by eapply tp_open|]; split; [done|]; by exists k).
    destruct (tp_open _ _ _ Hp) as (bo & Ebo & Hbo).
    assert (ending b k i -> exists q s, (q, s) ∈ lp_paths (local_prominent_region m w master t0) /\ over ok q) as Hend.
    { intros He. exists (p ++ [k]), i. split; [|done]. apply region_paths; [done|]. by exists p, b, ns, k. }
    destruct (w_summits w !! c) as [co|] eqn:Ec.
    2: { destruct (Hsum i c Hnd Hci). congruence. }
    destruct (Z.le_gt_cases (ft_ele (su_feat co)) (ft_ele (su_feat bo))) as [Hle|Hlt].
    2: { right. apply Hend. right. split; [done|]. exists j, c. split; [done|]. split; [done|]. split; [done|].
         exists (ft_ele (su_feat co)), (ft_ele (su_feat bo)). split; [by exists co|]. split; [by exists bo|done]. }
    assert (not_higher w c b) as Hnh.
    { exists (ft_ele (su_feat co)), (ft_ele (su_feat bo)). split; [by exists co|]. split; [by exists bo|done]. }
    destruct (ft_edge (su_feat co)) eqn:Ee.
    { right. apply Hend. left. right. split; [done|]. exists j, c. split; [done|]. split; [done|]. split; [done|].
      split; [by exists co|done]. }
    left. exists (p ++ [k; j]), (Sum c :: Sad i :: ns). split.
    - apply tp_step with b; try done.
      + split; [done|]. split; [done|]. split; [done|]. split; [done|]. split; [done|]. split; [done|]. split; [by exists co|done].
      + eapply joint; try done. split; [by exists co|]. split; [done|]. by exists j.
    - replace (p ++ [k; j]) with ((p ++ [k]) ++ [j]) by (by rewrite <-app_assoc).
      intros x a s [Hx|Hx]%elem_of_app Hxj; [by eapply Hovk|]. apply elem_of_list_singleton in Hx as ->.
      by destruct (joins_det w _ _ _ _ _ Hjj Hxj) as [_ <-].
  Qed.
End region.
