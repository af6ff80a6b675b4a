(** Correctness of the neighbourhood grouping. *)
From Verif Require Import Contig_model Raster_spec Raster_proof.
From Coq Require Import ZifyBool.
Local Open Scope Z_scope.
Set Default Proof Using "All".

Ltac els := repeat first [rewrite elem_of_cons | rewrite elem_of_app | rewrite elem_of_list_singleton
    | rewrite elem_of_nil];
  first [tauto | naive_solver].

(** Two points whose cells touch. *)
Definition adjp (p q : pte) : Prop := adj8 (pt_xy p) (pt_xy q).

Lemma adjp_sym p q : adjp p q -> adjp q p.
Proof. apply adj8_sym. Qed.

(** ** Facts about [linked] *)
Section linked.
  Context {A : Type} (R : A -> A -> Prop) (S : A -> Prop).
  Lemma linked_in_l a b : linked R S a b -> S a.
  Proof. induction 1; done. Qed.
  Lemma linked_in_r a b : linked R S a b -> S b.
  Proof. destruct 1; done. Qed.
  Lemma linked_trans a b c : linked R S a b -> linked R S b c -> linked R S a c.
  Proof. intros Hab. induction 1; [done|]. by econstructor. Qed.
  Lemma linked_sym (HR : forall a b, R a b -> R b a) a b : linked R S a b -> linked R S b a.
  Proof.
    induction 1 as [Ha|b c H IH Hc Hr]; [by constructor|].
    eapply linked_trans; [|exact IH]. eapply linked_step; [by constructor| |by apply HR].
    by eapply linked_in_r.
  Qed.
End linked.

Lemma linked_mono {A} (R R' : A -> A -> Prop) (S S' : A -> Prop) a b :
  (forall a b, S a -> S b -> R a b -> R' a b) -> (forall a, S a -> S' a) ->
  linked R S a b -> linked R' S' a b.
Proof.
  intros HR HS. induction 1 as [Ha|b c H IH Hc Hr]; [constructor; auto|].
  eapply linked_step; [done|auto|]. apply HR; [|done|done]. by eapply linked_in_r.
Qed.

(** ** pop *)
Lemma pop_any_nil {A} k : @pop_any A k [] = None.
Proof. unfold pop_any. by rewrite lookup_nil. Qed.
Lemma pop_any_cons {A} k (l : list A) :
  l <> [] -> exists a rest, pop_any k l = Some (a, rest) /\ l ≡ₚ a :: rest.
Proof.
  intros Hl. unfold pop_any.
  assert ((k mod length l < length l)%nat) as Hlt.
  { apply Nat.mod_upper_bound. by destruct l. }
  destruct (lookup_lt_is_Some_2 _ _ Hlt) as [a Ha]. rewrite Ha.
  exists a, (delete (k mod length l)%nat l). split; [done|].
  by apply delete_Permutation.
Qed.

Section contig.
  Context (pset : list pte).
  Hypothesis Hnn : forall p, p ∈ pset -> 0 <= pt_x p /\ 0 <= pt_y p.
  Hypothesis Hfun : forall p q, p ∈ pset -> q ∈ pset -> pt_xy p = pt_xy q -> p = q.
  Hypothesis Hnd : NoDup pset.

  Definition look_ok (points : list pte) (lookup : gmap xy (option Z)) : Prop :=
    forall x y e, (x, y, e) ∈ points <-> lookup !! (x, y) = Some (Some e).

  Record cinv (rem0 : list pte) (p0 : pte) (s : cn_state) : Prop := {
    ci_look : look_ok (cn_points s) (cn_lookup s);
    ci_perm : cn_nbrs s ++ cn_points s ≡ₚ rem0;
    ci_link : forall n, n ∈ cn_nbrs s -> linked adjp (fun q => q ∈ pset) p0 n;
    ci_stack : forall n, n ∈ cn_stack s -> n ∈ cn_nbrs s }.

  (** Relation between the states before and after visiting some offsets. *)
  Record cstep (s s' : cn_state) : Prop := {
    cs_points : forall q, q ∈ cn_points s' -> q ∈ cn_points s;
    cs_nbrs : forall n, n ∈ cn_nbrs s -> n ∈ cn_nbrs s';
    cs_new : forall n, n ∈ cn_nbrs s' -> n ∈ cn_nbrs s \/ n ∈ cn_stack s';
    cs_stack : forall n, n ∈ cn_stack s -> n ∈ cn_stack s';
    cs_len : (length (cn_stack s') + length (cn_points s') =
              length (cn_stack s) + length (cn_points s))%nat }.

  Lemma cstep_refl s : cstep s s.
  Proof. split; auto. Qed.
  Lemma cstep_trans s1 s2 s3 : cstep s1 s2 -> cstep s2 s3 -> cstep s1 s3.
  Proof.
    intros [] []. split; auto; [|lia].
    intros n Hn. destruct (cs_new1 n Hn) as [Hn'|]; [|auto].
    destruct (cs_new0 n Hn'); auto.
  Qed.

  Section inner.
    Context (rem0 : list pte) (p0 : pte).
    Hypothesis Hrem : forall q, q ∈ rem0 -> q ∈ pset.
    Hypothesis Hrem_nd : NoDup rem0.

    Lemma cinv_nodup_points s : cinv rem0 p0 s -> NoDup (cn_points s).
    Proof.
      intros []. rewrite <-ci_perm0 in Hrem_nd. by apply NoDup_app in Hrem_nd as (_&_&?).
    Qed.
    Lemma cinv_points_pset s q : cinv rem0 p0 s -> q ∈ cn_points s -> q ∈ pset.
    Proof. intros [] Hq. apply Hrem. rewrite <-ci_perm0. els. Qed.
    Lemma cinv_nbrs_pset s q : cinv rem0 p0 s -> q ∈ cn_nbrs s -> q ∈ pset.
    Proof. intros [] Hq. apply Hrem. rewrite <-ci_perm0. els. Qed.

    Lemma filter_ne_perm (pt : pte) (l : list pte) :
      NoDup l -> pt ∈ l -> l ≡ₚ pt :: filter (fun q => q <> pt) l.
    Proof.
      intros Hl Hpt. apply NoDup_Permutation; [done| |].
      - constructor; [|by apply NoDup_filter]. rewrite elem_of_list_filter. tauto.
      - intros q. rewrite elem_of_cons, elem_of_list_filter.
        destruct (decide (q = pt)); naive_solver.
    Qed.

    Lemma cn_visit_spec point off s :
      cinv rem0 p0 s -> point ∈ cn_nbrs s -> off ∈ cn_offsets ->
      exists s', cn_visit point off s = Ok s' /\ cinv rem0 p0 s' /\ cstep s s' /\
        forall e, (pt_x point + off.1, pt_y point + off.2, e) ∉ cn_points s'.
    Proof.
      intros Hinv Hpt Hoff.
      assert (-1 <= off.1 <= 1 /\ -1 <= off.2 <= 1) as [Ho1 Ho2].
      { unfold cn_offsets, OFFSETS in Hoff. cbn in Hoff.
        rewrite !elem_of_cons, elem_of_nil in Hoff.
        destruct_or! Hoff; try done; subst off; cbn; lia. }
      unfold cn_visit.
      assert (Hstay : (forall e, (pt_x point + off.1, pt_y point + off.2, e) ∉ cn_points s) ->
        exists s', Ok s = Ok s' /\ cinv rem0 p0 s' /\ cstep s s' /\
        forall e, (pt_x point + off.1, pt_y point + off.2, e) ∉ cn_points s').
      { intros H. exists s. split; [done|]. split; [done|]. split; [apply cstep_refl|done]. }
      destruct (pt_x point + off.1 <? 0) eqn:Hx.
      { apply Hstay. intros e He. apply (cinv_points_pset _ _ Hinv), Hnn in He.
        unfold pt_x, pt_y in *; cbn in *; lia. }
      destruct (pt_y point + off.2 <? 0) eqn:Hy.
      { apply Hstay. intros e He. apply (cinv_points_pset _ _ Hinv), Hnn in He.
        unfold pt_x, pt_y in *; cbn in *; lia. }
      pose proof (ci_look _ _ _ Hinv) as Hlook.
      set (t := (pt_x point + off.1, pt_y point + off.2)) in *.
      destruct (cn_lookup s !! t) as [[el|]|] eqn:Hl; cycle 1.
      { apply Hstay. intros e He%Hlook. unfold t in Hl. congruence. }
      { apply Hstay. intros e He%Hlook. unfold t in Hl. congruence. }
      assert ((t, el) ∈ cn_points s) as Hin by (by apply Hlook).
      change (pt_x point + off.1, pt_y point + off.2, el) with (t, el).
      rewrite decide_True by done.
      eexists. split; [reflexivity|].
      pose proof (cinv_nodup_points _ Hinv) as Hndp.
      pose proof (filter_ne_perm _ _ Hndp Hin) as Hperm.
      assert (Huniq : forall e, (t, e) ∈ cn_points s -> e = el).
      { intros e He. apply (cinv_points_pset _ _ Hinv) in He.
        pose proof (cinv_points_pset _ _ Hinv Hin) as Hin'.
        assert ((t, e) = (t, el)) as [=] by (by apply Hfun). done. }
      split; [split; cbn [cn_points cn_lookup cn_nbrs cn_stack]|split].
      - intros x y e. rewrite elem_of_list_filter.
        destruct (decide ((x, y) = t)) as [Et|Et].
        + rewrite Et, lookup_insert. split; [|done].
          intros [Hne He]. destruct Hne. f_equal. apply Huniq. done.
        + rewrite lookup_insert_ne by done. rewrite <-(Hlook x y e).
          split; [tauto|]. intros. split; [congruence|done].
      - rewrite <-app_assoc. cbn [app]. rewrite <-Hperm. apply Hinv.
      - intros n [Hn|Hn]%elem_of_app; [by apply Hinv|].
        apply elem_of_list_singleton in Hn as ->.
        destruct (decide ((t, el) ∈ cn_nbrs s)) as [Hd|Hd]; [by apply Hinv|].
        eapply linked_step; [by apply (ci_link _ _ _ Hinv point)| |].
        + by eapply cinv_points_pset.
        + unfold adjp, adj8, pt_xy, t; cbn. split.
          * intros E. destruct Hd.
            assert ((t, el) = point) as ->; [|done].
            apply Hfun; [by eapply cinv_points_pset|by eapply cinv_nbrs_pset|].
            unfold pt_xy, t; cbn. symmetry. exact E.
          * unfold pt_x, pt_y. lia.
      - intros n [->|Hn]%elem_of_cons; [set_solver|].
        apply elem_of_app. left. by apply Hinv.
      - split; cbn [cn_points cn_lookup cn_nbrs cn_stack].
        + intros q Hq%elem_of_list_filter. tauto.
        + intros n. rewrite elem_of_app. tauto.
        + intros n. rewrite elem_of_app, elem_of_list_singleton, elem_of_cons. tauto.
        + intros n. rewrite elem_of_cons. tauto.
        + apply Permutation_length in Hperm. cbn [length] in Hperm |- *. lia.
      - cbn [cn_points]. intros e [Hne He]%elem_of_list_filter.
        apply Hne. change (pt_x point + off.1, pt_y point + off.2, e) with (t, e).
        f_equal. by apply Huniq.
    Qed.

    Lemma cn_visits_spec point offs : forall s,
      cinv rem0 p0 s -> point ∈ cn_nbrs s -> (forall o, o ∈ offs -> o ∈ cn_offsets) ->
      exists s', foldM (cn_visit point) offs s = Ok s' /\ cinv rem0 p0 s' /\ cstep s s' /\
        forall o e, o ∈ offs -> (pt_x point + o.1, pt_y point + o.2, e) ∉ cn_points s'.
    Proof.
      induction offs as [|o offs IH]; intros s Hinv Hpt Hoffs; cbn [foldM].
      - exists s. split; [done|]. split; [done|]. split; [apply cstep_refl|]. set_solver.
      - destruct (cn_visit_spec point o s) as (s1 & -> & Hinv1 & Hst1 & Hno1); [done..|set_solver|].
        cbn [rbind]. destruct (IH s1) as (s2 & -> & Hinv2 & Hst2 & Hno2);
          [done|by apply Hst1|set_solver|].
        exists s2. split; [done|]. split; [done|]. split; [by eapply cstep_trans|].
        intros o' e [->|Ho']%elem_of_cons; [|by apply Hno2].
        intros He. apply (cs_points _ _ Hst2) in He. by apply Hno1 in He.
    Qed.

    Lemma offset_of_adj (p q : pte) :
      adjp p q -> exists o, o ∈ cn_offsets /\ pt_xy q = (pt_x p + o.1, pt_y p + o.2).
    Proof.
      intros (Hne & H1 & H2). exists (pt_x q - pt_x p, pt_y q - pt_y p).
      destruct p as [[px py] pe], q as [[qx qy] qe]. unfold pt_xy, pt_x, pt_y in *; cbn in *.
      split; [|f_equal; lia].
      assert (qx - px = -1 \/ qx - px = 0 \/ qx - px = 1) as [E|[E|E]] by lia;
      assert (qy - py = -1 \/ qy - py = 0 \/ qy - py = 1) as [F|[F|F]] by lia;
      rewrite E, F; unfold cn_offsets, OFFSETS; cbn; set_solver.
    Qed.

    Definition done_ok (s : cn_state) : Prop :=
      forall n q, n ∈ cn_nbrs s -> n ∉ cn_stack s -> q ∈ cn_points s -> ~ adjp n q.

    Lemma cn_inner_spec fuel : forall s,
      cinv rem0 p0 s -> done_ok s ->
      (length (cn_stack s) + length (cn_points s) < fuel)%nat ->
      exists s', cn_inner fuel s = Ok s' /\ cinv rem0 p0 s' /\
        (forall n, n ∈ cn_nbrs s -> n ∈ cn_nbrs s') /\
        (forall n q, n ∈ cn_nbrs s' -> q ∈ cn_points s' -> ~ adjp n q).
    Proof.
      induction fuel as [|fuel IH]; intros s Hinv Hdone Hf; [lia|]. cbn [cn_inner].
      destruct (cn_stack s) as [|point st] eqn:Hst.
      - exists s. split; [done|]. split; [done|]. split; [done|].
        intros n q Hn. apply Hdone; [done|]. rewrite Hst. set_solver.
      - set (s0 := CN st (cn_points s) (cn_lookup s) (cn_nbrs s)).
        assert (Hinv0 : cinv rem0 p0 s0).
        { destruct Hinv. split; cbn; try done. intros n Hn. apply ci_stack0.
          rewrite Hst. set_solver. }
        assert (Hpt : point ∈ cn_nbrs s0).
        { cbn. apply Hinv. rewrite Hst. set_solver. }
        destruct (cn_visits_spec point cn_offsets s0 Hinv0 Hpt) as (s1 & -> & Hinv1 & Hs1 & Hno);
          [done|]. cbn [rbind].
        destruct (IH s1) as (s' & Hs' & Hinv' & Hmono & Hfin).
        + done.
        + intros n q Hn Hns Hq. destruct (cs_new _ _ Hs1 _ Hn) as [Hn0|]; [|done].
          destruct (decide (n = point)) as [->|Hne].
          * intros (o & Ho & Eq)%offset_of_adj. apply (Hno o (pt_e q) Ho).
            destruct q as [qxy qe]. unfold pt_xy in Eq. cbn in Eq. subst qxy. exact Hq.
          * apply Hdone; [exact Hn0| |by apply (cs_points _ _ Hs1 q)].
            rewrite Hst. intros [->|Hn1]%elem_of_cons; [done|].
            by apply Hns, (cs_stack _ _ Hs1 n).
        + pose proof (cs_len _ _ Hs1) as Hl. cbn [cn_stack cn_points s0] in Hl.
          cbn [length] in Hf. lia.
        + exists s'. split; [done|]. split; [done|]. split; [|done].
          intros n Hn. apply Hmono, Hs1. done.
    Qed.
  End inner.

  (** ** The outer loop *)
  Record oinv (points : list pte) (lookup : gmap xy (option Z)) (acc : list (list pte)) : Prop := {
    oi_look : look_ok points lookup;
    oi_perm : concat acc ++ points ≡ₚ pset;
    oi_ne : forall g, g ∈ acc -> g <> [];
    oi_link : forall g a b, g ∈ acc -> a ∈ g -> b ∈ g -> linked adjp (fun q => q ∈ pset) a b;
    oi_sep : forall g a q, g ∈ acc -> a ∈ g -> q ∈ points -> ~ adjp a q;
    oi_sep2 : forall i j g h a b, acc !! i = Some g -> acc !! j = Some h -> i <> j ->
      a ∈ g -> b ∈ h -> ~ adjp a b }.

  Lemma cn_outer_spec inner_fuel orc fuel : forall points lookup acc,
    oinv points lookup acc ->
    (length points < fuel)%nat -> (length pset < inner_fuel)%nat ->
    exists r lk, cn_outer fuel inner_fuel orc points lookup acc = Ok r /\ oinv [] lk r.
  Proof.
    induction fuel as [|fuel IH]; intros points lookup acc Hinv Hf Hif; [lia|].
    cbn [cn_outer]. destruct (decide (points = [])) as [->|Hne].
    { rewrite pop_any_nil. by exists acc, lookup. }
    destruct (pop_any_cons (orc fuel) points Hne) as (p & rest & -> & Hperm).
    assert (Hsub : forall q, q ∈ points -> q ∈ pset).
    { intros q Hq. rewrite <-(oi_perm _ _ _ Hinv). els. }
    assert (Hpnd : NoDup points).
    { pose proof Hnd as Hnd'. rewrite <-(oi_perm _ _ _ Hinv) in Hnd'.
      by apply NoDup_app in Hnd' as (_&_&?). }
    assert (Hp : p ∈ points) by (rewrite Hperm; els).
    set (s0 := CN [p] rest (<[pt_xy p:=None]> lookup) [p]).
    assert (Hinv0 : cinv points p s0).
    { split; cbn.
      - intros x y e. destruct (decide ((x, y) = pt_xy p)) as [E|E].
        + rewrite E, lookup_insert. split; [|done]. intros He.
          rewrite Hperm in Hpnd. apply NoDup_cons in Hpnd as [Hn _]. destruct Hn.
          assert ((pt_xy p, e) = p) as <-; [|done].
          apply Hfun; [|by apply Hsub|done]. apply Hsub. rewrite Hperm. els.
        + rewrite lookup_insert_ne by done. rewrite <-(oi_look _ _ _ Hinv x y e).
          rewrite Hperm, elem_of_cons. split; [tauto|].
          intros [<-|]; [|done]. by destruct E.
      - by symmetry.
      - intros n ->%elem_of_list_singleton. constructor. by apply Hsub.
      - done. }
    destruct (cn_inner_spec points p Hsub Hpnd inner_fuel s0) as (s & -> & Hs & Hmono & Hfin).
    { done. }
    { intros n q Hn Hns. cbn in *. done. }
    { cbn. assert (length points <= length pset)%nat as Hle.
      { rewrite <-(oi_perm _ _ _ Hinv), app_length. lia. }
      apply Permutation_length in Hperm. cbn in Hperm. lia. }
    cbn [rbind]. apply IH; [|apply Permutation_length in Hperm|done].
    - assert (Hns : forall q, q ∈ cn_nbrs s -> q ∈ points).
      { intros q Hq. rewrite <-(ci_perm _ _ _ Hs). els. }
      assert (Hps : forall q, q ∈ cn_points s -> q ∈ points).
      { intros q Hq. rewrite <-(ci_perm _ _ _ Hs). els. }
      split.
      + apply Hs.
      + rewrite concat_app. cbn [concat]. rewrite app_nil_r, <-app_assoc.
        rewrite (ci_perm _ _ _ Hs). apply Hinv.
      + intros g [Hg|Hg]%elem_of_app; [by apply Hinv|].
        apply elem_of_list_singleton in Hg as ->.
        intros E. assert (p ∈ cn_nbrs s) as Hp' by (apply Hmono; cbn; els).
        rewrite E in Hp'. set_solver.
      + intros g a b [Hg|Hg]%elem_of_app Ha Hb; [by eapply Hinv|].
        apply elem_of_list_singleton in Hg as ->.
        eapply linked_trans; [apply linked_sym; [apply adjp_sym|]|];
          by apply (ci_link _ _ _ Hs).
      + intros g a q [Hg|Hg]%elem_of_app Ha Hq.
        * eapply Hinv; eauto.
        * apply elem_of_list_singleton in Hg as ->. by apply Hfin.
      + intros i j g h a b Hi Hj Hij Ha Hb.
        apply lookup_app_Some in Hi as [Hi|[Hil Hi]];
        apply lookup_app_Some in Hj as [Hj|[Hjl Hj]].
        * by eapply (oi_sep2 _ _ _ Hinv i j).
        * apply list_lookup_singleton_Some in Hj as [_ <-].
          eapply (oi_sep _ _ _ Hinv); [by eapply elem_of_list_lookup_2|done|by apply Hns].
        * apply list_lookup_singleton_Some in Hi as [_ <-]. intros Hadj%adjp_sym.
          eapply (oi_sep _ _ _ Hinv); [by eapply elem_of_list_lookup_2| |by apply Hns|done].
          done.
        * apply list_lookup_singleton_Some in Hi as [? <-].
          apply list_lookup_singleton_Some in Hj as [? <-]. lia.
    - pose proof (Permutation_length (ci_perm _ _ _ Hs)) as Hl.
      rewrite app_length in Hl. cbn in Hperm.
      assert (0 < length (cn_nbrs s))%nat.
      { assert (p ∈ cn_nbrs s) as Hp' by (apply Hmono; cbn; els).
        destruct (cn_nbrs s); [by apply elem_of_nil in Hp'|cbn; lia]. }
      lia.
  Qed.

  Lemma look_ok_init_aux pre : forall lk done,
    (forall q, q ∈ done ++ pre -> q ∈ pset) -> look_ok done lk ->
    look_ok (done ++ pre) (foldl (fun l p => <[pt_xy p := Some (pt_e p)]> l) lk pre).
  Proof.
    induction pre as [|p pre IH]; intros lk dn Hsub Hok; cbn.
    - by rewrite app_nil_r.
    - rewrite cons_middle, app_assoc. apply IH.
      + intros q. rewrite <-app_assoc. apply Hsub.
      + intros x y e. rewrite elem_of_app, elem_of_list_singleton.
        destruct (decide ((x, y) = pt_xy p)) as [E|E].
        * rewrite E, lookup_insert. split.
          -- intros H. do 2 f_equal.
             assert ((pt_xy p, e) = p) as <-; [|done].
             destruct H as [H|H]; [|done].
             apply Hfun; [apply Hsub; els|apply Hsub; els|done].
          -- intros [= <-]. right. destruct p as [[??]?]. cbn in *.
             unfold pt_xy, pt_e in *. cbn in *. congruence.
        * rewrite lookup_insert_ne by done. rewrite <-(Hok x y e).
          split; [|tauto]. intros [?|<-]; [done|]. by destruct E.
  Qed.
End contig.

Lemma elem_of_concat {A} (a : A) (ls : list (list A)) :
  a ∈ concat ls <-> exists g, a ∈ g /\ g ∈ ls.
Proof.
  induction ls as [|l ls IH]; cbn.
  - rewrite elem_of_nil. split; [done|]. intros (g & _ & Hg). by apply elem_of_nil in Hg.
  - rewrite elem_of_app, IH. setoid_rewrite elem_of_cons. naive_solver.
Qed.

Lemma NoDup_concat_index {A} (ls : list (list A)) i j g h a :
  NoDup (concat ls) -> ls !! i = Some g -> ls !! j = Some h -> a ∈ g -> a ∈ h -> i = j.
Proof.
  revert i j. induction ls as [|l ls IH]; intros i j; [done|]. cbn [concat].
  intros (H1 & H2 & H3)%NoDup_app Hi Hj Ha Hb.
  destruct i as [|i], j as [|j]; cbn in *; [done| | |].
  - injection Hi as ->. exfalso. apply (H2 a Ha). apply elem_of_concat.
    exists h. split; [done|]. by eapply elem_of_list_lookup_2.
  - injection Hj as ->. exfalso. apply (H2 a Hb). apply elem_of_concat.
    exists g. split; [done|]. by eapply elem_of_list_lookup_2.
  - f_equal. by apply (IH i j).
Qed.

Lemma contiguous_neighbors_spec orc (points : list pte) :
  (forall p, p ∈ points -> 0 <= pt_x p /\ 0 <= pt_y p) ->
  (forall p q, p ∈ points -> q ∈ points -> pt_xy p = pt_xy q -> p = q) ->
  exists groups, contiguous_neighbors orc points = Ok groups /\
    concat groups ≡ₚ remove_dups points /\
    (forall g, g ∈ groups -> g <> []) /\
    forall i j g h a b, groups !! i = Some g -> groups !! j = Some h -> a ∈ g -> b ∈ h ->
      (i = j <-> linked adjp (fun q => q ∈ points) a b).
Proof.
  intros Hnn Hfun. unfold contiguous_neighbors.
  set (pset := remove_dups points).
  assert (Hset : forall q, q ∈ pset <-> q ∈ points) by (intros; apply elem_of_remove_dups).
  assert (Hnd : NoDup pset) by apply NoDup_remove_dups.
  assert (Hnn' : forall p, p ∈ pset -> 0 <= pt_x p /\ 0 <= pt_y p) by (intros p ?%Hset; auto).
  assert (Hfun' : forall p q, p ∈ pset -> q ∈ pset -> pt_xy p = pt_xy q -> p = q)
    by (intros p q ?%Hset ?%Hset; auto).
  destruct (cn_outer_spec pset Hnn' Hfun' Hnd (S (length pset)) orc (S (length pset))
              pset (cn_init_lookup pset) []) as (r & lk & Hr & Hinv); [|lia..|].
  - split; [|done|set_solver..|].
    + apply (look_ok_init_aux pset Hnn' Hfun' Hnd pset ∅ []); [done|].
      intros x y e. rewrite lookup_empty. split; [by intros ?%elem_of_nil|done].
    + intros i j g h a b Hi. by rewrite lookup_nil in Hi.
  - exists r. split; [done|]. destruct Hinv as [_ Hperm Hne Hlink _ Hsep].
    rewrite app_nil_r in Hperm. split; [done|]. split; [done|].
    intros i j g h a b Hi Hj Ha Hb. split.
    + intros <-. rewrite Hi in Hj. injection Hj as <-.
      eapply linked_mono; [| |by eapply (Hlink g); [eapply elem_of_list_lookup_2|..]]; [done|].
      intros q. apply Hset.
    + intros Hl. clear Hne Hlink. revert j h Hj Hb.
      induction Hl as [_|b c Hl IH Hc Hbc]; intros j h Hj Hb.
      * eapply (NoDup_concat_index r); eauto. by rewrite Hperm.
      * apply linked_in_r in Hl. apply Hset in Hl. rewrite <-Hperm in Hl.
        apply elem_of_concat in Hl as (k' & Hbk & Hk).
        apply elem_of_list_lookup in Hk as [k Hk].
        rewrite (IH k k' Hk Hbk).
        destruct (decide (k = j)); [done|]. exfalso.
        by eapply (Hsep k j).
Qed.
