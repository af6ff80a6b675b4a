(** The exchange argument behind minimal spanning trees. *)
From Verif Require Import Tree_spec.
From Coq Require Import QArith.
From stdpp Require Import gmap.
Local Open Scope nat_scope.

Section dominated.
  Context {A B : Type} (le : A -> B -> Prop).

  Lemma forall2_perm_l xs xs' : xs ≡ₚ xs' -> forall ys, Forall2 le xs ys ->
    exists ys', ys ≡ₚ ys' /\ Forall2 le xs' ys'.
  Proof.
    induction 1 as [|x l l' H IH|x y l|l1 l2 l3 H1 IH1 H2 IH2]; intros ys Hys.
    - exists ys. inversion Hys; subst. split; [done|constructor].
    - inversion Hys as [|? b ? bs Hle Hb]; subst. destruct (IH bs Hb) as (bs' & Hp & Hf).
      exists (b :: bs'). split; [by constructor|by constructor].
    - inversion Hys as [|? b ? bs Hle Hb]; subst. inversion Hb as [|? c ? cs Hle' Hc]; subst.
      exists (c :: b :: cs). split; [by constructor|by repeat constructor].
    - destruct (IH1 ys Hys) as (y1 & Hp1 & Hf1). destruct (IH2 y1 Hf1) as (y2 & Hp2 & Hf2).
      exists y2. split; [by transitivity y1|done].
  Qed.
  Lemma dominated_perm_l xs xs' ys : xs ≡ₚ xs' -> dominated le xs ys -> dominated le xs' ys.
  Proof.
    intros Hp (ys' & Hy & Hf). destruct (forall2_perm_l xs xs' Hp ys' Hf) as (y2 & Hy2 & Hf2).
    exists y2. split; [by transitivity ys'|done].
  Qed.
  Lemma dominated_replace x x' xs ys : (forall y, le x y -> le x' y) ->
    dominated le (x :: xs) ys -> dominated le (x' :: xs) ys.
  Proof.
    intros Hx (ys' & Hy & Hf). exists ys'. split; [done|].
    inversion Hf; subst. constructor; auto.
  Qed.
  Lemma dominated_length xs ys : dominated le xs ys -> length xs = length ys.
  Proof. intros (ys' & Hy & Hf). rewrite Hy. by eapply Forall2_length. Qed.
End dominated.

Section joined.
  Context {A : Type} `{EqDecision A}.
  Implicit Types es : list (A * A).

  Lemma joined_refl es a : joined es a a.
  Proof. unfold joined, rtsc. apply rtc_refl. Qed.
  Lemma joined_trans es a b c : joined es a b -> joined es b c -> joined es a c.
  Proof. unfold joined, rtsc. intros. by etransitivity. Qed.
  Lemma joined_edge es a b : (a, b) ∈ es -> joined es a b.
  Proof. intros H. apply rtc_once. by left. Qed.
  Lemma joined_sym es a b : joined es a b -> joined es b a.
  Proof. unfold joined. intros H. by symmetry. Qed.
  (** Every edge of [es] being bridged in [es'] is enough. *)
  Lemma joined_sub es es' a b : (forall x y, (x, y) ∈ es -> joined es' x y) ->
    joined es a b -> joined es' a b.
  Proof.
    intros Hsub. unfold joined at 1. induction 1 as [|x y z Hs _ IH]; [apply joined_refl|].
    eapply joined_trans; [|exact IH]. destruct Hs as [Hs|Hs]; [auto|by apply joined_sym, Hsub].
  Qed.

  (** A chain of nodes with consecutive ones joined by an edge. *)
  Fixpoint chain es (a : A) (p : list A) : Prop :=
    match p with
    | [] => True
    | b :: p => ((a, b) ∈ es \/ (b, a) ∈ es) /\ chain es b p
    end.

  Lemma chain_app es p : forall a b q, chain es a (p ++ b :: q) ->
    chain es b q.
  Proof.
    induction p as [|c p IH]; intros a b q; cbn.
    - by intros [_ H].
    - intros [_ H]. by eapply IH.
  Qed.

  (** A joined pair is connected by a chain without repetition. *)
  Lemma joined_chain es a b : joined es a b ->
    exists p, chain es a p /\ NoDup (a :: p) /\ last (a :: p) = Some b.
  Proof.
    unfold joined. induction 1 as [a|a c b Hs _ (p & Hp & Hnd & Hl)].
    - exists []. split_and!; [done|apply NoDup_singleton|done].
    - destruct (decide (a ∈ c :: p)) as [Hin|Hin].
      + apply elem_of_list_split in Hin as (l1 & l2 & Heq). exists l2.
        assert (Hsub : chain es a l2).
        { destruct l1 as [|x l1]; cbn in Heq; injection Heq as -> ->; [done|]. by eapply chain_app. }
        split_and!; [done| |].
        * rewrite Heq in Hnd. by apply NoDup_app in Hnd as (_ & _ & ?).
        * rewrite Heq in Hl. by rewrite last_app_cons in Hl.
      + exists (c :: p). split_and!; [|by constructor|].
        * split; [destruct Hs; tauto|done].
        * by rewrite last_cons_cons.
  Qed.

  (** Along a chain that leaves [S0] there is a crossing edge; without it both
      sides of the chain are still joined. *)
  Lemma chain_cross es (S0 : A -> Prop) `{!forall a, Decision (S0 a)} v p : forall u,
    chain es u p -> NoDup (u :: p) -> last (u :: p) = Some v -> S0 u -> ~ S0 v ->
    exists a b es1 es2, S0 a /\ ~ S0 b /\ (es = es1 ++ (a, b) :: es2 \/ es = es1 ++ (b, a) :: es2) /\
      joined (es1 ++ es2) u a /\ joined (es1 ++ es2) b v /\ b ∉ [u] /\ a ∈ u :: p.
  Proof.
    induction p as [|w p IH]; intros u Hc Hnd Hl Hu Hv.
    - cbn in Hl. by injection Hl as ->.
    - destruct Hc as [Hs Hc]. rewrite last_cons_cons in Hl.
      apply NoDup_cons in Hnd as [Hnu Hnd].
      destruct (decide (S0 w)) as [Hw|Hw].
      + destruct (IH w Hc Hnd Hl Hw Hv) as (a & b & es1 & es2 & Ha & Hb & Hes & Hua & Hbv & Hbw & Hap).
        exists a, b, es1, es2. split_and!; try done.
        * eapply joined_trans; [|exact Hua].
          assert (Hne : forall x y, (x, y) ∈ es -> (x = u /\ y = w \/ x = w /\ y = u) ->
            (x, y) ∈ es1 ++ es2).
          { intros x y Hxy Hor.
            assert (Hnot : ~ ((x = a /\ y = b) \/ (x = b /\ y = a))).
            { intros [[-> ->]|[-> ->]]; destruct Hor as [[-> ->]|[-> ->]]; try done.
              all: try (by apply Hnu); try (by apply Hw). }
            destruct Hes as [->| ->]; apply elem_of_app in Hxy as [Hx|[Hx|Hx]%elem_of_cons];
              try (apply elem_of_app; by left); try (apply elem_of_app; by right);
              injection Hx as -> ->; exfalso; apply Hnot; tauto. }
          destruct Hs as [Hs|Hs].
          -- apply joined_edge. apply Hne; [done|tauto].
          -- apply joined_sym, joined_edge. apply Hne; [done|tauto].
        * intros ->%elem_of_list_singleton. done.
        * by right.
      + exists u, w.
        assert (Hrest : forall es1 es2, (es = es1 ++ (u, w) :: es2 \/ es = es1 ++ (w, u) :: es2) ->
          joined (es1 ++ es2) w v).
        { clear IH Hs. intros es1 es2 Hes.
          assert (Hgen : forall x, u ∉ x :: p -> chain es x p -> last (x :: p) = Some v ->
            joined (es1 ++ es2) x v).
          { clear -Hes. induction p as [|z p IH]; intros s Hnu Hc Hl.
            - cbn in Hl. injection Hl as ->. apply joined_refl.
            - destruct Hc as [Hs Hc]. rewrite last_cons_cons in Hl.
              apply not_elem_of_cons in Hnu as [Huw Hnu].
              pose proof Hnu as Hnu'. apply not_elem_of_cons in Hnu' as [Huz _].
              eapply joined_trans; [|by eapply IH].
              assert (Hne : forall x y, (x, y) ∈ es -> x <> u -> y <> u -> (x, y) ∈ es1 ++ es2).
              { intros x y Hxy Hx Hy.
                destruct Hes as [->| ->]; apply elem_of_app in Hxy as [Hz|[Hz|Hz]%elem_of_cons];
                try (apply elem_of_app; by left); try (apply elem_of_app; by right);
                injection Hz as -> ->; done. }
              destruct Hs as [Hs|Hs].
              + apply joined_edge, Hne; auto.
              + apply joined_sym, joined_edge, Hne; auto. }
          by apply Hgen. }
        destruct Hs as [Hs|Hs]; apply elem_of_list_split in Hs as (es1 & es2 & Hes).
        * exists es1, es2. split_and!; [done|done|by left|apply joined_refl|apply Hrest; by left| |by left].
          intros ->%elem_of_list_singleton. done.
        * exists es1, es2. split_and!; [done|done|by right|apply joined_refl|apply Hrest; by right| |by left].
          intros ->%elem_of_list_singleton. done.
  Qed.
End joined.

(** Adding to a part of a spanning tree the cheapest edge of a cut that the
    part does not cross keeps it part of a spanning tree that is no worse. *)
Lemma exchange {B} (n : nat) (le : nat * nat -> B -> Prop) (S0 : nat -> Prop) `{!forall a, Decision (S0 a)}
    F G u v (T' : list B) :
  spanning_tree n (F ++ G) ->
  dominated le (F ++ G) T' ->
  (forall a b, (a, b) ∈ F -> (S0 a <-> S0 b)) ->
  (u < n) -> (v < n) -> S0 u -> ~ S0 v ->
  (forall a b y, a < n -> b < n -> S0 a -> ~ S0 b ->
     (le (a, b) y -> le (u, v) y) /\ (le (b, a) y -> le (u, v) y)) ->
  exists G', spanning_tree n ((F ++ [(u, v)]) ++ G') /\ dominated le ((F ++ [(u, v)]) ++ G') T'.
Proof.
  intros (Hlen & Hrange & Hconn) Hdom Hcut Hu Hv HSu HSv Hmin.
  pose proof (Hconn u v Hu Hv) as Huv. apply joined_chain in Huv as (p & Hp & Hnd & Hl).
  destruct (chain_cross (F ++ G) S0 v p u Hp Hnd Hl HSu HSv)
    as (a & b & es1 & es2 & Ha & Hb & Hes & Hua & Hbv & _).
  assert (Hex : exists f, (f = (a, b) \/ f = (b, a)) /\ F ++ G = es1 ++ f :: es2).
  { destruct Hes as [Hes|Hes]; eauto. }
  destruct Hex as (f & Hf & Heq).
  assert (HfG : f ∈ G).
  { assert (Hin : f ∈ F ++ G). { rewrite Heq. apply elem_of_app. right. by left. }
    apply elem_of_app in Hin as [Hin|Hin]; [|done]. exfalso.
    destruct Hf as [->| ->]; apply Hcut in Hin; tauto. }
  apply elem_of_Permutation in HfG as [G' HG'].
  assert (Hperm : es1 ++ es2 ≡ₚ F ++ G').
  { apply (Permutation_cons_inv (a := f)).
    transitivity (F ++ G); [rewrite Heq; by rewrite Permutation_middle|].
    rewrite HG'. by rewrite Permutation_middle. }
  exists G'.
  assert (Hab : a < n /\ b < n).
  { assert (Hin : f ∈ F ++ G). { rewrite Heq. apply elem_of_app. right. by left. }
    destruct Hf as [->| ->]; apply Hrange in Hin; tauto. }
  split.
  - split_and!.
    + apply Permutation_length in HG'. rewrite !app_length in *. cbn in *. lia.
    + intros x y Hxy. apply elem_of_app in Hxy as [[Hxy|Hxy]%elem_of_app|Hxy].
      * apply Hrange. apply elem_of_app. by left.
      * apply elem_of_list_singleton in Hxy. injection Hxy as -> ->. done.
      * apply Hrange. apply elem_of_app. right. rewrite HG'. by right.
    + intros x y Hx Hy. eapply joined_sub; [|by apply (Hconn x y)].
      assert (Hsub : forall s t, joined (es1 ++ es2) s t -> joined ((F ++ [(u, v)]) ++ G') s t).
      { intros s t. apply joined_sub. intros s' t' Hst. apply joined_edge.
        rewrite Hperm in Hst. apply elem_of_app in Hst as [Hst|Hst].
        - apply elem_of_app. left. apply elem_of_app. by left.
        - apply elem_of_app. by right. }
      assert (Hab' : joined ((F ++ [(u, v)]) ++ G') a b).
      { eapply joined_trans; [apply joined_sym, Hsub, Hua|].
        eapply joined_trans; [|apply joined_sym, Hsub, Hbv]. apply joined_edge.
        apply elem_of_app. left. apply elem_of_app. right. by left. }
      intros s t Hst. rewrite Heq in Hst. apply elem_of_app in Hst as [Hst|[Hst|Hst]%elem_of_cons].
      * apply Hsub, joined_edge, elem_of_app. by left.
      * destruct Hf as [->| ->]; injection Hst as -> ->; [done|by apply joined_sym].
      * apply Hsub, joined_edge, elem_of_app. by right.
  - apply (dominated_perm_l le ((u, v) :: F ++ G')).
    { rewrite <-app_assoc. cbn. by rewrite Permutation_middle. }
    apply (dominated_replace le f).
    + intros y. destruct (Hmin a b y) as [H1 H2]; [tauto..|]. by destruct Hf as [->| ->].
    + eapply dominated_perm_l; [|exact Hdom]. rewrite HG'. by rewrite Permutation_middle.
Qed.

(** The star around node 0 is a spanning tree. *)
Lemma star_tree n : n <> 0 -> spanning_tree n (map (fun i => (0, i)) (seq 1 (n - 1))).
Proof.
  intros Hn. split_and!.
  - rewrite map_length, seq_length. lia.
  - intros a b H. apply elem_of_list_fmap in H as (i & [= -> ->] & Hi). apply elem_of_seq in Hi. lia.
  - assert (H0 : forall a, a < n -> joined (map (fun i => (0, i)) (seq 1 (n - 1))) 0 a).
    { intros [|a] Ha; [apply joined_refl|]. apply joined_edge. apply elem_of_list_fmap.
      exists (S a). split; [done|]. apply elem_of_seq. lia. }
    intros a b Ha Hb. eapply joined_trans; [apply joined_sym|]; auto.
Qed.
