(** Proofs about the boundaries that a run over all summits collects. *)
From Verif Require Import Base_model Graph_model Divide_model Basin_model Graph_spec Persist_spec Basin_spec Divide_spec Region_spec
  Divide_proof Region_proof Region_list_proof.
Local Open Scope Z_scope.

Section collect.
  Variable m : datamap.
  Variable w : world.

  (** The lists only grow. *)
  Definition grown (t t' : lpr) : Prop :=
    (forall a s, s ∈ lp_at_summit t a -> s ∈ lp_at_summit t' a) /\ (forall a s, a ∈ lp_at_saddle t s -> a ∈ lp_at_saddle t' s) /\
    (forall a, a ∈ lp_busted t -> a ∈ lp_busted t').
  Lemma grown_refl t : grown t t.
  Proof. by repeat split. Qed.
  Lemma grown_trans t1 t2 t3 : grown t1 t2 -> grown t2 t3 -> grown t1 t3.
  Proof. intros (H1 & H2 & H3) (H4 & H5 & H6). split_and!; eauto. Qed.
  Lemma grown_bust a t : grown t (lp_bust m w a t).
  Proof.
    unfold lp_bust. destruct (existsb _ _); [apply grown_refl|]. split_and!; try done. cbn. intros x Hx. apply elem_of_app. by left.
  Qed.
  Lemma grown_boundary a s t : grown t (lp_boundary m w a s t).
  Proof.
    split_and!; cbn; [| |done].
    - intros x y Hy. destruct (existsb _ _); [done|]. destruct (Nat.eqb_spec x a) as [->|]; [apply elem_of_app; by left|done].
    - intros x y Hy. destruct (existsb _ _); [done|]. destruct (Nat.eqb_spec y s) as [->|]; [apply elem_of_app; by left|done].
  Qed.
  Lemma grown_fold {A} (f : lpr -> A -> lpr) l t : (forall t x, grown t (f t x)) -> grown t (foldl f t l).
  Proof. intros H. revert t. induction l as [|x l IH]; intros t; [apply grown_refl|]. cbn. eapply grown_trans; [apply H|apply IH]. Qed.
  Lemma chaser_grown room : forall a branch path t, grown t (branch_chaser m w room a branch path t).
  Proof.
    induction room as [|room IH]; intros a branch path t; cbn [branch_chaser]; [apply grown_bust|].
    destruct (w_summits w !! branch) as [b|]; [|apply grown_refl]. apply grown_fold. clear t. intros t k. unfold link_step.
    destruct (w_links w !! k) as [l|]; [|apply grown_refl]. destruct (ln_disq l); [apply grown_refl|].
    destruct (decide _); [apply grown_refl|]. destruct (w_saddles w !! ln_saddle l) as [sa|]; [|by repeat split].
    destruct (disqualified sa); [by repeat split|]. destruct (ft_edge (sa_feat sa)); [by repeat split|].
    eapply (grown_trans _ (lp_mark k t)); [by repeat split|]. apply grown_fold. intros t0 j. unfold next_step.
    destruct (w_links w !! j) as [n0|]; [|apply grown_refl]. destruct (decide _); [apply grown_refl|].
    destruct (ln_disq l); [apply grown_refl|]. destruct (w_summits w !! ln_summit n0) as [su|]; [|apply grown_refl].
    destruct (_ && _); [by repeat split|]. destruct (_ <=? _); [apply IH|].
    eapply grown_trans; [|apply grown_boundary]. by repeat split.
  Qed.

  Lemma region_grown a t : grown (Lpr [] [] false (tr_busted t) (tr_at_saddle t) (tr_at_summit t)) (local_prominent_region m w a t).
  Proof. apply chaser_grown. Qed.

  Hypothesis Hown : own_links w.
  Lemma run_collects summits t h out t' : run_tree m w summits t = Ok (h, out, t') ->
    (forall a p q s, (a, p) ∈ out -> (q, s) ∈ lp_paths p ->
      (lp_edge p = true /\ ends_at w (border_at w) a q s) \/
      (ends_at w (divide_at w) a q s /\ (exists s', s' ∈ tr_at_summit t' a /\ saddle_alike m w s s') /\
       (exists a', a' ∈ tr_at_saddle t' s /\ summit_alike m w a a'))) /\
    (forall a s, s ∈ tr_at_summit t' a -> s ∈ tr_at_summit t a \/
      exists p q, (a, p) ∈ out /\ (q, s) ∈ lp_paths p /\ ends_at w (divide_at w) a q s) /\
    (forall a s, a ∈ tr_at_saddle t' s -> a ∈ tr_at_saddle t s \/
      exists p q, (a, p) ∈ out /\ (q, s) ∈ lp_paths p /\ ends_at w (divide_at w) a q s) /\
    (forall a s, (s ∈ tr_at_summit t a -> s ∈ tr_at_summit t' a) /\ (a ∈ tr_at_saddle t s -> a ∈ tr_at_saddle t' s)) /\
    (forall a, a ∈ tr_busted t' -> a ∈ tr_busted t \/ a ∈ summits) /\
    (forall a, a ∈ tr_busted t -> a ∈ tr_busted t') /\
    (forall a p x, (a, p) ∈ out -> x ∈ lp_busted p -> x ∈ tr_busted t').
  Proof using Hown.
    unfold run_tree. destruct (first_highest w summits) as [h'|e]; [|done]. cbn [rbind].
    set (f := fun (acc : list (nat * lpr) * tree) a => _).
    set (P := fun (pre : list nat) (acc : list (nat * lpr) * tree) => let out := acc.1 in let t' := acc.2 in
      (forall a p q s, (a, p) ∈ out -> (q, s) ∈ lp_paths p ->
        (lp_edge p = true /\ ends_at w (border_at w) a q s) \/
        (ends_at w (divide_at w) a q s /\ (exists s', s' ∈ tr_at_summit t' a /\ saddle_alike m w s s') /\
         (exists a', a' ∈ tr_at_saddle t' s /\ summit_alike m w a a'))) /\
      (forall a s, s ∈ tr_at_summit t' a -> s ∈ tr_at_summit t a \/
        exists p q, (a, p) ∈ out /\ (q, s) ∈ lp_paths p /\ ends_at w (divide_at w) a q s) /\
      (forall a s, a ∈ tr_at_saddle t' s -> a ∈ tr_at_saddle t s \/
        exists p q, (a, p) ∈ out /\ (q, s) ∈ lp_paths p /\ ends_at w (divide_at w) a q s) /\
      (forall a s, (s ∈ tr_at_summit t a -> s ∈ tr_at_summit t' a) /\ (a ∈ tr_at_saddle t s -> a ∈ tr_at_saddle t' s)) /\
      (forall a, a ∈ tr_busted t' -> a ∈ tr_busted t \/ a ∈ pre) /\
      (forall a, a ∈ tr_busted t -> a ∈ tr_busted t') /\
      (forall a p x, (a, p) ∈ out -> x ∈ lp_busted p -> x ∈ tr_busted t')).
    assert (P summits (foldl f ([], t) summits)) as H.
    { apply foldl_prefix.
      - unfold P. cbn. split_and!; try done; try (intros; by left); try (intros; exfalso; by eapply not_elem_of_nil).
      - intros pre x [o t1] _ (H1 & H2 & H3 & H4 & H5 & H6 & H7). cbn [fst snd] in *.
        pose proof (region_grown x t1) as (G1 & G2 & G3). cbn [lp_at_summit lp_at_saddle lp_busted] in G1, G2, G3.
        pose proof (region_sound m w Hown x t1) as S. pose proof (region_listed m w Hown x t1) as L.
        unfold P, f. cbn [fst snd tr_at_summit tr_at_saddle tr_busted]. set (r := local_prominent_region m w x t1) in *. clearbody r.
        split_and!.
        + intros a p q s. rewrite elem_of_app, elem_of_list_singleton. intros [Hin|[= -> ->]] Hq; [|exact (L q s Hq)].
          destruct (H1 a p q s Hin Hq) as [?|(K1 & (s' & K2 & K3) & (a' & K4 & K5))]; [by left|]. right. split; [done|]. split; [exists s'; split; [by apply G1|done]|exists a'; split; [by apply G2|done]].
        + intros a s Hs. destruct (decide (a = x)) as [->|Hne].
          * destruct (so_summit _ _ _ _ S s Hs) as [Ho|(q & K1 & K2)].
            -- destruct (H2 x s Ho) as [?|(p & q & K1 & K2)]; [by left|]. right. exists p, q. split; [apply elem_of_app; by left|done].
            -- right. exists r, q. split; [apply elem_of_app; right; by left|done].
          * rewrite (so_others _ _ _ _ S a Hne) in Hs. destruct (H2 a s Hs) as [?|(p & q & K1 & K2)]; [by left|].
            right. exists p, q. split; [apply elem_of_app; by left|done].
        + intros a s Hs. destruct (so_saddle _ _ _ _ S a s Hs) as [Ho|(-> & q & K1 & K2)].
          * destruct (H3 a s Ho) as [?|(p & q & K1 & K2)]; [by left|]. right. exists p, q. split; [apply elem_of_app; by left|done].
          * right. exists r, q. split; [apply elem_of_app; right; by left|done].
        + intros a s. destruct (H4 a s) as [K1 K2]. split; [intros K; by apply G1, K1|intros K; by apply G2, K2].
        + intros a Ha. rewrite elem_of_app, elem_of_list_singleton. destruct (so_busted _ _ _ _ S a Ha) as [Ho| ->]; [|by right; right].
          destruct (H5 a Ho); [by left|by right; left].
        + intros a Ha. by apply G3, H6.
        + intros a p y. rewrite elem_of_app, elem_of_list_singleton. intros [Hin|[= -> ->]] Hy; [|done]. apply G3. by eapply H7. }
    unfold P in H. destruct (foldl f ([], t) summits) as [o t1]. intros [= <- <- <-]. exact H.
  Qed.
End collect.
