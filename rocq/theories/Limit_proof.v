(** Proof that the depth limit of a divide tree is hit only far from the summit. *)
From Verif Require Import Base_model Graph_model Divide_model Divide_spec Divide_proof.
Local Open Scope Z_scope.

Section limit.
  Variables (m : datamap) (w : world).
  Hypothesis Hown : own_links w.
  Variables (master : nat) (b0 : list nat).
  Definition not_hit (t : lpr) : Prop :=
    lp_busted t = b0 \/ exists p b, length p = (2 * max_depth)%nat /\ leads w master p b.

  Lemma chaser_hit room : forall branch path t, (room <= max_depth)%nat -> length path = (2 * (max_depth - room))%nat ->
    leads w master path branch -> not_hit t -> not_hit (branch_chaser m w room master branch path t).
  Proof using Hown.
    induction room as [|room IH]; intros branch path t Hr Hlen Hlead Ht; cbn [branch_chaser].
    { right. exists path, branch. split; [lia|done]. }
    destruct (w_summits w !! branch) as [b|] eqn:Eb; [|done].
    apply foldl_inv; [|done]. clear t Ht. intros t k Hk Ht. unfold link_step.
    destruct (proj1 Hown _ _ _ Eb Hk) as (l & El & Hsu). rewrite El. destruct (ln_disq l) eqn:Ed; [done|].
    destruct (decide _) as [|Hne]; [done|].
    assert (at_summit w branch k) as Hat by (by exists b). assert (joins w k branch (ln_saddle l)) as Hj by (by exists l).
    destruct (w_saddles w !! ln_saddle l) as [sa|] eqn:Es; [|done].
    destruct (disqualified sa) eqn:Edq; [done|]. destruct (ft_edge (sa_feat sa)) eqn:Ee; [done|].
    assert (live_saddle w (ln_saddle l) false) as Hlive by (by exists sa).
    apply foldl_inv; [|done]. clear t Ht Hne. intros t j Hin Ht. unfold next_step.
    apply (others_spec w Hown k l j El) in Hin as (Hjs & Hjk & n & En & Hns & Hnd). rewrite En.
    destruct (decide _) as [|Hne]; [done|]. rewrite Ed.
    assert (joins w j (ln_summit n) (ln_saddle l)) as Hjn by (by exists n).
    destruct (w_summits w !! ln_summit n) as [su|] eqn:Esu; [|done].
    destruct (ft_ele (su_feat su) <=? ft_ele (su_feat b)) eqn:Ele; cbn [andb]; [|done].
    destruct (ft_edge (su_feat su)) eqn:Eedge; [done|].
    apply IH; [lia| | |done].
    - rewrite app_length. cbn [length]. lia.
    - eapply leads_step; [done|]. repeat split; try done; [by exists su|].
      exists (ft_ele (su_feat su)), (ft_ele (su_feat b)). split; [by exists su|]. split; [by exists b|lia].
  Qed.
End limit.

Lemma region_hit m w master t0 : own_links w ->
  lp_busted (local_prominent_region m w master t0) = tr_busted t0 \/
  exists p b, length p = (2 * max_depth)%nat /\ leads w master p b.
Proof.
  intros H. unfold local_prominent_region.
  apply (chaser_hit m w H master (tr_busted t0)); [lia|cbn [length]; lia|constructor|by left].
Qed.
