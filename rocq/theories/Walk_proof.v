(** The walk: inner paths of saddles, synthetic saddles, links, output. *)
From Verif Require Import Tree_spec Walk_model Raster_spec Raster_proof Raster_facts Contig_proof Closest_spec Closest_proof Feature_spec
  Network_spec Rebuild_proof Climb_spec Climb_proof Graph_spec Graph_proof Walk_spec.
From Coq Require Import ZifyBool.
Local Open Scope Z_scope.

(** ** The path inside a saddle *)
Section inner.
  Variables (fpath : datamap -> list mpoint -> mpoint -> mpoint -> option (list mpoint * Q)).
  Variables (m : datamap) (nodes : list mpoint).

  Definition considered (us them : list pte) (p : list mpoint * Q) : Prop :=
    exists u t, u ∈ us /\ t ∈ them /\ fpath m nodes (as_mpoint u) (as_mpoint t) = Some p.
  Definition all_found (us them : list pte) : Prop :=
    forall u t, u ∈ us -> t ∈ them -> is_Some (fpath m nodes (as_mpoint u) (as_mpoint t)).

  Lemma shortest_to_spec u them : forall best lst,
    all_found [u] them ->
    exists b l, shortest_to fpath m nodes u them best lst = Ok (b, l) /\
      (them = [] -> b = best /\ l = lst) /\
      (forall t, last them = Some t -> l = fpath m nodes (as_mpoint u) (as_mpoint t)) /\
      (them <> [] \/ is_Some best -> exists p, b = Some p /\
         (considered [u] them p \/ best = Some p) /\
         (forall q, considered [u] them q \/ best = Some q -> (p.2 <= q.2)%Q)).
  Proof.
    induction them as [|t them IH]; intros best lst Hf; cbn [shortest_to].
    - exists best, lst. split_and!; [done|done|done|]. intros [|[p ->]]; [done|]. exists p.
      split_and!; [done|by right|]. intros q [(?&?&_&H&_)|[= ->]]; [by apply elem_of_nil in H|apply Qle_refl].
    - destruct (Hf u t) as [p Hp]; [by left|by left|]. rewrite Hp.
      destruct (IH (match best with None => Some p
                    | Some b => if Qlt_bool p.2 b.2 then Some p else Some b end) (Some p))
        as (b & l & -> & H1 & H2 & H3).
      { intros u' t' Hu' Ht'. apply Hf; [done|by right]. }
      exists b, l. split; [done|]. split; [done|]. split.
      + intros t' Ht'. destruct them as [|t2 them].
        * cbn in Ht'. injection Ht' as <-. destruct (H1 eq_refl) as [_ ->]. done.
        * by apply H2.
      + intros _. destruct H3 as (r & -> & H3 & H4).
        { right. destruct best as [b'|]; [destruct (Qlt_bool _ _)|]; eauto. }
        exists r. split; [done|].
        assert (Hpc : considered [u] (t :: them) p) by (exists u, t; split_and!; [by left|by left|done]).
        assert (Hw : forall q, considered [u] them q -> considered [u] (t :: them) q).
        { intros q (u' & t' & Hu & Ht & Hq). exists u', t'. split_and!; [done|by right|done]. }
        split.
        * destruct H3 as [H3|H3]; [left; by apply Hw|].
          destruct best as [b'|]; [|by left; injection H3 as <-].
          destruct (Qlt_bool p.2 b'.2); injection H3 as <-; [by left|by right].
        * assert (Hbest : (r.2 <= p.2)%Q /\ forall b', best = Some b' -> (r.2 <= b'.2)%Q).
          { destruct best as [b'|].
            - destruct (Qlt_bool p.2 b'.2) eqn:El.
              + apply Qlt_bool_iff in El. pose proof (H4 p ltac:(by right)).
                split; [done|]. intros b2 [= <-]. eapply Qle_trans; [done|by apply Qlt_le_weak].
              + pose proof (H4 b' ltac:(by right)). split; [|intros b2 [= <-]; done].
                eapply Qle_trans; [done|]. apply Qnot_lt_le. intros Hlt. apply Qlt_bool_iff in Hlt. congruence.
            - split; [|done]. apply H4. by right. }
          intros q [(u' & t' & Hu & Ht & Hq)|Hq]; [|by apply (proj2 Hbest)].
          apply elem_of_list_singleton in Hu as ->.
          apply elem_of_cons in Ht as [->|Ht].
          -- assert (q = p) as -> by congruence. exact (proj1 Hbest).
          -- apply H4. left. exists u, t'. split_and!; [by left|done|done].
  Qed.

  Definition best_from (them : list pte) (u : pte) (b : option (list mpoint * Q)) : Prop :=
    exists p, b = Some p /\ considered [u] them p /\ forall q, considered [u] them q -> (p.2 <= q.2)%Q.

  Lemma all_shortest_spec them us : them <> [] -> forall lst, all_found us them ->
    exists bs l, all_shortest fpath m nodes us them lst = Ok (bs, l) /\
      Forall2 (best_from them) us bs /\
      (us = [] -> l = lst) /\
      (forall u t, last us = Some u -> last them = Some t -> l = fpath m nodes (as_mpoint u) (as_mpoint t)).
  Proof.
    intros Ht. induction us as [|u us IH]; intros lst Hf; cbn [all_shortest].
    - exists [], lst. split_and!; [done|constructor|done|done].
    - destruct (shortest_to_spec u them None lst) as (b & l & -> & _ & H2 & H3).
      { intros u' t' ->%elem_of_list_singleton Ht'. apply Hf; [by left|done]. }
      cbn [rbind]. destruct (IH l) as (bs & l' & -> & H4 & H5 & H6).
      { intros u' t' Hu' Ht'. apply Hf; [by right|done]. }
      cbn [rbind]. exists (b :: bs), l'. split; [done|]. split; [|split; [done|]].
      + constructor; [|done]. destruct H3 as (p & -> & H7 & H8); [by left|]. exists p.
        split_and!; [done|by destruct H7|]. intros q Hq. apply H8. by left.
      + intros u' t' Hu' Ht'. destruct us as [|u2 us].
        * cbn in Hu'. injection Hu' as <-. rewrite (H5 eq_refl). by apply H2.
        * by apply H6.
  Qed.

  Lemma overall_min path them : forall us bs b, Forall2 (best_from them) us bs ->
    exists r, foldM (overall_step path) bs (Some b) = Ok (Some r) /\
      (r = b \/ considered us them r) /\ (r.2 <= b.2)%Q /\
      forall q, considered us them q -> (r.2 <= q.2)%Q.
  Proof.
    intros us bs b H. revert b. induction H as [|u o us bs (p & -> & Hp & Hmin) H IH]; intros b; cbn [foldM].
    - exists b. split_and!; [done|by left|apply Qle_refl|]. intros q (u & t & Hu & _). by apply elem_of_nil in Hu.
    - cbn [overall_step rbind].
      set (b2 := if Qlt_bool p.2 b.2 then p else b).
      assert (Hb2 : (if Qlt_bool p.2 b.2 then Some p else Some b) = Some b2) by (unfold b2; by destruct (Qlt_bool _ _)).
      rewrite Hb2. destruct (IH b2) as (r & -> & H1 & H2 & H3).
      assert (Hle : (b2.2 <= b.2)%Q /\ (b2.2 <= p.2)%Q).
      { unfold b2. destruct (Qlt_bool p.2 b.2) eqn:El.
        - apply Qlt_bool_iff in El. split; [by apply Qlt_le_weak|apply Qle_refl].
        - split; [apply Qle_refl|]. apply Qnot_lt_le. intros Hlt. apply Qlt_bool_iff in Hlt. congruence. }
      assert (Hw : forall q us', (forall x, x ∈ us' -> x ∈ u :: us) -> considered us' them q -> considered (u :: us) them q).
      { intros q us' Hs (u' & t' & Hu & Ht & Hq). exists u', t'. split_and!; [by apply Hs|done|done]. }
      exists r. split_and!; [done| | |].
      + destruct H1 as [->|H1].
        * unfold b2. destruct (Qlt_bool p.2 b.2); [right|by left].
          apply (Hw p [u]); [|done]. intros x ->%elem_of_list_singleton. by left.
        * right. apply (Hw r us); [|done]. intros x Hx. by right.
      + eapply Qle_trans; [done|apply Hle].
      + intros q (u' & t' & Hu & Ht & Hq). apply elem_of_cons in Hu as [->|Hu].
        * eapply Qle_trans; [exact H2|]. eapply Qle_trans; [apply Hle|]. apply Hmin.
          exists u, t'. split_and!; [by left|done|done].
        * apply H3. by exists u', t'.
  Qed.
End inner.

Lemma last_some {A} (l : list A) : l <> [] -> exists a, last l = Some a.
Proof. destruct l as [|a l]; [done|]. intros _. destruct (last (a :: l)) eqn:E; [eauto|]. by apply last_None in E. Qed.

Section hpn_path.
  Variables (fpath : datamap -> list mpoint -> mpoint -> mpoint -> option (list mpoint * Q)).
  Variables (m : datamap).

  (** saddle.py:187-239: the result comes from a path that was computed, but the
      paths from the first point of the first group do not compete. *)
  Lemma hpn_path_spec f g0 g1 gs nodes :
    ft_hpn f = g0 :: g1 :: gs -> g0 <> [] -> g1 <> [] -> hpath_nodes m f = Ok nodes ->
    (forall u t, u ∈ g0 -> t ∈ g1 -> exists ns c,
       fpath m nodes (as_mpoint u) (as_mpoint t) = Some (ns, c) /\ ns <> []) ->
    exists r u t ns c, hpn_shortest_path fpath m f = Ok r /\ u ∈ g0 /\ t ∈ g1 /\
      fpath m nodes (as_mpoint u) (as_mpoint t) = Some (ns, c) /\ ends_of ns r /\
      (length g0 = 1%nat -> last g1 = Some t) /\
      ((2 <= length g0)%nat -> u ∈ tail g0 /\
         forall u' t' ns' c', u' ∈ tail g0 -> t' ∈ g1 ->
           fpath m nodes (as_mpoint u') (as_mpoint t') = Some (ns', c') -> (c <= c')%Q).
  Proof.
    intros Hh H0 H1 Hn Hf. unfold hpn_shortest_path. rewrite Hh, Hn. cbn [rbind].
    assert (Haf : all_found fpath m nodes g0 g1).
    { intros u t Hu Ht. destruct (Hf u t Hu Ht) as (ns & c & -> & _). eauto. }
    destruct (all_shortest_spec fpath m nodes g1 g0 H1 None Haf) as (bs & l & -> & Hbs & _ & Hl).
    cbn [rbind]. destruct (last_some g0 H0) as [ul Hul]. destruct (last_some g1 H1) as [tl Htl].
    assert (Hulin : ul ∈ g0) by (apply last_Some in Hul as [? ->]; apply elem_of_app; right; by left).
    assert (Htlin : tl ∈ g1) by (apply last_Some in Htl as [? ->]; apply elem_of_app; right; by left).
    specialize (Hl ul tl Hul Htl). destruct (Hf ul tl Hulin Htlin) as (nl & cl & Hpl & Hnl).
    rewrite Hpl in Hl. subst l.
    destruct g0 as [|u0 g0]; [done|]. inversion Hbs as [|? b0 ? bs' Hb0 Hbs']; subst.
    cbn [foldM overall_step rbind].
    destruct (overall_min fpath m nodes (Some (nl, cl)) g1 g0 bs' (nl, cl) Hbs') as (r & -> & Hr1 & Hr2 & Hr3).
    cbn [rbind].
    assert (Hrc : exists u t, u ∈ u0 :: g0 /\ t ∈ g1 /\ fpath m nodes (as_mpoint u) (as_mpoint t) = Some r /\
      (length (u0 :: g0) = 1%nat -> last g1 = Some t) /\ ((2 <= length (u0 :: g0))%nat -> u ∈ g0)).
    { destruct Hr1 as [->|(u & t & Hu & Ht & Hp)].
      - exists ul, tl. split_and!; [done|done|done|done|]. intros Hlen. destruct g0 as [|u1 g0]; [cbn in Hlen; lia|].
        change (last (u1 :: g0) = Some ul) in Hul. apply last_Some in Hul as [? ->]. apply elem_of_app; right; by left.
      - exists u, t. split_and!; [by right|done|done| |done].
        destruct g0; [by apply elem_of_nil in Hu|]. done. }
    destruct Hrc as (u & t & Hu & Ht & Hp & Hone & Htail). destruct r as [ns c].
    destruct (Hf u t Hu Ht) as (ns' & c' & Hp' & Hne). rewrite Hp in Hp'. injection Hp' as <- <-.
    destruct (head ns) as [a|] eqn:Ea; [|by destruct ns].
    destruct (last_some ns Hne) as [b Hb]. rewrite Hb.
    destruct (ns !! (length ns `div` 2)%nat) as [cc|] eqn:Ec.
    2:{ apply lookup_ge_None in Ec. destruct ns as [|x ns]; [done|]. cbn [length] in Ec.
        pose proof (Nat.div_lt (S (length ns)) 2). lia. }
    exists (a, b, cc), u, t, ns, c. split_and!; try done.
    intros Hlen. split; [by apply Htail|]. intros u' t' ns' c' Hu' Ht' Hp2. cbn in Hu'.
    apply (Hr3 (ns', c')). by exists u', t'.
  Qed.
End hpn_path.
