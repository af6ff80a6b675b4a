(** The highest points and the lower groups among border cells some of which hold
    NaN. *)
From Verif Require Import Nan_model Nan_spec.
Local Open Scope Z_scope.

Lemma loop_spec h acc l : exists h', h <= h' /\ (forall q z, (q, Num z) ∈ l -> z <= h') /\ (h' = h \/ exists q, (q, Num h') ∈ l) /\
  n_highest_loop (Num h) acc l = (if decide (h' = h) then acc else []) ++ filter (fun p : npt => p.2 = Num h') l.
Proof.
  revert h acc. induction l as [|[q [z|c]] l IH]; intros h acc; cbn [n_highest_loop snd n_lt n_eq].
  - exists h. split; [lia|]. split; [intros q z H; by apply elem_of_nil in H|]. split; [by left|]. rewrite decide_True by done. by rewrite app_nil_r.
  - destruct (Z.ltb_spec h z) as [Hlt|Hge].
    + destruct (IH z [(q, Num z)]) as (h' & H1 & H2 & H3 & ->). exists h'. split; [lia|]. split.
      { intros q' z' [[= -> ->]|Hin]%elem_of_cons; [lia|by eapply H2]. }
      split. { right. destruct H3 as [->|[q' Hq']]; [exists q; by left|exists q'; by right]. }
      rewrite (decide_False (P := h' = h)) by lia. rewrite filter_cons. cbn [snd app].
      destruct (decide (h' = z)) as [->|]; [by rewrite decide_True|]. rewrite decide_False by congruence. done.
    + destruct (Z.eqb_spec z h) as [->|Hne].
      * destruct (IH h (acc ++ [(q, Num h)])) as (h' & H1 & H2 & H3 & ->). exists h'. split; [lia|]. split.
        { intros q' z' [[= -> ->]|Hin]%elem_of_cons; [lia|by eapply H2]. }
        split. { destruct H3 as [->|[q' Hq']]; [by left|right; exists q'; by right]. }
        rewrite filter_cons. cbn [snd]. destruct (decide (h' = h)) as [->|].
        -- rewrite decide_True by done. by rewrite <-app_assoc.
        -- rewrite decide_False by congruence. done.
      * destruct (IH h acc) as (h' & H1 & H2 & H3 & ->). exists h'. split; [lia|]. split.
        { intros q' z' [[= -> ->]|Hin]%elem_of_cons; [lia|by eapply H2]. }
        split. { destruct H3 as [->|[q' Hq']]; [by left|right; exists q'; by right]. }
        rewrite filter_cons. cbn [snd]. by rewrite (decide_False (P := Num z = Num h')) by (intros [= ->]; lia).
  - destruct (IH h acc) as (h' & H1 & H2 & H3 & ->). exists h'. split; [lia|]. split.
    { intros q' z' [Hx|Hin]%elem_of_cons; [done|by eapply H2]. }
    split. { destruct H3 as [->|[q' Hq']]; [by left|right; exists q'; by right]. }
    rewrite filter_cons. cbn [snd]. by rewrite (decide_False (P := NaN c = Num h')).
Qed.

Lemma highest_spec q z l : exists h q', (q', Num h) ∈ (q, Num z) :: l /\ (forall q'' z', (q'', Num z') ∈ (q, Num z) :: l -> z' <= h) /\
  n_highest ((q, Num z) :: l) = Ok (filter (fun p : npt => p.2 = Num h) ((q, Num z) :: l)).
Proof.
  unfold n_highest. cbn [snd]. destruct (loop_spec z [] ((q, Num z) :: l)) as (h & H1 & H2 & H3 & E).
  exists h. assert (exists q', (q', Num h) ∈ (q, Num z) :: l) as [q' Hq']. { destruct H3 as [->|?]; [exists q; by left|done]. }
  exists q'. split; [done|]. split; [done|]. rewrite E. by destruct (decide (h = z)).
Qed.

Lemma nan_first c q l : exists h, n_highest ((q, NaN c) :: l) = Ok h /\ h = [].
Proof.
  unfold n_highest. cbn [snd]. eexists. split; [reflexivity|]. assert (forall l acc, n_highest_loop (NaN c) acc l = acc) as H.
  { clear. induction l as [|[q v] l IH]; intros acc; cbn [n_highest_loop snd n_lt]; [done|]. destruct v; cbn; apply IH. }
  apply H.
Qed.

Lemma lower_spec e gs : (forall g, g ∈ gs -> exists q z l, g = (q, Num z) :: l) ->
  n_lower_groups (Num e) gs = Ok (filter (numbers_below e) gs).
Proof.
  induction gs as [|g gs IH]; intros Hg; cbn [n_lower_groups]; [done|].
  destruct (Hg g ltac:(by left)) as (q & z & l & ->). destruct (highest_spec q z l) as (h & q' & H1 & H2 & ->). cbn [rbind].
  destruct (filter (fun p : npt => p.2 = Num h) ((q, Num z) :: l)) as [|p r] eqn:E.
  { exfalso. assert ((q', Num h) ∈ filter (fun p : npt => p.2 = Num h) ((q, Num z) :: l)) as H by (by apply elem_of_list_filter).
    rewrite E in H. by apply elem_of_nil in H. }
  assert (p.2 = Num h) as Hp.
  { assert (p ∈ filter (fun p : npt => p.2 = Num h) ((q, Num z) :: l)) as H by (rewrite E; by left). by apply elem_of_list_filter in H as [? _]. }
  rewrite IH by (intros g Hin; apply Hg; by right). cbn [rbind]. rewrite Hp. cbn [n_lt]. f_equal. rewrite filter_cons.
  destruct (Z.ltb_spec h e) as [Hlt|Hge].
  - rewrite decide_True; [done|]. intros q1 z1 Hin. specialize (H2 q1 z1 Hin). lia.
  - rewrite decide_False; [done|]. intros Hall. specialize (Hall q' h H1). lia.
Qed.
