(** Proofs about the ids that are written when the result of an analysis is saved. *)
From Verif Require Import Graph_model Persist_model Persist_spec Store_model Store_spec Written_proof.
Local Open Scope string_scope.

Lemma named_all {A B} (name : nat -> string) (get : nat -> option A) (put : nat -> A -> B) l : (forall i, i ∈ l -> is_Some (get i)) ->
  Forall2 (fun i e => exists a, get i = Some a /\ e = (name i, put i a)) l (named name get put l).
Proof.
  unfold named. induction l as [|i l IH]; intros H; cbn; [constructor|]. destruct (H i) as [a Ha]; [by left|]. rewrite Ha. cbn.
  constructor; [by exists a|]. apply IH. intros j Hj. apply H. by right.
Qed.
Lemma Forall2_compose {A B C} (P : A -> B -> Prop) (Q : B -> C -> Prop) (R : A -> C -> Prop) l k n :
  (forall a b c, P a b -> Q b c -> R a c) -> Forall2 P l k -> Forall2 Q k n -> Forall2 R l n.
Proof.
  intros H HP. revert n. induction HP; intros n HQ; inversion HQ; subst; constructor; eauto.
Qed.
Section written.
  Variables (m : datamap) (su_name sa_name ln_name : nat -> string) (rim_of : feature -> perimeter * bool * list pte).
  Variables (d : dmap) (doms : list nat) (pts : nat -> list pte).
  Local Notation w := (mp_world d).
  Lemma store_written md5 v : whole d -> map_to_dict md5 (store m su_name sa_name ln_name rim_of d doms pts) = Ok v ->
    exists s1 s2 s3 v1 v2 v3, dget v "summits" = Ok s1 /\ dget s1 "summits" = Ok (VSeq v1) /\
      dget v "saddles" = Ok s2 /\ dget s2 "saddles" = Ok (VSeq v2) /\ dget v "runoffs" = Ok s3 /\ dget s3 "runoffs" = Ok (VSeq v3) /\
      Forall2 (fun a x => exists u, w_summits w !! a = Some u /\ dget x "id" = Ok (VStr (su_name a)) /\
        names_in x "saddles" (map ln_name (su_links u))) (mp_summits d) v1 /\
      Forall2 (fun i x => exists o, w_saddles w !! i = Some o /\ dget x "id" = Ok (VStr (sa_name i)) /\
        names_in x "summits" (map ln_name (sa_links o)) /\ names_in x "children" (map sa_name (sa_children o)))
        (mp_saddles d ++ mp_runoffs d) (v2 ++ v3).
  Proof.
    intros Hw H. destruct (map_written _ _ _ H) as (s1 & s2 & s3 & v1 & v2 & v3 & E1 & E2 & E3 & E4 & E5 & E6 & F1 & F2).
    exists s1, s2, s3, v1, v2, v3. do 6 (split; [assumption|]). cbn [store pm_summits pm_saddles pm_runoffs] in F1, F2. split.
    - eapply Forall2_compose; [| |exact F1]; [|apply named_all, (wh_summits _ Hw)].
      intros a e x (u & Hu & ->) [Hid Hn]. by exists u.
    - eapply Forall2_compose; [| |exact F2].
      2: { apply Forall2_app; apply named_all; intros i Hi; apply (wh_saddles _ Hw); apply elem_of_app; auto. }
      intros i e x (o & Ho & ->) [Hid Hn]. by exists o.
  Qed.
End written.
