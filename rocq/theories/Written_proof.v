(** Proofs about the ids that are written into a saved map. *)
From Verif Require Import Persist_model Persist_spec.
Local Open Scope string_scope.

Lemma written_all {A} (f : A -> res val) (P : A -> val -> Prop) l : (forall a v, f a = Ok v -> P a v) ->
  forall vs, write_all f l = Ok vs -> Forall2 P l vs.
Proof.
  intros H. induction l as [|a l IH]; intros vs E; cbn in E; [injection E as <-; constructor|].
  destruct (f a) as [v|] eqn:Ev; [|done]. cbn in E. destruct (write_all f l) as [r|]; [|done]. cbn in E. injection E as <-.
  constructor; [by apply H|by apply IH].
Qed.
Lemma put_multi_keys u mu : put_multi u = Ok mu -> mu = [] \/ exists v, mu = [("multipoint", v)].
Proof.
  unfold put_multi. destruct u as [u|]; [|intros [= <-]; by left]. case_decide; [intros [= <-]; by left|].
  destruct (multi_to_dict u); [|done]. intros [= <-]. right. by eexists.
Qed.
Lemma summit_written e v : summit_to_dict e = Ok v -> dget v "id" = Ok (VStr e.1) /\ names_in v "saddles" (pu_links e.2).
Proof.
  unfold summit_to_dict. destruct (put_multi _) as [mu|] eqn:E; [|done]. cbn [rbind]. intros [= <-].
  unfold names_in, dget. destruct (put_multi_keys _ _ E) as [->|[x ->]]; by cbn.
Qed.
Lemma saddle_written e v : saddle_to_dict e = Ok v ->
  dget v "id" = Ok (VStr e.1) /\ names_in v "summits" (pa_links e.2) /\ names_in v "children" (pa_children e.2).
Proof.
  unfold saddle_to_dict. destruct (put_multi _) as [mu|] eqn:E; [|done]. cbn [rbind]. intros [= <-].
  unfold names_in, dget, entry. destruct (put_multi_keys _ _ E) as [->|[x ->]];
    destruct (pa_single _), (pa_basin _), (bool_decide _), (bool_decide _); by cbn.
Qed.
Lemma map_written md5 p d : map_to_dict md5 p = Ok d ->
  exists s1 s2 s3 v1 v2 v3, dget d "summits" = Ok s1 /\ dget s1 "summits" = Ok (VSeq v1) /\
    dget d "saddles" = Ok s2 /\ dget s2 "saddles" = Ok (VSeq v2) /\ dget d "runoffs" = Ok s3 /\ dget s3 "runoffs" = Ok (VSeq v3) /\
    Forall2 (fun e v => dget v "id" = Ok (VStr e.1) /\ names_in v "saddles" (pu_links e.2)) (pm_summits p) v1 /\
    Forall2 (fun e v => dget v "id" = Ok (VStr e.1) /\ names_in v "summits" (pa_links e.2) /\ names_in v "children" (pa_children e.2))
      (pm_saddles p ++ pm_runoffs p) (v2 ++ v3).
Proof.
  unfold map_to_dict, summits_to_dict, saddles_to_dict, runoffs_to_dict.
  destruct (write_all summit_to_dict _) as [v1|] eqn:E1; [|done]. cbn [rbind].
  destruct (write_all saddle_to_dict (pm_saddles p)) as [v2|] eqn:E2; [|done]. cbn [rbind].
  destruct (write_all saddle_to_dict (pm_runoffs p)) as [v3|] eqn:E3; [|done]. cbn [rbind]. intros [= <-].
  eexists _, _, _, v1, v2, v3. do 6 (split; [reflexivity|]).
  split; [exact (written_all _ _ _ summit_written _ E1)|].
  apply Forall2_app; [exact (written_all _ _ _ saddle_written _ E2)|exact (written_all _ _ _ saddle_written _ E3)].
Qed.
