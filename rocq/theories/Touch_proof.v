(** Correctness of touching_neighborhoods and highest. *)
From Verif Require Import Contig_model Raster_spec Raster_proof Contig_proof.
From Coq Require Import ZifyBool Sorting.Sorted.
Local Open Scope Z_scope.

Lemma foldM_pure {A S} (f : A -> S -> S) (g : A -> S -> res S) l s :
  (forall a s, g a s = Ok (f a s)) -> foldM g l s = Ok (foldl (fun s a => f a s) s l).
Proof.
  intros H. revert s. induction l as [|a l IH]; intros s; cbn; [done|].
  rewrite H. cbn. apply IH.
Qed.

(** The sequence of (list index, neighbouring cell) pairs that are examined. *)
Definition tn_ev (m : datamap) (k : nat) (p : pte) : list (Z * xy) :=
  map (fun n : xy * option Z => (Z.of_nat k, n.1)) (full_nbrs m (pt_x p) (pt_y p)).
Fixpoint tn_events (m : datamap) (k : nat) (ls : list (list pte)) : list (Z * xy) :=
  match ls with
  | [] => []
  | g :: ls => concat (map (tn_ev m k) g) ++ tn_events m (S k) ls
  end.

Lemma foldl_concat_map {A B S} (f : S -> B -> S) (e : A -> list B) l s :
  foldl f s (concat (map e l)) = foldl (fun s a => foldl f s (e a)) s l.
Proof.
  revert s. induction l as [|a l IH]; intros s; cbn; [done|]. by rewrite foldl_app, IH.
Qed.

Lemma foldl_map {A B S} (f : S -> B -> S) (e : A -> B) l s :
  foldl f s (map e l) = foldl (fun s a => f s (e a)) s l.
Proof. revert s. induction l as [|a l IH]; intros s; cbn; [done|]. by rewrite IH. Qed.

Lemma touching_flat m ls :
  touching_neighborhoods m ls =
  Ok (tn_result (foldl (fun s ev => tn_visit (tn_lookup ls) ev.1 ev.2 s) (TN [] [])
                   (tn_events m 0 ls))).
Proof.
  unfold touching_neighborhoods. generalize (TN [] []) as s. generalize (tn_lookup ls) as lk.
  intros lk s.
  erewrite (foldM_pure (fun (ip : nat * list pte) s =>
      foldl (fun s p => foldl (fun s (n : xy * option Z) => tn_visit lk (Z.of_nat ip.1) n.1 s) s
          (full_nbrs m (pt_x p) (pt_y p))) s ip.2)).
  2:{ intros [k g] s'. cbn [fst snd]. erewrite (foldM_pure (fun p s =>
        foldl (fun s (n : xy * option Z) => tn_visit lk (Z.of_nat k) n.1 s) s
          (full_nbrs m (pt_x p) (pt_y p)))); [done|].
      intros p s''. by rewrite iterateFull_eq. }
  cbn [rbind]. do 2 f_equal.
  assert (H : forall ls k s, foldl (fun s (ip : nat * list pte) =>
      foldl (fun s p => foldl (fun s (n : xy * option Z) => tn_visit lk (Z.of_nat ip.1) n.1 s) s
          (full_nbrs m (pt_x p) (pt_y p))) s ip.2) s (imap (fun i g => ((k + i)%nat, g)) ls) =
      foldl (fun s ev => tn_visit lk ev.1 ev.2 s) s (tn_events m k ls)).
  { clear. induction ls as [|g ls IH]; intros k s; [done|].
    cbn [tn_events]. rewrite imap_cons, foldl_app, foldl_concat_map. cbn [foldl fst snd].
    rewrite Nat.add_0_r.
    rewrite (imap_ext _ (fun i g => ((S k + i)%nat, g))).
    2:{ intros i ? _. cbn; f_equal; lia. }
    rewrite IH. f_equal. }
  specialize (H ls 0%nat s). cbn [Nat.add] in H. rewrite <-H. done.
Qed.

Lemma elem_of_tn_events m ls : forall k u q,
  (u, q) ∈ tn_events m k ls <->
  exists i g p, ls !! i = Some g /\ p ∈ g /\ u = Z.of_nat (k + i) /\ adj8 (pt_xy p) q.
Proof.
  induction ls as [|g ls IH]; intros k u q; cbn [tn_events].
  - rewrite elem_of_nil. split; [done|]. intros (i & g & p & Hi & _). by rewrite lookup_nil in Hi.
  - rewrite elem_of_app, IH, elem_of_concat. split.
    + intros [(l & Hl & Hin)|(i & h & p & Hi & Hp & -> & Hadj)].
      * apply elem_of_list_fmap in Hin as (p & -> & Hp).
        unfold tn_ev in Hl. apply elem_of_list_fmap in Hl as ([q' v] & [= -> ->] & Hq).
        apply elem_of_full_nbrs in Hq as [Hadj _].
        exists 0%nat, g, p. cbn. split_and!; [done..| |].
        -- f_equal. lia.
        -- destruct p as [[??]?]. exact Hadj.
      * exists (S i), h, p. cbn. split_and!; try done. lia.
    + intros (i & h & p & Hi & Hp & -> & Hadj). destruct i as [|i]; cbn in Hi.
      * injection Hi as ->. left. exists (tn_ev m k p). split.
        -- unfold tn_ev. apply elem_of_list_fmap. exists (q, nb_val m q). cbn.
           split; [f_equal; lia|]. apply elem_of_full_nbrs.
           split; [|apply nb_val_reported]. destruct p as [[??]?]. exact Hadj.
        -- apply elem_of_list_fmap. eauto.
      * right. exists i, h, p. split_and!; try done. lia.
Qed.

Lemma tn_events_sorted m ls : forall k,
  StronglySorted (fun a b : Z * xy => a.1 <= b.1) (tn_events m k ls).
Proof.
  assert (Happ : forall (l1 l2 : list (Z * xy)) c,
    (forall a, a ∈ l1 -> a.1 = c) -> (forall b, b ∈ l2 -> c <= b.1) ->
    StronglySorted (fun a b : Z * xy => a.1 <= b.1) l2 ->
    StronglySorted (fun a b : Z * xy => a.1 <= b.1) (l1 ++ l2)).
  { intros l1 l2 c. induction l1 as [|a l1 IH]; intros H1 H2 H3; cbn; [done|].
    constructor; [apply IH; [|done..]; intros; apply H1; by right|].
    apply Forall_forall. intros b [Hb|Hb]%elem_of_app.
    - rewrite (H1 a), (H1 b); [lia|by right|by left].
    - rewrite (H1 a) by by left. auto. }
  induction ls as [|g ls IH]; intros k; cbn [tn_events]; [constructor|].
  apply (Happ _ _ (Z.of_nat k)); [| |done].
  - intros [u q] (l & Hl & Hin)%elem_of_concat.
    apply elem_of_list_fmap in Hin as (p & -> & Hp).
    unfold tn_ev in Hl. apply elem_of_list_fmap in Hl as (n & [= -> ->] & _). done.
  - intros [u q] (i & h & p & Hi & Hp & -> & _)%elem_of_tn_events. cbn. lia.
Qed.

Definition disjoint_lists (ls : list (list pte)) : Prop :=
  forall i j g h p q, ls !! i = Some g -> ls !! j = Some h -> p ∈ g -> q ∈ h ->
    pt_xy p = pt_xy q -> i = j.

Lemma inner_lookup_spec (k : Z) g : forall (l : gmap xy Z) c,
  foldl (fun l p => <[pt_xy p := k]> l) l g !! c =
  if decide (c ∈ map pt_xy g) then Some k else l !! c.
Proof.
  induction g as [|p g IH]; intros l c; cbn [foldl map].
  - by rewrite decide_False by (by intros ?%elem_of_nil).
  - rewrite IH. destruct (decide (c ∈ map pt_xy g)).
    + by rewrite decide_True by (by right).
    + destruct (decide (c = pt_xy p)) as [->|].
      * rewrite lookup_insert, decide_True by by left. done.
      * rewrite lookup_insert_ne by done. rewrite decide_False; [done|].
        intros [?|?]%elem_of_cons; done.
Qed.

Lemma tn_lookup_spec ls c k :
  disjoint_lists ls ->
  tn_lookup ls !! c = Some k <->
  exists i g p, ls !! i = Some g /\ p ∈ g /\ pt_xy p = c /\ k = Z.of_nat i.
Proof.
  intros Hdis. unfold tn_lookup.
  assert (H : forall ls k0 (l : gmap xy Z), disjoint_lists ls ->
    (foldl (fun l (ip : nat * list pte) => foldl (fun l p => <[pt_xy p := Z.of_nat ip.1]> l) l ip.2)
        l (imap (fun i g => ((k0 + i)%nat, g)) ls) !! c = Some k) <->
    ((exists i g p, ls !! i = Some g /\ p ∈ g /\ pt_xy p = c /\ k = Z.of_nat (k0 + i)) \/
     ((forall i g, ls !! i = Some g -> c ∉ map pt_xy g) /\ l !! c = Some k))).
  { clear ls Hdis. induction ls as [|g ls IH]; intros k0 l Hdis.
    - cbn. split; [intros; right; done|]. intros [(i & ? & ? & Hi & _)|[_ ?]]; [|done].
      by rewrite lookup_nil in Hi.
    - rewrite imap_cons. cbn [foldl fst snd]. rewrite Nat.add_0_r.
      rewrite (imap_ext _ (fun i g => ((S k0 + i)%nat, g))).
      2:{ intros i ? _. cbn; f_equal; lia. }
      rewrite IH.
      2:{ intros i j a b p q Hi Hj Ha Hb Hpq.
          assert (S i = S j) as [=]; [|done]. by eapply (Hdis (S i) (S j) a b p q). }
      rewrite inner_lookup_spec. split.
      + intros [(i & h & p & Hi & Hp & Hc & ->)|[Hno Hl]].
        * left. exists (S i), h, p. split_and!; try done. lia.
        * destruct (decide (c ∈ map pt_xy g)) as [Hg|Hg].
          -- left. injection Hl as <-. apply elem_of_list_fmap in Hg as (p & -> & Hp).
             exists 0%nat, g, p. split_and!; try done. f_equal; lia.
          -- right. split; [|done]. intros [|i] h Hi; cbn in Hi; [by injection Hi as <-|].
             by eapply Hno.
      + intros [(i & h & p & Hi & Hp & Hc & ->)|[Hno Hl]].
        * destruct i as [|i]; cbn in Hi.
          -- injection Hi as <-. right. rewrite decide_True.
             2:{ rewrite <-Hc. by apply elem_of_list_fmap_1. }
             split; [|f_equal; lia]. intros i h Hi Hin.
             apply elem_of_list_fmap in Hin as (q & Hq & Hqh).
             assert (0 = S i)%nat; [|done].
             eapply (Hdis 0%nat (S i) g h p q); [done..|congruence].
          -- left. exists i, h, p. split_and!; try done. lia.
        * right. rewrite decide_False by (by apply (Hno 0%nat)). split; [|done].
          intros i h Hi. by apply (Hno (S i)). }
  specialize (H ls 0%nat ∅ Hdis). cbn [Nat.add] in H.
  transitivity ((exists i g p, ls !! i = Some g /\ p ∈ g /\ pt_xy p = c /\ k = Z.of_nat i) \/
     ((forall i g, ls !! i = Some g -> c ∉ map pt_xy g) /\ (∅ : gmap xy Z) !! c = Some k)); [exact H|].
  rewrite lookup_empty. split; [|tauto]. intros [?|[_ ?]]; [done|discriminate].
Qed.

(** ** The result dict *)
Definition recd (d : list (Z * list Z)) (u t : Z) : Prop := exists l, (u, l) ∈ d /\ t ∈ l.

Lemma dict_append_keys u t d k :
  k ∈ map fst (dict_append u t d) <-> k = u \/ k ∈ map fst d.
Proof.
  induction d as [|[k' v] d IH]; cbn.
  - els.
  - destruct (u =? k') eqn:E; cbn; rewrite !elem_of_cons.
    + apply Z.eqb_eq in E as ->. tauto.
    + rewrite IH. tauto.
Qed.

Lemma dict_append_spec u t d :
  NoDup (map fst d) -> (forall k l, (k, l) ∈ d -> NoDup l) -> ~ recd d u t ->
  NoDup (map fst (dict_append u t d)) /\
  (forall k l, (k, l) ∈ dict_append u t d -> NoDup l) /\
  (forall a b, recd (dict_append u t d) a b <-> recd d a b \/ (a = u /\ b = t)).
Proof.
  induction d as [|[k v] d IH]; intros Hnd Hl Hrec.
  - cbn. split; [repeat constructor; by intros ?%elem_of_nil|]. split.
    + intros k l [= -> ->]%elem_of_list_singleton. repeat constructor. by intros ?%elem_of_nil.
    + intros a b. unfold recd. split.
      * intros (l & [= -> ->]%elem_of_list_singleton & ->%elem_of_list_singleton). by right.
      * intros [(l & Hin & _)|[-> ->]]; [by apply elem_of_nil in Hin|].
        exists [t]. split; by apply elem_of_list_singleton.
  - cbn. apply NoDup_cons in Hnd as [Hk Hnd]. cbn in Hk.
    destruct (u =? k) eqn:E.
    + apply Z.eqb_eq in E as ->. split; [by constructor|]. split.
      * intros k' l [[= -> ->]|Hin]%elem_of_cons; [|eapply Hl; by right].
        apply NoDup_app. split_and!.
        -- eapply Hl. by left.
        -- intros b Hb ->%elem_of_list_singleton. apply Hrec. exists v. split; [by left|done].
        -- repeat constructor. by intros ?%elem_of_nil.
      * intros a b. unfold recd. split.
        -- intros (l & [[= -> ->]|Hin]%elem_of_cons & Hb).
           ++ apply elem_of_app in Hb as [Hb| ->%elem_of_list_singleton]; [|by right].
              left. exists v. split; [by left|done].
           ++ left. exists l. split; [by right|done].
        -- intros [(l & [[= -> ->]|Hin]%elem_of_cons & Hb)|[-> ->]].
           ++ eexists. split; [by left|]. els.
           ++ exists l. split; [by right|done].
           ++ eexists. split; [by left|]. els.
    + apply Z.eqb_neq in E.
      destruct IH as (IH1 & IH2 & IH3); [done|intros; eapply Hl; by right| |].
      { intros (l & Hin & Ht). apply Hrec. exists l. split; [by right|done]. }
      split; [|split].
      * cbn. constructor; [|done]. rewrite dict_append_keys. intros [?|?]; [congruence|done].
      * intros k' l [[= -> ->]|Hin]%elem_of_cons; [eapply Hl; by left|by eapply IH2].
      * intros a b. unfold recd in *. split.
        -- intros (l & [[= -> ->]|Hin]%elem_of_cons & Hb).
           ++ left. exists v. split; [by left|done].
           ++ destruct (IH3 a b) as [H3 _]. destruct H3 as [(l' & ? & ?)|?]; [by exists l| |by right].
              left. exists l'. split; [by right|done].
        -- intros H. destruct (IH3 a b) as [_ H3].
           assert ((exists l, (a, l) ∈ d /\ b ∈ l) \/ (a = u /\ b = t) \/ (a = k /\ b ∈ v)) as Hc.
           { destruct H as [(l & [[= -> ->]|Hin]%elem_of_cons & Hb)|?]; naive_solver. }
           destruct Hc as [Hc|[Hc|[-> Hb]]].
           ++ destruct H3 as (l & ? & ?); [by left|]. exists l. split; [by right|done].
           ++ destruct H3 as (l & ? & ?); [by right|]. exists l. split; [by right|done].
           ++ exists v. split; [by left|done].
Qed.

Section touching.
  Context (m : datamap) (ls : list (list pte)).
  Hypothesis Hdis : disjoint_lists ls.
  Let lk := tn_lookup ls.
  Let evs := tn_events m 0 ls.

  Definition seen (pre : list (Z * xy)) (u t : Z) : Prop :=
    exists q, (u, q) ∈ pre /\ lk !! q = Some t.

  Record tinv (pre : list (Z * xy)) (s : tn_state) : Prop := {
    ti_rec : forall u t, recd (tn_result s) u t <-> u < t /\ seen pre u t;
    ti_trk : forall a b, (a, b) ∈ tn_tracker s <-> recd (tn_result s) a b \/ recd (tn_result s) b a;
    ti_keys : NoDup (map fst (tn_result s));
    ti_vals : forall k l, (k, l) ∈ tn_result s -> NoDup l }.

  Lemma seen_snoc pre u q a b :
    seen (pre ++ [(u, q)]) a b <-> seen pre a b \/ (a = u /\ lk !! q = Some b).
  Proof.
    unfold seen. split.
    - intros (q' & [?|[= -> ->]%elem_of_list_singleton]%elem_of_app & ?); naive_solver.
    - intros [(q' & ? & ?)|[-> ?]]; eexists; (split; [|done]); els.
  Qed.

  Lemma tn_step pre u q post s :
    evs = pre ++ (u, q) :: post -> tinv pre s ->
    tinv (pre ++ [(u, q)]) (tn_visit lk u q s).
  Proof.
    intros Hev Hinv. 
    assert (Hu : exists i g p, ls !! i = Some g /\ p ∈ g /\ u = Z.of_nat i /\ adj8 (pt_xy p) q).
    { destruct (elem_of_tn_events m ls 0 u q) as [H _]. apply H. fold evs. rewrite Hev. els. }
    assert (Hu0 : 0 <= u) by (destruct Hu as (?&?&?&?&?&->&?); lia).
    assert (Hskip : (forall t, lk !! q = Some t -> u < t -> seen pre u t) ->
                    tinv (pre ++ [(u, q)]) s).
    { intros Hs. destruct Hinv. split; try done.
      intros a b. rewrite ti_rec0, seen_snoc. naive_solver. }
    unfold tn_visit. destruct (lk !! q) as [t|] eqn:Hq.
    2:{ apply Hskip. intros t [=]. }
    destruct (t =? 0) eqn:E0. { apply Hskip. intros ? [= ->]. lia. }
    destruct (u =? t) eqn:Eu. { apply Hskip. intros ? [= ->]. lia. }
    apply Z.eqb_neq in E0, Eu.
    destruct (decide ((u, t) ∈ tn_tracker s)) as [Ht|Ht].
    { apply Hskip. intros ? [= ->] Hlt. apply Hinv in Ht as [Ht|Ht]; apply Hinv in Ht as [? ?]; [done|lia]. }
    assert (Hlt : u < t).
    { destruct (decide (t < u)) as [Htu|]; [exfalso|lia].
      apply Ht. apply Hinv. right. apply Hinv. split; [done|].
      destruct Hu as (i & g & p & Hi & Hp & -> & Hadj).
      destruct (tn_lookup_spec ls q t Hdis) as [Hl _].
      destruct (Hl Hq) as (j & h & p' & Hj & Hp' & Hc & ->).
      exists (pt_xy p). split.
      - assert ((Z.of_nat j, pt_xy p) ∈ evs) as Hin.
        { apply elem_of_tn_events. exists j, h, p'. split_and!; try done.
          rewrite Hc. by apply adj8_sym. }
        rewrite Hev in Hin. apply elem_of_app in Hin as [?|Hin]; [done|exfalso].
        pose proof (tn_events_sorted m ls 0) as Hs. fold evs in Hs. rewrite Hev in Hs.
        assert (Hss : forall l1 a l2, StronglySorted (fun a b : Z * xy => a.1 <= b.1) (l1 ++ a :: l2) ->
                 forall b, b ∈ l2 -> a.1 <= b.1).
        { clear. induction l1 as [|c l1 IH]; cbn; intros a l2 H b Hb.
          - apply StronglySorted_inv in H as [_ H]. rewrite Forall_forall in H. auto.
          - apply StronglySorted_inv in H as [H _]. eauto. }
        apply elem_of_cons in Hin as [[= ? ?]|Hin]; [lia|].
        specialize (Hss _ _ _ Hs _ Hin). cbn in Hss. lia.
      - apply tn_lookup_spec; [done|]. eauto 10. }
    assert (Hnr : ~ recd (tn_result s) u t).
    { intros Hr. apply Ht, Hinv. by left. }
    destruct (dict_append_spec u t (tn_result s)) as (D1 & D2 & D3); [apply Hinv|apply Hinv|done|].
    split; cbn [tn_result tn_tracker]; [| |done|done].
    - intros a b. rewrite D3, seen_snoc, (ti_rec _ _ Hinv). naive_solver.
    - intros a b. rewrite !D3, !elem_of_app, !elem_of_cons, elem_of_nil, (ti_trk _ _ Hinv).
      naive_solver.
  Qed.

  Lemma tn_all post : forall pre s, evs = pre ++ post -> tinv pre s ->
    tinv evs (foldl (fun s ev => tn_visit lk ev.1 ev.2 s) s post).
  Proof.
    induction post as [|[u q] post IH]; intros pre s Hev Hinv; cbn [foldl fst snd].
    - by rewrite Hev, app_nil_r.
    - apply (IH (pre ++ [(u, q)])); [by rewrite <-app_assoc|]. by eapply tn_step.
  Qed.
End touching.

Lemma touching_spec m ls :
  disjoint_lists ls ->
  exists d, touching_neighborhoods m ls = Ok d /\
    NoDup (map fst d) /\ (forall k l, (k, l) ∈ d -> NoDup l) /\
    forall u t, recd d u t <->
      exists i j g h p q, u = Z.of_nat i /\ t = Z.of_nat j /\ (i < j)%nat /\
        ls !! i = Some g /\ ls !! j = Some h /\ p ∈ g /\ q ∈ h /\ adjp p q.
Proof.
  intros Hdis. rewrite touching_flat. eexists. split; [done|].
  destruct (tn_all m ls Hdis (tn_events m 0 ls) [] (TN [] [])) as [Hrec Htrk Hk Hv]; [done| |].
  { split; cbn.
    - intros u t. split.
      + intros (l & Hl & _). by apply elem_of_nil in Hl.
      + intros (_ & q & Hq & _). by apply elem_of_nil in Hq.
    - intros a b. rewrite elem_of_nil. split; [done|].
      intros [(l & Hl & _)|(l & Hl & _)]; by apply elem_of_nil in Hl.
    - constructor.
    - intros k l Hl. by apply elem_of_nil in Hl. }
  split; [done|]. split; [done|]. intros u t. rewrite Hrec. split.
  - intros (Hlt & q & Hq & Hl). apply elem_of_tn_events in Hq as (i & g & p & Hi & Hp & -> & Hadj).
    apply tn_lookup_spec in Hl as (j & h & p' & Hj & Hp' & <- & ->); [|done].
    exists i, j, g, h, p, p'. split_and!; try done. lia.
  - intros (i & j & g & h & p & q & -> & -> & Hij & Hi & Hj & Hp & Hq & Hadj).
    split; [lia|]. exists (pt_xy q). split.
    + apply elem_of_tn_events. exists i, g, p. split_and!; done.
    + apply tn_lookup_spec; [done|]. eauto 10.
Qed.

(** ** highest *)
Lemma highest_loop_spec points : forall pre high acc,
  (forall p, p ∈ pre -> pt_e p <= high) ->
  acc = filter (fun p => pt_e p = high) pre ->
  exists h, (forall p, p ∈ pre ++ points -> pt_e p <= h) /\ high <= h /\
    (h = high \/ exists p, p ∈ points /\ pt_e p = h) /\
    highest_loop high acc points = filter (fun p => pt_e p = h) (pre ++ points).
Proof.
  induction points as [|g points IH]; intros pre high acc Hle ->; cbn [highest_loop].
  - exists high. rewrite app_nil_r. split_and!; [done|lia|by left|done].
  - replace (pre ++ g :: points) with ((pre ++ [g]) ++ points) by (by rewrite <-app_assoc).
    destruct (high <? pt_e g) eqn:E1; [|destruct (pt_e g =? high) eqn:E2].
    + destruct (IH (pre ++ [g]) (pt_e g) [g]) as (h & H1 & H2 & H3 & H4).
      * intros p [Hp|Hp]%elem_of_app; [apply Hle in Hp; lia|].
        apply elem_of_list_singleton in Hp as ->. lia.
      * rewrite filter_app.
        assert (filter (fun p => pt_e p = pt_e g) pre = []) as ->.
        { clear -Hle E1. induction pre as [|p pre IH]; [done|].
          rewrite filter_cons_False; [apply IH; intros; apply Hle; by right|].
          assert (pt_e p <= high) by (apply Hle; by left). lia. }
        rewrite filter_cons_True by done. done.
      * exists h. split_and!; [done|lia| |done]. right. destruct H3 as [->|(p & ? & ?)].
        -- exists g. split; [by left|done].
        -- exists p. split; [by right|done].
    + apply Z.eqb_eq in E2. destruct (IH (pre ++ [g]) high (filter (fun p => pt_e p = high) pre ++ [g]))
        as (h & H1 & H2 & H3 & H4).
      * intros p [Hp|Hp]%elem_of_app; [by apply Hle|]. apply elem_of_list_singleton in Hp as ->. lia.
      * rewrite filter_app, filter_cons_True by done. done.
      * exists h. split_and!; [done|lia| |done].
        destruct H3 as [->|(p & ? & ?)]; [by left|right]. exists p. split; [by right|done].
    + apply Z.eqb_neq in E2. destruct (IH (pre ++ [g]) high (filter (fun p => pt_e p = high) pre))
        as (h & H1 & H2 & H3 & H4).
      * intros p [Hp|Hp]%elem_of_app; [by apply Hle|]. apply elem_of_list_singleton in Hp as ->. lia.
      * rewrite filter_app, filter_cons_False by done. by rewrite app_nil_r.
      * exists h. split_and!; [done|lia| |done].
        destruct H3 as [->|(p & ? & ?)]; [by left|right]. exists p. split; [by right|done].
Qed.

Lemma highest_spec points :
  points <> [] ->
  exists h, (exists p, p ∈ points /\ pt_e p = h) /\ (forall p, p ∈ points -> pt_e p <= h) /\
    highest points = Ok (filter (fun p => pt_e p = h) points).
Proof.
  destruct points as [|p points]; [done|]. intros _.
  destruct (highest_loop_spec (p :: points) [] (pt_e p) []) as (h & H1 & H2 & H3 & H4).
  { intros q Hq. by apply elem_of_nil in Hq. }
  { done. }
  cbn [app] in *. exists h. split; [|split; [done|]].
  - destruct H3 as [->|?]; [|done]. exists p. split; [by left|done].
  - unfold highest. by rewrite H4.
Qed.
