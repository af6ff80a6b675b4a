From Verif Require Import Base_model Raster_model Raster_spec Raster_proof Closest_model Closest_spec Closest_proof Points_model Points_spec.
Local Open Scope Z_scope.

Lemma mp_incoming_spec v t : mp_incoming v = Ok t <-> a_pair v t.
Proof.
  unfold mp_incoming, a_pair. split.
  - destruct v as [[x y]|[[x y] e]|l|]; cbn; try discriminate.
    + intros [= <-]. eauto.
    + destruct (Nat.eqb_spec (length l) 2) as [E|E]; [|discriminate]. intros [= <-].
      destruct l as [|x [|y [|]]]; try discriminate. eauto.
  - intros (x & y & -> & [->| ->]); reflexivity.
Qed.
Lemma pr_incoming_spec v t : pr_incoming v = Ok t <-> a_triple v t.
Proof.
  unfold pr_incoming, a_triple. split.
  - destruct v as [[x y]|[[x y] e]|l|]; cbn; try discriminate.
    + intros [= <-]. eauto 6.
    + destruct (Nat.eqb_spec (length l) 3) as [E|E]; [|discriminate]. intros [= <-].
      destruct l as [|x [|y [|e [|]]]]; try discriminate. eauto 6.
  - intros (x & y & e & -> & [->| ->]); reflexivity.
Qed.

Lemma append_spec (inc : value -> res (list Z)) (P : value -> list Z -> Prop) l v l' :
  (forall v t, inc v = Ok t <-> P v t) ->
  ((let* t := inc v in Ok (l ++ [t])) = Ok l' <-> exists t, P v t /\ l' = l ++ [t]).
Proof.
  intros H. split.
  - destruct (inc v) as [t|] eqn:E; [|discriminate]. cbn. intros HE. injection HE as <-. exists t. split; [by apply H|done].
  - intros (t & Ht & ->). apply H in Ht. by rewrite Ht.
Qed.

Lemma py_setitem_spec {A} (l : list A) idx v l' : py_setitem l idx v = Ok l' <-> replaced l idx v l'.
Proof.
  unfold py_setitem, py_index, replaced. set (n := Z.of_nat (length l)).
  set (i := if idx <? 0 then idx + n else idx).
  assert (Hi : - n <= idx < n -> 0 <= i < n /\ i = idx mod n).
  { intros H. subst i. destruct (Z.ltb_spec idx 0).
    - split; [lia|]. rewrite <-(Z.mod_add idx 1 n) by lia. rewrite Z.mod_small; lia.
    - split; [lia|]. rewrite Z.mod_small; lia. }
  split.
  - destruct ((0 <=? i) && (i <? n)) eqn:E; [|discriminate]. cbn. intros [= <-].
    assert (H : - n <= idx < n) by (subst i; destruct (Z.ltb_spec idx 0); lia).
    destruct (Hi H) as [H1 H2]. split; [done|]. split; [by rewrite insert_length|].
    intros j. rewrite <-H2. case_decide as Hd.
    + assert (Z.to_nat i = j) as -> by lia. rewrite list_lookup_insert; [done|]. unfold n in *. lia.
    + rewrite list_lookup_insert_ne; [done|lia].
  - intros (H & Hl & Hj). destruct (Hi H) as [H1 H2].
    replace ((0 <=? i) && (i <? n)) with true by lia. cbn. f_equal. apply list_eq. intros j.
    rewrite Hj, <-H2. case_decide as Hd.
    + assert (Z.to_nat i = j) as -> by lia. rewrite list_lookup_insert; [done|]. unfold n in *. lia.
    + rewrite list_lookup_insert_ne; [done|lia].
Qed.
Lemma setitem_spec (inc : value -> res (list Z)) (P : value -> list Z -> Prop) l idx v l' :
  (forall v t, inc v = Ok t <-> P v t) ->
  ((let* t := inc v in py_setitem l idx t) = Ok l' <-> exists t, P v t /\ replaced l idx t l').
Proof.
  intros H. split.
  - destruct (inc v) as [t|] eqn:E; [|discriminate]. cbn [rbind]. intros HE. exists t.
    split; [by apply H|]. by apply py_setitem_spec.
  - intros (t & Ht & Hr). apply H in Ht. rewrite Ht. cbn [rbind]. by apply py_setitem_spec.
Qed.

(** ** The lookup table *)
Lemma gen_lookup_None l t c : (forall r, r ∈ l -> r.1 <> c) -> gen_lookup l t !! c = t !! c.
Proof.
  unfold gen_lookup. induction l as [|p l IH] using rev_ind; [done|]. intros H.
  rewrite foldl_app. cbn [foldl]. rewrite lookup_insert_ne by (apply H; set_solver). apply IH. set_solver.
Qed.
Lemma gen_lookup_Some l t c q :
  gen_lookup l t !! c = Some q <->
  (last_member l q /\ q.1 = c) \/ ((forall r, r ∈ l -> r.1 <> c) /\ t !! c = Some q).
Proof.
  unfold gen_lookup. revert q. induction l as [|p l IH] using rev_ind; intros q.
  - cbn. split; [intros H; right; split; [set_solver|done]|]. intros [[(l1 & l2 & E & _) _]|[_ H]]; [|done].
    by destruct l1.
  - rewrite foldl_app. cbn [foldl]. destruct (decide (p.1 = c)) as [E|E].
    + rewrite E, lookup_insert. split.
      * intros [= <-]. left. split; [|done]. exists l, []. split; [done|]. set_solver.
      * intros [[(l1 & l2 & E' & Hl2) Hq]|[H _]]; [|exfalso; apply (H p); [set_solver|done]].
        destruct l2 as [|r l2 _] using rev_ind.
        -- apply app_inj_tail in E' as [_ ->]. done.
        -- exfalso. rewrite app_comm_cons, app_assoc in E'. apply app_inj_tail in E' as [_ ->].
           apply (Hl2 r); [set_solver|]. congruence.
    + rewrite lookup_insert_ne by done. rewrite IH. split.
      * intros [[(l1 & l2 & -> & Hl2) Hq]|[H Ht]].
        -- left. split; [|done]. exists l1, (l2 ++ [p]). split; [by rewrite <-app_assoc|]. set_solver.
        -- right. split; [|done]. set_solver.
      * intros [[(l1 & l2 & E' & Hl2) Hq]|[H Ht]].
        -- left. split; [|done]. destruct l2 as [|r l2 _] using rev_ind.
           ++ apply app_inj_tail in E' as [_ ->]. done.
           ++ rewrite app_comm_cons, app_assoc in E'. apply app_inj_tail in E' as [-> ->].
              exists l1, l2. split; [done|]. set_solver.
        -- right. split; [|done]. set_solver.
Qed.

(** A table that agrees with the points. *)
Definition in_step (c : gpc) : Prop := forall p q, gpc_index c !! p = Some q <-> last_member (gpc_points c) q /\ q.1 = p.

Lemma new_in_step l c : gpc_new l = Ok c -> in_step c /\ gpc_points c = grid_points l /\ length (gpc_points c) = length l.
Proof.
  unfold gpc_new. 
  assert (HF : forall l acc pts, foldM (fun v acc => match v with VGrid p => Ok (acc ++ [(p.1, Some p.2)]) | _ => Err TypeError end) l acc = Ok pts ->
     pts = acc ++ grid_points l /\ length pts = (length acc + length l)%nat).
  { clear. induction l as [|v l IH]; intros acc pts; cbn.
    - intros [= <-]. rewrite app_nil_r. split; [done|lia].
    - destruct v as [|p| |]; cbn; try discriminate. intros H. apply IH in H as [E Hl]. split; [by rewrite E, <-app_assoc|].
      rewrite Hl, app_length. cbn. lia. }
  destruct (foldM _ l []) as [pts|] eqn:E; [|discriminate]. cbn. intros [= <-]. apply HF in E as [-> Hl]. cbn in Hl.
  split; [|done]. intros p q. cbn [gpc_index gpc_points app]. rewrite gen_lookup_Some. rewrite lookup_empty. split; [intros [H|[_ H]]; [done|discriminate]|auto].
Qed.
Lemma append_in_step c v c' : in_step c -> gpc_append c v = Ok c' -> in_step c'.
Proof.
  intros H. destruct v as [|g| |]; cbn; try discriminate. intros [= <-]. intros p q. cbn [gpc_index gpc_points].
  rewrite gen_lookup_Some. split; [|by left].
  intros [H'|[H1 H2]]; [done|]. exfalso. apply H in H2 as [(l1 & l2 & E & _) Hq].
  apply (H1 q); [|done]. rewrite E. set_solver.
Qed.
Lemma history_in_step ops c : in_step c -> in_step (foldl gpc_do c (map GAppend ops)) /\
  gpc_points (foldl gpc_do c (map GAppend ops)) = gpc_points c ++ grid_points ops.
Proof.
  revert c. induction ops as [|v ops IH]; intros c H; cbn; [by rewrite app_nil_r|].
  unfold gpc_do at 2 4. destruct (gpc_append c v) as [c'|] eqn:E.
  - destruct (IH c') as [H1 H2]; [by eapply append_in_step|]. split; [done|]. rewrite H2.
    destruct v as [|g| |]; cbn in E; try discriminate. injection E as <-. cbn. by rewrite <-app_assoc.
  - destruct (IH c H) as [H1 H2]. split; [done|]. rewrite H2. by destruct v.
Qed.

Lemma iter_exact shifts c p : in_step c -> NoDup shifts ->
  NoDup (gpc_iter shifts c p) /\
  (forall q, q ∈ gpc_iter shifts c p <-> last_member (gpc_points c) q /\ (q.1.1 - p.1, q.1.2 - p.2) ∈ shifts).
Proof.
  intros H Hn. unfold gpc_iter.
  assert (Ht : forall q, (if decide (gpc_index c = ∅) then gen_lookup (gpc_points c) ∅ else gpc_index c) !! q.1 = Some q <->
     last_member (gpc_points c) q).
  { intros q. case_decide; [rewrite gen_lookup_Some, lookup_empty|rewrite (H q.1 q)]; split; intros; naive_solver. }
  assert (Hk : forall k q, (if decide (gpc_index c = ∅) then gen_lookup (gpc_points c) ∅ else gpc_index c) !! k = Some q -> q.1 = k).
  { intros k q. case_decide; [rewrite gen_lookup_Some, lookup_empty|rewrite (H k q)]; naive_solver. }
  set (t := if decide (gpc_index c = ∅) then _ else _) in *. clearbody t. split.
  - induction Hn as [|s l Hs Hn IH]; cbn; [constructor|].
    destruct (t !! (p.1 + s.1, p.2 + s.2)) as [q|] eqn:E; [|done]. constructor; [|done].
    rewrite elem_of_list_omap. intros (s' & Hs' & E'). apply Hs. apply Hk in E, E'. rewrite E in E'.
    injection E' as E1 E2. replace s with s'; [done|]. destruct s, s'; cbn in *. f_equal; lia.
  - intros q. rewrite elem_of_list_omap. split.
    + intros (s & Hs & E). pose proof (Hk _ _ E) as Hq. rewrite <-Hq in E. apply Ht in E. split; [done|].
      rewrite Hq. cbn. replace (p.1 + s.1 - p.1, p.2 + s.2 - p.2) with s; [done|]. destruct s. cbn. f_equal; lia.
    + intros [Hl Hs]. exists (q.1.1 - p.1, q.1.2 - p.2). split; [done|]. cbn.
      replace (p.1 + (q.1.1 - p.1), p.2 + (q.1.2 - p.2)) with q.1; [by apply Ht|]. destruct q as [[a b] e]. cbn. f_equal; lia.
Qed.

Lemma shift8 p q : (q.1 - p.1, q.2 - p.2) ∈ [(-1,0); (-1,1); (0,1); (1,1); (1,0); (1,-1); (0,-1); (-1,-1)] <-> adj8 p q.
Proof.
  destruct p as [a b], q as [c d]. unfold adj8. cbn. rewrite !elem_of_cons, elem_of_nil. split.
  - intros H. repeat destruct H as [H|H]; try done; injection H as H1 H2; (split; [intros [= -> ->]; lia|lia]).
  - intros (Hn & H1 & H2). assert (a - c = 0 \/ a - c = 1 \/ a - c = -1) as Ha by lia.
    assert (b - d = 0 \/ b - d = 1 \/ b - d = -1) as Hb by lia.
    assert (~ (a - c = 0 /\ b - d = 0)) as Hz by (intros [? ?]; apply Hn; f_equal; lia).
    replace (c - a) with (- (a - c)) by lia. replace (d - b) with (- (b - d)) by lia.
    destruct Ha as [Ha|[Ha|Ha]], Hb as [Hb|[Hb|Hb]]; rewrite Ha, Hb; cbn; try tauto.
Qed.
Lemma shift4 p q : (q.1 - p.1, q.2 - p.2) ∈ [(-1,0); (0,1); (1,0); (0,-1)] <-> adj4 p q.
Proof.
  destruct p as [a b], q as [c d]. unfold adj4. cbn. rewrite !elem_of_cons, elem_of_nil. split.
  - intros H. repeat destruct H as [H|H]; try done; injection H as H1 H2; lia.
  - intros H. assert (c - a = 0 /\ (d - b = 1 \/ d - b = -1) \/ d - b = 0 /\ (c - a = 1 \/ c - a = -1)) as Ha by lia.
    destruct Ha as [[E [F|F]]|[E [F|F]]]; rewrite E, F; tauto.
Qed.

Lemma full_exact_gp l c ops p : gpc_new l = Ok c ->
  let c' := foldl gpc_do c (map GAppend ops) in
  gpc_points c' = grid_points l ++ grid_points ops /\
  (NoDup (gpc_iterNeighborFull c' p) /\
   forall q, q ∈ gpc_iterNeighborFull c' p <-> last_member (gpc_points c') q /\ adj8 p q.1) /\
  (NoDup (gpc_iterNeighborOrthogonal c' p) /\
   forall q, q ∈ gpc_iterNeighborOrthogonal c' p <-> last_member (gpc_points c') q /\ adj4 p q.1).
Proof.
  intros Hc c'. destruct (new_in_step l c Hc) as (H1 & H2 & _). destruct (history_in_step ops c H1) as [H3 H4].
  split; [by rewrite <-H2|]. split.
  - destruct (iter_exact [(-1,0); (-1,1); (0,1); (1,1); (1,0); (1,-1); (0,-1); (-1,-1)] c' p H3) as [N1 N2]; [by apply (bool_decide_unpack _); vm_compute|].
    split; [done|]. intros q. by rewrite (N2 q), shift8.
  - destruct (iter_exact [(-1,0); (0,1); (1,0); (0,-1)] c' p H3) as [N1 N2]; [by apply (bool_decide_unpack _); vm_compute|].
    split; [done|]. intros q. by rewrite (N2 q), shift4.
Qed.

(** ** Searching *)
Lemma gp_eq_true a p : gp_eq a p = Ok true <-> a = p.
Proof.
  destruct a as [a [e|]], p as [p [e'|]]; unfold gp_eq; cbn; split; try discriminate; intros H.
  - injection H as H. apply andb_prop in H as [H1 H2]. apply bool_decide_eq_true in H1. apply Z.eqb_eq in H2. congruence.
  - injection H as -> ->. by rewrite bool_decide_true, Z.eqb_refl.
  - injection H as H. apply bool_decide_eq_true in H. congruence.
  - injection H as ->. by rewrite bool_decide_true.
Qed.
Definition same_class (a b : gpoint) : Prop := is_Some a.2 <-> is_Some b.2.
Lemma gp_eq_ok a p : (exists b, gp_eq a p = Ok b) <-> same_class a p.
Proof.
  destruct a as [a [e|]], p as [p [e'|]]; unfold gp_eq, same_class; cbn; split; try (intros [b H]; discriminate H); intros; try (by eexists); try done.
  - exfalso. destruct H as [H _]. by destruct H.
  - exfalso. destruct H as [_ H]. by destruct H.
Qed.
Lemma index_spec l p i k : gp_index_from k l p = Ok (k + i)%nat <->
  exists l1 l2, l = l1 ++ p :: l2 /\ length l1 = i /\ p ∉ l1 /\ Forall (fun a => same_class a p) l1.
Proof.
  revert k i. induction l as [|a l IH]; intros k i; cbn.
  - split; [discriminate|]. intros (l1 & l2 & E & _). by destruct l1.
  - destruct (gp_eq a p) as [b|e] eqn:E; cbn.
    + destruct b.
      * apply gp_eq_true in E as ->. split.
        -- intros [= H]. assert (i = 0)%nat as -> by lia. exists [], l. split; [done|]. split; [done|]. split; [set_solver|constructor].
        -- intros (l1 & l2 & E & <- & Hn & _). destruct l1 as [|x l1]; [by rewrite Nat.add_0_r|].
           injection E as -> ->. set_solver.
      * assert (a <> p). { intros ->. assert (gp_eq p p = Ok true) by by apply gp_eq_true. congruence. }
        assert (same_class a p) by (apply gp_eq_ok; eauto). split.
        -- intros HI. destruct i as [|i].
           ++ exfalso. clear -HI. assert (G : forall l k j, gp_index_from j l p = Ok k -> (j <= k)%nat).
              { clear. induction l as [|a l IH]; intros k j; cbn; [discriminate|]. destruct (gp_eq a p) as [[]|]; cbn; [intros [= <-]; lia| |discriminate].
                intros H. apply IH in H. lia. }
              apply G in HI. lia.
           ++ replace (k + S i)%nat with (S k + i)%nat in HI by lia. apply IH in HI as (l1 & l2 & -> & <- & H1 & H2).
              exists (a :: l1), l2. split; [done|]. split; [done|]. split; [set_solver|by constructor].
        -- intros (l1 & l2 & E' & <- & Hn & HF). destruct l1 as [|x l1]; [injection E' as -> ->; done|].
           injection E' as <- ->. cbn. rewrite Nat.add_succ_r. change (S (k + length l1)) with (S k + length l1)%nat.
           apply IH. exists l1, l2. inversion HF; subst. split; [done|]. split; [done|]. split; [set_solver|done].
    + split; [discriminate|]. intros (l1 & l2 & E' & _ & Hn & HF). exfalso. destruct l1 as [|x l1].
      * injection E' as -> ->. assert (gp_eq p p = Ok true) by by apply gp_eq_true. congruence.
      * injection E' as <- ->. inversion HF; subst. assert (exists b, gp_eq a p = Ok b) as [b Hb] by by apply gp_eq_ok. congruence.
Qed.
Lemma find_spec c p i : gpc_find c p = Some i <->
  exists l1 l2, gpc_points c = l1 ++ p :: l2 /\ length l1 = i /\ p ∉ l1 /\ (forall a, a ∈ l1 -> is_Some a.2 <-> is_Some p.2).
Proof.
  unfold gpc_find. pose proof (index_spec (gpc_points c) p i 0) as H. cbn in H.
  transitivity (gp_index_from 0 (gpc_points c) p = Ok i).
  - destruct (gp_index_from 0 (gpc_points c) p); split; congruence.
  - rewrite H. split; intros (l1 & l2 & A & B & C & D); exists l1, l2; (split; [done|]; split; [done|]; split; [done|]); by apply Forall_forall.
Qed.

Definition gpairs (us them : list gpoint) : list (gpoint * gpoint) := p ← us; t ← them; [(p, t)].
Lemma elem_of_gpairs us them p t : (p, t) ∈ gpairs us them <-> p ∈ us /\ t ∈ them.
Proof.
  unfold gpairs. rewrite elem_of_list_bind. split.
  - intros (p' & Ht & Hp). apply elem_of_list_bind in Ht as (t' & H & Ht).
    apply elem_of_list_singleton in H. by injection H as -> ->.
  - intros [Hp Ht]. exists p. split; [|done]. apply elem_of_list_bind. exists t. split; [|done].
    by apply elem_of_list_singleton.
Qed.
Definition gc_of (s : option (gpoint * gpoint) * Q) : gclosest := GCP (fst <$> s.1) (snd <$> s.1) s.2.
Definition gd2 (c : gpoint * gpoint) : Q := pixel2 c.1.1 c.2.1.
Lemma gpc_closest_fold us them :
  gpc_closest us them = gc_of (foldl (min_step gd2) (None, maxsize2) (gpairs us them)).
Proof.
  unfold gpc_closest. change (GCP None None maxsize2) with (gc_of (None, maxsize2)).
  generalize (@None (gpoint * gpoint), maxsize2). induction us as [|p us IH]; intros s; [done|].
  unfold gpairs. rewrite bind_cons, foldl_app. cbn [foldl].
  match goal with |- foldl ?f ?a us = _ =>
    assert (Ha : a = gc_of (foldl (min_step gd2) s (t ← them; [(p, t)]))) end.
  { clear IH. revert s. induction them as [|t them IH]; intros s; [done|].
    rewrite bind_cons. cbn [foldl app]. rewrite <-IH. f_equal.
    unfold min_step, gd2, gc_of. cbn. by destruct (Qlt_bool _ _). }
  rewrite Ha. apply IH.
Qed.
Lemma gpc_closest_spec us them p0 t0 :
  p0 ∈ us -> t0 ∈ them -> (pixel2 p0.1 t0.1 < maxsize2)%Q ->
  exists p t, gpc_closest us them = GCP (Some p) (Some t) (pixel2 p.1 t.1) /\
    first_least (fun c : gpoint * gpoint => pixel2 c.1.1 c.2.1) (p ← us; t ← them; [(p, t)]) (p, t).
Proof.
  intros Hp Ht Hlt. rewrite gpc_closest_fold.
  destruct (min_fold gd2 (gpairs us them) None maxsize2) as [[-> H]|([p t] & H & _ & ->)].
  - exfalso. apply (Qlt_not_le _ _ Hlt). apply (H (p0, t0)). by apply elem_of_gpairs.
  - by exists p, t.
Qed.
Lemma gpc_closest_none us them : us = [] \/ them = [] -> gpc_closest us them = GCP None None maxsize2.
Proof.
  intros H. rewrite gpc_closest_fold. assert (gpairs us them = []) as ->; [|done].
  destruct H as [->| ->]; [done|]. unfold gpairs. induction us as [|p us IH]; [done|]. rewrite bind_cons. exact IH.
Qed.

Lemma py_getitem_spec {A} (l : list A) idx t :
  py_getitem l idx = Ok t <->
  - Z.of_nat (length l) <= idx < Z.of_nat (length l) /\ l !! Z.to_nat (idx mod Z.of_nat (length l)) = Some t.
Proof.
  unfold py_getitem, py_index. set (n := Z.of_nat (length l)).
  set (i := if idx <? 0 then idx + n else idx).
  assert (Hi : - n <= idx < n -> 0 <= i < n /\ i = idx mod n).
  { intros H. subst i. destruct (Z.ltb_spec idx 0).
    - split; [lia|]. rewrite <-(Z.mod_add idx 1 n) by lia. rewrite Z.mod_small; lia.
    - split; [lia|]. rewrite Z.mod_small; lia. }
  split.
  - destruct ((0 <=? i) && (i <? n)) eqn:E; [|discriminate]. cbn [rbind].
    assert (H : - n <= idx < n) by (subst i; destruct (Z.ltb_spec idx 0); lia).
    destruct (Hi H) as [H1 H2]. rewrite <-H2. destruct (l !! Z.to_nat i) as [t'|]; [|discriminate].
    intros [= ->]. done.
  - intros [H El]. destruct (Hi H) as [H1 H2]. rewrite <-H2 in El.
    replace ((0 <=? i) && (i <? n)) with true by lia. cbn [rbind]. by rewrite El.
Qed.

Lemma getitem_spec (l : list (list Z)) idx p : Forall (fun t => length t = 2%nat) l ->
  mp_getitem l idx = Ok p <->
  - Z.of_nat (length l) <= idx < Z.of_nat (length l) /\ l !! Z.to_nat (idx mod Z.of_nat (length l)) = Some [p.1; p.2].
Proof.
  intros HF. unfold mp_getitem, py_getitem, py_index. set (n := Z.of_nat (length l)).
  set (i := if idx <? 0 then idx + n else idx).
  assert (Hi : - n <= idx < n -> 0 <= i < n /\ i = idx mod n).
  { intros H. subst i. destruct (Z.ltb_spec idx 0).
    - split; [lia|]. rewrite <-(Z.mod_add idx 1 n) by lia. rewrite Z.mod_small; lia.
    - split; [lia|]. rewrite Z.mod_small; lia. }
  split.
  - destruct ((0 <=? i) && (i <? n)) eqn:E; [|discriminate]. cbn [rbind].
    assert (H : - n <= idx < n) by (subst i; destruct (Z.ltb_spec idx 0); lia).
    destruct (Hi H) as [H1 H2]. rewrite <-H2. destruct (l !! Z.to_nat i) as [t|] eqn:El; [|discriminate]. cbn [rbind].
    assert (Hl : length t = 2%nat) by (rewrite Forall_forall in HF; apply HF; by eapply elem_of_list_lookup_2).
    destruct t as [|x [|y [|]]]; try discriminate. intros [= <-]. done.
  - intros [H Hl]. destruct (Hi H) as [H1 H2]. rewrite <-H2 in Hl.
    replace ((0 <=? i) && (i <? n)) with true by lia. cbn [rbind]. rewrite Hl. cbn. by destruct p.
Qed.
Lemma with_elevation_spec l e : Forall (fun t => length t = 2%nat) l ->
  exists r, mp_points_with_elevation l e = Ok r /\ map pte_tuple r = map (fun t => t ++ [e]) l.
Proof.
  intros HF. unfold mp_points_with_elevation.
  assert (G : forall acc, exists r, foldM (fun t acc => match t with x :: y :: _ => Ok (acc ++ [((x, y), e)]) | _ => Err IndexError end) l acc = Ok (acc ++ r) /\
     map pte_tuple r = map (fun t => t ++ [e]) l).
  { induction HF as [|t l Ht HF IH]; intros acc; [exists []; by rewrite app_nil_r|].
    destruct t as [|x [|y [|]]]; try discriminate. cbn. destruct (IH (acc ++ [((x, y), e)])) as (r & -> & Hr).
    exists (((x, y), e) :: r). rewrite <-app_assoc. split; [done|]. cbn. by rewrite Hr. }
  destruct (G []) as (r & -> & Hr). by exists r.
Qed.
