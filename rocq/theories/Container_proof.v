(** Proofs about containers and comparisons. *)
From Verif Require Import Container_model Container_spec Raster_proof.
From Coq Require Import Sorted Qabs Lqa.
Local Open Scope Z_scope.

Lemma Qlt_b_iff a b : Qlt_b a b = true <-> (a < b)%Q.
Proof. unfold Qlt_b. rewrite negb_true_iff, <-not_true_iff_false, Qle_bool_iff. split; [apply Qnot_le_lt|apply Qlt_not_le]. Qed.
Lemma Qlt_b_false a b : Qlt_b a b = false <-> (b <= a)%Q.
Proof. rewrite <-not_true_iff_false, Qlt_b_iff. split; [apply Qnot_lt_le|apply Qle_not_lt]. Qed.

(** ** Lookup by id *)

Lemma last_with_cons i x l z : last_with i (x :: l) z <->
  last_with i l z \/ (z = x /\ it_id x = i /\ Forall (fun y => it_id y <> i) l).
Proof.
  split.
  - intros ([|y l1] & l2 & E & Hi & Hf); injection E as -> ->; [by right|left; by exists l1, l2].
  - intros [(l1 & l2 & -> & Hi & Hf)|(-> & Hi & Hf)]; [by exists (x :: l1), l2|by exists [], l].
Qed.
Lemma last_with_nil i z : ~ last_with i [] z.
Proof. intros ([|] & l2 & E & _); done. Qed.
Lemma last_with_in i l z : last_with i l z -> z ∈ l /\ it_id z = i.
Proof. intros (l1 & l2 & -> & Hi & _). split; [apply elem_of_app; right; by left|done]. Qed.
Lemma last_with_or i l : (exists z, last_with i l z) \/ Forall (fun y => it_id y <> i) l.
Proof.
  induction l as [|x l IH]; [by right|]. destruct IH as [[z Hz]|IH].
  - left. exists z. apply last_with_cons. by left.
  - destruct (decide (it_id x = i)) as [E|E].
    + left. exists x. apply last_with_cons. by right.
    + right. by constructor.
Qed.

Lemma fold_lookup l : forall (t : gmap nat item) i z, foldl (fun t x => <[it_id x := x]> t) t l !! i = Some z <->
  last_with i l z \/ (t !! i = Some z /\ Forall (fun y => it_id y <> i) l).
Proof.
  induction l as [|x l IH]; intros t i z; cbn.
  - split; [by right|]. intros [H|[H _]]; [by apply last_with_nil in H|done].
  - rewrite IH, last_with_cons. split.
    + intros [H|[H Hf]]; [by left; left|]. destruct (decide (it_id x = i)) as [E|E].
      * subst i. rewrite lookup_insert in H. injection H as ->. left. by right.
      * rewrite lookup_insert_ne in H by done. right. split; [done|]. by constructor.
    + intros [[H|(-> & E & Hf)]|[H Hf]]; [by left| |].
      * subst i. right. by rewrite lookup_insert.
      * apply Forall_cons in Hf as [Hx Hf]. right. by rewrite lookup_insert_ne.
Qed.

Lemma may_add_iff k c : may_add k c = true <-> accepts k c.
Proof. by destruct k, c. Qed.
Lemma do_call_adds c o : is_set o = false ->
  c_kind (do_call c o) = c_kind c /\ c_points (do_call c o) = c_points c ++ adds (c_kind c) o /\
  c_lookup (do_call c o) = foldl (fun t x => <[it_id x := x]> t) (c_lookup c) (adds (c_kind c) o).
Proof.
  destruct o as [x|l|i x]; intros H; [| |done]; unfold do_call, call, c_append, c_extend, adds.
  - destruct (decide _) as [D|D].
    + apply may_add_iff in D. by rewrite D.
    + rewrite <-may_add_iff, not_true_iff_false in D. rewrite D. cbn. by rewrite app_nil_r.
  - assert (forallb (fun x => may_add (c_kind c) (it_cls x)) l = true <-> Forall (fun x => accepts (c_kind c) (it_cls x)) l) as E.
    { rewrite forallb_forall, Forall_forall. setoid_rewrite elem_of_list_In. by setoid_rewrite may_add_iff. }
    destruct (decide _) as [D|D].
    + apply E in D. by rewrite D.
    + rewrite <-E, not_true_iff_false in D. rewrite D. cbn. by rewrite app_nil_r.
Qed.

Lemma calls_history ops : forall c, Forall (fun o => is_set o = false) ops ->
  let c' := foldl do_call c ops in
  let new := concat (map (adds (c_kind c)) ops) in
  c_kind c' = c_kind c /\ c_points c' = c_points c ++ new /\
  c_lookup c' = foldl (fun t x => <[it_id x := x]> t) (c_lookup c) new.
Proof.
  induction ops as [|o ops IH]; intros c Hf; cbn; [by rewrite app_nil_r|].
  apply Forall_cons in Hf as [Ho Hf]. destruct (do_call_adds c o Ho) as (H1 & H2 & H3).
  destruct (IH (do_call c o) Hf) as (I1 & I2 & I3). rewrite H1 in *. rewrite I1, I2, I3, H2, H3.
  by rewrite foldl_app, app_assoc.
Qed.

Lemma new_container_spec k l c : new_container k l = Ok c -> c_kind c = k /\ c_points c = l /\ c_lookup c = build_lookup l.
Proof. unfold new_container. destruct k; destruct (forallb _ l); intros [= <-]; done. Qed.

Lemma by_id_history k l c ops : new_container k l = Ok c -> Forall (fun o => is_set o = false) ops ->
  let c' := foldl do_call c ops in
  let all := l ++ concat (map (adds k) ops) in
  c_points c' = all /\
  (forall i x, by_id i c' = Ok x <-> last_with i all x) /\
  (forall i, by_id i c' = Err KeyError <-> Forall (fun y => it_id y <> i) all) /\
  (forall x, x ∈ c_points c' -> exists y, by_id (it_id x) c' = Ok y /\ y ∈ c_points c' /\ it_id y = it_id x).
Proof.
  intros Hn Hf. cbn. destruct (new_container_spec _ _ _ Hn) as (Ek & Ep & El).
  destruct (calls_history ops c Hf) as (I1 & I2 & I3). rewrite Ek in *. set (c' := foldl do_call c ops) in *.
  set (all := l ++ concat (map (adds k) ops)).
  assert (forall i x, c_lookup c' !! i = Some x <-> last_with i all x) as Hl.
  { intros i x. rewrite I3, El. unfold build_lookup. rewrite <-foldl_app. fold all. rewrite fold_lookup.
    split; [|by left]. intros [H|[H _]]; [done|by rewrite lookup_empty in H]. }
  assert (forall i x, by_id i c' = Ok x <-> last_with i all x) as Hb.
  { intros i x. rewrite <-Hl. unfold by_id. destruct (c_lookup c' !! i) as [y|]; [|split; intros; congruence].
    split; intros; congruence. }
  assert (c_points c' = all) as Hp by by rewrite I2, Ep.
  split; [done|]. split; [done|]. split.
  - intros i. destruct (last_with_or i all) as [[z Hz]|Hno].
    + pose proof (proj2 (Hb i z) Hz) as Ez. rewrite Ez. split; [done|]. intros Hno. exfalso.
      apply last_with_in in Hz as [Hin Hid]. rewrite Forall_forall in Hno. by apply (Hno z).
    + split; [done|]. intros _. unfold by_id. destruct (c_lookup c' !! i) as [y|] eqn:E; [|done].
      apply Hl, last_with_in in E as [Hin Hid]. rewrite Forall_forall in Hno. by destruct (Hno y).
  - intros x Hx. rewrite Hp in *. destruct (last_with_or (it_id x) all) as [[z Hz]|Hno].
    + exists z. split; [by apply Hb|]. by apply last_with_in.
    + rewrite Forall_forall in Hno. by destruct (Hno x).
Qed.

(** ** Picking *)

Lemma picks_app {A} (P : A -> Prop) l1 l2 k1 k2 : picks P l1 k1 -> picks P l2 k2 -> picks P (l1 ++ l2) (k1 ++ k2).
Proof. induction 1; intros; cbn; [done|constructor; auto|constructor; auto]. Qed.
Lemma picks_none {A} (P : A -> Prop) l : Forall (fun x => ~ P x) l -> picks P l [].
Proof. induction 1; by constructor. Qed.
Lemma picks_ext {A} (P P' : A -> Prop) l k : (forall x, x ∈ l -> P x <-> P' x) -> picks P l k -> picks P' l k.
Proof.
  intros H. induction 1 as [|x l k Hx _ IH|x l k Hx _ IH]; [constructor| |].
  - apply picks_in; [apply H; [by left|done]|]. apply IH. intros y Hy. apply H. by right.
  - apply picks_out; [by rewrite <-H by by left|]. apply IH. intros y Hy. apply H. by right.
Qed.
Lemma picks_filter {A} (P : A -> Prop) `{!forall x, Decision (P x)} l : picks P l (filter P l).
Proof.
  induction l as [|x l IH]; [constructor|]. rewrite filter_cons. destruct (decide (P x)); by constructor.
Qed.
Lemma picks_elem {A} (P : A -> Prop) l k x : picks P l k -> x ∈ k <-> x ∈ l /\ P x.
Proof.
  induction 1 as [|y l k Hy _ IH|y l k Hy _ IH]; [set_solver| |]; rewrite ?elem_of_cons, IH; naive_solver.
Qed.
Lemma picks_sub {A} (P : A -> Prop) l k : picks P l k -> k `sublist_of` l.
Proof. induction 1; by constructor. Qed.

(** ** Extremes *)

Section extreme.
  Context {A : Type} (better : Q -> Q -> bool) (le : Q -> Q -> Prop) (ele : A -> Q).
  Hypothesis le_refl : forall a b, (a == b)%Q -> le a b.
  Hypothesis le_trans : forall a b c, le a b -> le b c -> le a c.
  Hypothesis le_eq : forall a b, le a b -> le b a -> (a == b)%Q.
  Hypothesis better_le : forall a b, better a b = true <-> ~ le b a.
  Hypothesis le_total : forall a b, le a b \/ le b a.

  Lemma extreme_spec l : l <> [] -> exists r, extreme better ele l = Ok r /\
    picks (fun x => forall y, y ∈ l -> le (ele x) (ele y)) l r /\ r <> [].
  Proof.
    destruct l as [|a l0]; [done|]. intros _. unfold extreme. set (l := a :: l0).
    set (f := fun st x => if better (ele x) st.1 then (ele x, [x])
        else if Qeq_bool (ele x) st.1 then (st.1, st.2 ++ [x]) else st).
    assert (forall p st done_, (forall y, y ∈ done_ -> le st.1 (ele y)) -> le st.1 (ele a) ->
      (exists y, y ∈ a :: done_ /\ (st.1 == ele y)%Q) -> picks (fun x => (ele x == st.1)%Q) done_ st.2 ->
      let st' := foldl f st p in
      (forall y, y ∈ done_ ++ p -> le st'.1 (ele y)) /\ (exists y, y ∈ a :: done_ ++ p /\ (st'.1 == ele y)%Q) /\
      picks (fun x => (ele x == st'.1)%Q) (done_ ++ p) st'.2) as H.
    { induction p as [|x p IH]; intros st dn H1 Ha H2 H3; cbn [foldl].
      - by rewrite app_nil_r.
      - cbn zeta. assert (dn ++ x :: p = (dn ++ [x]) ++ p) as -> by by rewrite <-app_assoc. apply IH.
        + intros y. rewrite elem_of_app, elem_of_list_singleton. unfold f. destruct (better (ele x) st.1) eqn:E.
          * cbn. intros [Hy| ->]; [|by apply le_refl]. destruct (le_total (ele x) st.1) as [Hl|Hl].
            -- eapply le_trans; [exact Hl|by apply H1].
            -- apply better_le in E. done.
          * assert (le st.1 (ele x)) as Hx.
            { destruct (le_total (ele x) st.1) as [Hl|Hl]; [|done].
              destruct (le_total st.1 (ele x)) as [Hl'|Hl']; [done|].
              assert (~ ~ le st.1 (ele x)) as Hnn.
              { intros Hn. apply better_le in Hn. congruence. }
              destruct (Qeq_dec (ele x) st.1) as [Heq|Hneq].
              - apply le_refl. by symmetry.
              - exfalso. apply Hnn. intros Hc. apply Hneq. by apply le_eq. }
            destruct (Qeq_bool (ele x) st.1) eqn:E2; cbn; intros [Hy| ->]; auto.
        + unfold f. destruct (better (ele x) st.1) eqn:E; [|by destruct (Qeq_bool _ _)]. cbn.
          apply better_le in E. destruct (le_total (ele x) st.1) as [Hl|Hl]; [|done]. by eapply le_trans.
        + unfold f. destruct (better (ele x) st.1); [exists x; split; [right; apply elem_of_app; right; by left|done]|].
          destruct H2 as (y & Hy & Ey). exists y. split; [|by destruct (Qeq_bool _ _)].
          apply elem_of_cons in Hy as [->|Hy]; [by left|right; apply elem_of_app; by left].
        + unfold f. destruct (better (ele x) st.1) eqn:E; [|destruct (Qeq_bool (ele x) st.1) eqn:E2]; cbn.
          * apply (picks_app _ dn [x] [] [x]); [|constructor; [done|constructor]].
            apply picks_none, Forall_forall. intros y Hy Heq. apply better_le in E. apply E.
            eapply le_trans; [by apply H1|by apply le_refl].
          * apply picks_app; [done|]. apply Qeq_bool_iff in E2. constructor; [done|constructor].
          * rewrite <-(app_nil_r st.2). apply picks_app; [done|]. constructor; [|constructor].
            intros Heq. apply Qeq_bool_iff in Heq. congruence. }
    destruct (H l (ele a, []) []) as (H1 & H2 & H3).
    { intros y Hy. by apply elem_of_nil in Hy. }
    { by apply le_refl. }
    { exists a. split; [by left|done]. }
    { constructor. }
    fold f in H1, H2, H3. cbn [app] in *. set (st := foldl f (ele a, []) l) in *. exists st.2. split; [done|].
    destruct H2 as (y & Hy & Ey). assert (y ∈ l) as Hyl by (apply elem_of_cons in Hy as [->|Hy]; [by left|done]).
    split.
    - eapply picks_ext; [|exact H3]. intros x Hx. split.
      + intros Heq z Hz. eapply le_trans; [by apply le_refl|by apply H1].
      + intros Hm. apply le_eq; [|by apply H1]. eapply le_trans; [exact (Hm y Hyl)|]. apply le_refl. by symmetry.
    - intros Hn. assert (y ∈ st.2) as Hin; [|rewrite Hn in Hin; by apply elem_of_nil in Hin].
      eapply picks_elem; [exact H3|]. split; [done|]. by symmetry.
  Qed.
End extreme.

Lemma lowest_spec {A} (ele : A -> Q) l : l <> [] -> exists r, lowest ele l = Ok r /\
  picks (fun x => forall y, y ∈ l -> (ele x <= ele y)%Q) l r /\ r <> [].
Proof.
  apply extreme_spec.
  - intros a b H. rewrite H. apply Qle_refl.
  - intros a b c. apply Qle_trans.
  - intros a b. apply Qle_antisym.
  - intros a b. rewrite Qlt_b_iff. split; [apply Qlt_not_le|apply Qnot_le_lt].
  - intros a b. destruct (Qlt_le_dec a b); [left; by apply Qlt_le_weak|by right].
Qed.
Lemma highest_of_spec {A} (ele : A -> Q) l : l <> [] -> exists r, highest_of ele l = Ok r /\
  picks (fun x => forall y, y ∈ l -> (ele y <= ele x)%Q) l r /\ r <> [].
Proof.
  apply (extreme_spec _ (fun a b => b <= a)%Q).
  - intros a b H. rewrite H. apply Qle_refl.
  - intros a b c H1 H2. by eapply Qle_trans.
  - intros a b H1 H2. by apply Qle_antisym.
  - intros a b. rewrite Qlt_b_iff. split; [apply Qlt_not_le|apply Qnot_le_lt].
  - intros a b. destruct (Qlt_le_dec a b); [right; by apply Qlt_le_weak|by left].
Qed.

(** ** Units *)

Lemma letter_case (n : nat) : (n < 26)%nat ->
  lower_char (ascii_of_nat (65 + n)) = ascii_of_nat (97 + n) /\ lower_char (ascii_of_nat (97 + n)) = ascii_of_nat (97 + n).
Proof.
  intros H. do 26 (destruct n as [|n]; [split; by vm_compute|]). lia.
Qed.
Lemma same_letter_lower a b : same_letter a b <-> lower_char a = lower_char b.
Proof.
  split.
  - intros [->|(n & Hn & H)]; [done|]. destruct (letter_case (n - 65)) as [H1 H2]; [lia|].
    replace (65 + (n - 65))%nat with n in H1 by lia. replace (97 + (n - 65))%nat with (n + 32)%nat in H1, H2 by lia.
    destruct H as [[-> ->]|[-> ->]]; congruence.
  - assert (forall c, lower_char c = c \/ exists n, (65 <= n <= 90)%nat /\ c = ascii_of_nat n /\ lower_char c = ascii_of_nat (n + 32)) as H.
    { intros c. unfold lower_char. destruct (_ && _) eqn:E; [|by left]. right.
      apply andb_true_iff in E as [E1 E2]. apply Nat.leb_le in E1, E2. exists (nat_of_ascii c). split; [done|].
      split; [by rewrite ascii_nat_embedding|done]. }
    intros E. destruct (H a) as [Ha|(n & Hn & Ea & La)], (H b) as [Hb|(k & Hk & Eb & Lb)].
    + left. congruence.
    + right. exists k. split; [done|]. right. split; [done|]. congruence.
    + right. exists n. split; [done|]. left. split; [done|]. congruence.
    + left. rewrite La, Lb in E. rewrite Ea, Eb. f_equal.
      apply (f_equal nat_of_ascii) in E. rewrite !nat_ascii_embedding in E by lia. lia.
Qed.
Lemma same_word_lower a : forall b, same_word a b <-> lower a = lower b.
Proof.
  unfold same_word. induction a as [|x a IH]; intros [|y b]; cbn.
  - split; [done|constructor].
  - split; [intros H; by inversion H|done].
  - split; [intros H; by inversion H|done].
  - split.
    + intros H. inversion H as [|? ? ? ? H1 H2]; subst. apply same_letter_lower in H1. apply IH in H2. congruence.
    + intros [= H1 H2]. constructor; [by apply same_letter_lower|by apply IH].
Qed.
Lemma mem_iff s l : mem s l = true <-> s ∈ l.
Proof.
  unfold mem. rewrite existsb_exists. split.
  - intros (x & Hx & E). apply String.eqb_eq in E as ->. by apply elem_of_list_In.
  - intros H. exists s. split; [by apply elem_of_list_In|]. apply String.eqb_refl.
Qed.
Lemma unit_is_lower u f : unit_is u f <-> (lower u, f) ∈ unit_names.
Proof.
  assert (forall n g, (n, g) ∈ unit_names -> lower n = n) as Hl.
  { intros n g. unfold unit_names. rewrite !elem_of_cons, elem_of_nil. intros H.
    repeat (destruct H as [[= -> ->]|H]; [done|]). done. }
  split.
  - intros (n & Hn & E). apply same_word_lower in E. rewrite E. by rewrite (Hl n f Hn).
  - intros H. exists (lower u). split; [done|]. apply same_word_lower. symmetry. by apply (Hl _ f).
Qed.
Lemma to_meters_spec value u f : unit_is u f -> exists d, to_meters value u = Ok d /\ (d == value * f)%Q.
Proof.
  rewrite unit_is_lower. unfold to_meters. generalize (lower u). intros s. unfold unit_names.
  rewrite !elem_of_cons, elem_of_nil. intros H.
  repeat (destruct H as [[= -> ->]|H]; [cbn; eexists; split; [done|]; unfold METERS_PER_FOOT, FEET_PER_MILE; ring|]). done.
Qed.
Lemma to_meters_unknown value u : (forall f, ~ unit_is u f) -> to_meters value u = Err ValueError.
Proof.
  intros H. assert (forall n f, (n, f) ∈ unit_names -> lower u <> n) as Hn.
  { intros n f Hin <-. by apply (H f), unit_is_lower. }
  unfold to_meters.
  assert (forall l, (forall n, n ∈ l -> exists f, (n, f) ∈ unit_names) -> mem (lower u) l = false) as Hm.
  { intros l Hl. apply not_true_iff_false. rewrite mem_iff. intros Hin. destruct (Hl _ Hin) as [f Hf]. by apply (Hn (lower u) f). }
  rewrite !Hm; [done|..]; intros n; rewrite !elem_of_cons, elem_of_nil; intros Hin; unfold unit_names;
    repeat (destruct Hin as [->|Hin]; [eexists; apply elem_of_list_In; cbn; intuition reflexivity|]); done.
Qed.

(** ** Filters *)

Lemma new_container_ok k l : Forall (fun x => belongs k (it_cls x)) l -> new_container k l = Ok (Container k l (build_lookup l)).
Proof.
  intros H. unfold new_container, belongs in *. rewrite Forall_forall in H.
  destruct k; (destruct (forallb _ l) eqn:E; [done|]; apply not_true_iff_false in E; destruct E; apply forallb_forall;
    intros x Hx; apply elem_of_list_In, H in Hx as [H1 H2]; destruct (it_cls x); naive_solver).
Qed.
Lemma new_picks k l l' P : Forall (fun x => belongs k (it_cls x)) l -> picks P l l' ->
  exists c', new_container k l' = Ok c' /\ c_kind c' = k /\ picks P l (c_points c').
Proof.
  intros Hf Hp. exists (Container k l' (build_lookup l')). split; [|done]. apply new_container_ok.
  apply Forall_forall. intros x Hx. apply (picks_elem P l l' x Hp) in Hx as [Hx _]. rewrite Forall_forall in Hf. by apply Hf.
Qed.
Lemma fold_snoc_filter {A} (f : A -> bool) l : forall acc,
  foldl (fun acc x => if f x then acc ++ [x] else acc) acc l = acc ++ filter (fun x => f x = true) l.
Proof.
  induction l as [|x l IH]; intros acc; cbn [foldl]; [by rewrite app_nil_r|]. rewrite filter_cons, IH.
  destruct (f x); [rewrite decide_True by done; by rewrite <-app_assoc|by rewrite decide_False by done].
Qed.

Lemma radius_spec g lat lon value u f c : unit_is u f -> Forall (fun x => belongs (c_kind c) (it_cls x)) (c_points c) ->
  exists c', radius g lat lon value u c = Ok c' /\ c_kind c' = c_kind c /\
    picks (fun x => g (lat, lon) (it_lat x, it_lon x) < value * f)%Q (c_points c) (c_points c').
Proof.
  intros Hu Hc. unfold radius. destruct (to_meters_spec value u f Hu) as (d & -> & Hd). cbn [rbind].
  apply new_picks; [done|]. rewrite fold_snoc_filter. cbn [app].
  eapply picks_ext; [|apply picks_filter]. intros x _. cbn. rewrite Qlt_b_iff. by rewrite Hd.
Qed.
Lemma radius_unknown g lat lon value u c : (forall f, ~ unit_is u f) -> radius g lat lon value u c = Err ValueError.
Proof. intros H. unfold radius. by rewrite to_meters_unknown. Qed.

Lemma max_between a b x : (Qmin_b a b < x /\ x < Qmax_b a b)%Q <-> strictly_within a b x.
Proof.
  unfold Qmin_b, Qmax_b, strictly_within. destruct (Qlt_b a b) eqn:E1, (Qlt_b b a) eqn:E2;
    rewrite ?Qlt_b_iff, ?Qlt_b_false in *; split; intros H; try lra.
Qed.
Lemma rectangle_spec lat1 long1 lat2 long2 c : Forall (fun x => belongs (c_kind c) (it_cls x)) (c_points c) ->
  exists c', rectangle lat1 long1 lat2 long2 c = Ok c' /\ c_kind c' = c_kind c /\
    picks (fun x => strictly_within lat1 lat2 (it_lat x) /\ strictly_within long1 long2 (it_lon x)) (c_points c) (c_points c').
Proof.
  intros Hc. unfold rectangle. apply new_picks; [done|]. eapply picks_ext; [|apply picks_filter]. intros x _.
  rewrite !andb_true_iff, !Qlt_b_iff, <-!max_between. tauto.
Qed.
Lemma rectangle_corners lat1 long1 lat2 long2 c : Forall (fun x => belongs (c_kind c) (it_cls x)) (c_points c) ->
  rectangle lat1 long1 lat2 long2 c = rectangle lat2 long2 lat1 long1 c /\
  rectangle lat1 long1 lat2 long2 c = rectangle lat1 long2 lat2 long1 c.
Proof.
  intros _. unfold rectangle.
  assert (forall a b x, Qlt_b (Qmin_b a b) x && Qlt_b x (Qmax_b a b) = Qlt_b (Qmin_b b a) x && Qlt_b x (Qmax_b b a)) as H.
  { intros a b x. apply eq_true_iff_eq. rewrite !andb_true_iff, !Qlt_b_iff, !max_between. unfold strictly_within. tauto. }
  split; f_equal; apply list_filter_iff; intros x.
  - rewrite (H lat1 lat2 (it_lat x)), <-!andb_assoc, (H long1 long2 (it_lon x)). done.
  - rewrite <-!andb_assoc, (H long1 long2 (it_lon x)). done.
Qed.
Lemma elevation_range_spec lo up c : Forall (fun x => belongs (c_kind c) (it_cls x)) (c_points c) ->
  exists c', elevation_range lo up c = Ok c' /\ c_kind c' = c_kind c /\
    picks (fun x => lo * (3048 # 10000) < it_ele x /\ it_ele x < up * (3048 # 10000))%Q (c_points c) (c_points c').
Proof.
  intros Hc. unfold elevation_range. apply new_picks; [done|]. eapply picks_ext; [|apply picks_filter]. intros x _.
  rewrite !andb_true_iff, !Qlt_b_iff.
  assert ((it_ele x * FEET_PER_METER == it_ele x * (10000 # 3048))%Q) as E by (unfold FEET_PER_METER, METERS_PER_FOOT; done).
  rewrite E. split; intros [H1 H2]; split; lra.
Qed.
Lemma elevation_range_metric_spec lo up c : Forall (fun x => belongs (c_kind c) (it_cls x)) (c_points c) ->
  exists c', elevation_range_metric lo up c = Ok c' /\ c_kind c' = c_kind c /\
    picks (fun x => lo < it_ele x /\ it_ele x < up)%Q (c_points c) (c_points c').
Proof.
  intros Hc. unfold elevation_range_metric. apply new_picks; [done|]. eapply picks_ext; [|apply picks_filter]. intros x _.
  rewrite !andb_true_iff, !Qlt_b_iff. tauto.
Qed.

(** ** Locations *)

Lemma round6_proper a b : (a == b)%Q -> round6 a = round6 b.
Proof. intros H. unfold round6. apply py_round_proper. by rewrite H. Qed.
Lemma eq_key_round a b : eq_key a = eq_key b -> round6 a = round6 b.
Proof.
  unfold eq_key. destruct (Qeq_bool a 0) eqn:Ea, (Qeq_bool b 0) eqn:Eb; intros E; try done; [|congruence].
  apply Qeq_bool_iff in Ea, Eb. apply round6_proper. by rewrite Ea, Eb.
Qed.
Lemma loc_eq_equiv : (forall a, loc_eq a a = true) /\ (forall a b, loc_eq a b = loc_eq b a) /\
  (forall a b c, loc_eq a b = true -> loc_eq b c = true -> loc_eq a c = true).
Proof.
  unfold loc_eq, coord_eq. split; [|split].
  - intros a. rewrite !bool_decide_true by done. apply Qeq_bool_iff. reflexivity.
  - intros a b. f_equal; [f_equal; apply bool_decide_ext; split; congruence|]. apply eq_true_iff_eq. rewrite !Qeq_bool_iff. split; by intros ->.
  - intros a b c. rewrite !andb_true_iff, !bool_decide_eq_true, !Qeq_bool_iff. intros [[? ?] E] [[? ?] E'].
    split; [split; congruence|]. by rewrite E.
Qed.
Lemma loc_eq_hash a b : is_saddle (lc_cls a) = false -> is_saddle (lc_cls b) = false ->
  is_Some (lc_lat a) -> is_Some (lc_lon a) -> is_Some (lc_lat b) -> is_Some (lc_lon b) ->
  loc_eq a b = true -> exists k k', hash_key a = Ok k /\ hash_key b = Ok k' /\ hkey_same k k'.
Proof.
  intros Ha Hb [x Ex] [y Ey] [x' Ex'] [y' Ey']. unfold loc_eq, coord_eq, hash_key. rewrite Ex, Ey, Ex', Ey', Ha, Hb. cbn.
  rewrite !andb_true_iff, !bool_decide_eq_true, Qeq_bool_iff. intros [[E1 E2] E3].
  do 2 eexists. split; [done|]. split; [done|]. cbn. split; [by apply eq_key_round|]. split; [by apply eq_key_round|done].
Qed.
Lemma eq_key_cases a b : round6 a = round6 b -> eq_key a <> eq_key b <-> near_zero a b.
Proof.
  unfold eq_key, near_zero. intros Hr.
  assert (forall q, (q == 0)%Q -> round6 q = 0) as H0 by (intros q Hq; by rewrite (round6_proper _ _ Hq)).
  destruct (Qeq_bool a 0) eqn:Ea, (Qeq_bool b 0) eqn:Eb;
    rewrite <-?not_true_iff_false, ?Qeq_bool_iff in *.
  - split; [done|]. tauto.
  - specialize (H0 a Ea). split; [|done]. intros _. split; [by left|]. split; congruence.
  - specialize (H0 b Eb). split; [|done]. intros _. split; [by right|]. split; congruence.
  - split; [congruence|]. tauto.
Qed.
Lemma loc_ne_spec a b xa ya xb yb : lc_lat a = Some xa -> lc_lon a = Some ya -> lc_lat b = Some xb -> lc_lon b = Some yb ->
  exists r, loc_ne a b = Ok r /\
    (r = true -> loc_eq a b = false) /\
    (r = false /\ loc_eq a b = false <->
       (lc_ele a == lc_ele b)%Q /\ round6 xa = round6 xb /\ round6 ya = round6 yb /\ (near_zero xa xb \/ near_zero ya yb)).
Proof.
  intros E1 E2 E3 E4. unfold loc_ne, loc_eq, coord_eq. rewrite E1, E2, E3, E4. cbn. eexists. split; [done|]. split.
  - rewrite negb_true_iff, <-!not_true_iff_false. intros H H'. apply H. rewrite !andb_true_iff, !bool_decide_eq_true in H'.
    destruct H' as [[H1 H2] H3]. rewrite !andb_true_iff, !Z.eqb_eq. split; [split; by apply eq_key_round|done].
  - rewrite negb_false_iff, !andb_true_iff, !Z.eqb_eq, Qeq_bool_iff. split.
    + intros [[[H1 H2] H3] H4]. split; [done|]. split; [done|]. split; [done|].
      rewrite <-(eq_key_cases xa xb H1), <-(eq_key_cases ya yb H2).
      destruct (decide (eq_key xa = eq_key xb)) as [D|D]; [|by left]. right. intros D'.
      rewrite !bool_decide_true in H4 by done. apply Qeq_bool_iff in H3. cbn in H4. congruence.
    + intros (H3 & H1 & H2 & H4). split; [done|]. apply not_true_iff_false. rewrite !andb_true_iff, !bool_decide_eq_true.
      intros [[D1 D2] _]. rewrite <-(eq_key_cases xa xb H1), <-(eq_key_cases ya yb H2) in H4. tauto.
Qed.

Lemma coord_ne_spec a b xa ya xb yb : lc_lat a = Some xa -> lc_lon a = Some ya -> lc_lat b = Some xb -> lc_lon b = Some yb ->
  exists r, coord_ne a b = Ok r /\
    (r = true -> coord_eq a b = false) /\
    (r = false /\ coord_eq a b = false <->
       round6 xa = round6 xb /\ round6 ya = round6 yb /\ (near_zero xa xb \/ near_zero ya yb)).
Proof.
  intros E1 E2 E3 E4. unfold coord_ne, coord_eq. rewrite E1, E2, E3, E4. cbn. eexists. split; [done|]. split.
  - rewrite negb_true_iff, <-!not_true_iff_false. intros H H'. apply H. rewrite !andb_true_iff, !bool_decide_eq_true in H'.
    destruct H' as [H1 H2]. rewrite !andb_true_iff, !Z.eqb_eq. split; by apply eq_key_round.
  - rewrite negb_false_iff, !andb_true_iff, !Z.eqb_eq. split.
    + intros [[H1 H2] H4]. split; [done|]. split; [done|].
      rewrite <-(eq_key_cases xa xb H1), <-(eq_key_cases ya yb H2).
      destruct (decide (eq_key xa = eq_key xb)) as [D|D]; [|by left]. right. intros D'.
      rewrite !bool_decide_true in H4 by done. done.
    + intros (H1 & H2 & H4). split; [done|]. apply not_true_iff_false. rewrite !andb_true_iff, !bool_decide_eq_true.
      intros [D1 D2]. rewrite <-(eq_key_cases xa xb H1), <-(eq_key_cases ya yb H2) in H4. tauto.
Qed.

(** ** Sorting *)

Lemma list_same_Forall2 {A} (same : A -> A -> bool) l : forall k,
  list_same same l k = true <-> Forall2 (fun x y => same x y = true) l k.
Proof.
  induction l as [|x l IH]; intros [|y k]; cbn.
  - split; [constructor|done].
  - split; [done|]. intros H; by inversion H.
  - split; [done|]. intros H; by inversion H.
  - rewrite andb_true_iff, IH. split; [intros [? ?]; by constructor|]. intros H; by inversion H.
Qed.

Section total.
  Context {A : Type} (lt same : A -> A -> bool).
  Hypothesis same_eq : forall a b, same a b = true <-> a = b.
  Hypothesis lt_trans : forall a b c, lt b a = false -> lt c b = false -> lt c a = false.
  Hypothesis lt_asym : forall a b, lt a b = true -> lt b a = false.
  Hypothesis lt_total : forall a b, lt a b = false -> lt b a = false -> a = b.

  Lemma insert_perm x l : insert_sorted lt x l ≡ₚ x :: l.
  Proof.
    induction l as [|y l IH]; cbn; [done|]. destruct (lt y x); [|done]. rewrite IH. apply perm_swap.
  Qed.
  Lemma py_sorted_perm l : py_sorted lt l ≡ₚ l.
  Proof. induction l as [|x l IH]; cbn; [done|]. unfold py_sorted in IH. rewrite insert_perm. by f_equiv. Qed.
  Lemma insert_sorted_ok x l : StronglySorted (fun a b => lt b a = false) l ->
    StronglySorted (fun a b => lt b a = false) (insert_sorted lt x l).
  Proof.
    induction 1 as [|y l Hs IH Hf]; cbn; [by constructor; constructor|].
    destruct (lt y x) eqn:E.
    - constructor; [done|]. rewrite Forall_forall in *. intros z Hz. rewrite insert_perm in Hz.
      apply elem_of_cons in Hz as [->|Hz]; [by apply lt_asym|by apply Hf].
    - constructor; [by constructor|]. constructor; [done|]. rewrite Forall_forall in *. intros z Hz.
      eapply lt_trans; [exact E|by apply Hf].
  Qed.
  Lemma py_sorted_ok l : StronglySorted (fun a b => lt b a = false) (py_sorted lt l).
  Proof. induction l as [|x l IH]; cbn; [constructor|]. by apply insert_sorted_ok. Qed.

  Lemma sorted_unique l k : StronglySorted (fun a b => lt b a = false) l ->
    StronglySorted (fun a b => lt b a = false) k -> l ≡ₚ k -> l = k.
  Proof.
    intros Hl. revert k. induction Hl as [|x l Hl IH Hf]; intros k Hk Hp.
    - symmetry. by apply Permutation_nil.
    - destruct Hk as [|y k Hk Hg]; [by apply Permutation_sym, Permutation_nil in Hp|].
      assert (x = y) as ->.
      { rewrite Forall_forall in Hf, Hg.
        assert (y ∈ x :: l) as Hy by (rewrite Hp; by left). assert (x ∈ y :: k) as Hx by (rewrite <-Hp; by left).
        apply elem_of_cons in Hx as [?|Hx]; [done|]. apply elem_of_cons in Hy as [?|Hy]; [done|].
        apply lt_total; [by apply Hg|by apply Hf]. }
      f_equal. apply IH; [done|]. by apply Permutation_cons_inv in Hp.
  Qed.
  Lemma sorted_same_perm l k : sorted_same lt same l k = true <-> l ≡ₚ k.
  Proof.
    unfold sorted_same. rewrite list_same_Forall2. split.
    - intros H. assert (py_sorted lt l = py_sorted lt k) as E.
      { induction H as [|x y l' k' H _ IH]; [done|]. apply same_eq in H as ->. by f_equal. }
      rewrite <-(py_sorted_perm l), E. apply py_sorted_perm.
    - intros H. assert (py_sorted lt l = py_sorted lt k) as ->.
      { apply sorted_unique; [apply py_sorted_ok|apply py_sorted_ok|]. by rewrite !py_sorted_perm. }
      generalize (py_sorted lt k). intros r. induction r; constructor; [by apply same_eq|done].
  Qed.
End total.

Section keyed.
  Context {A : Type} (key : A -> Q) (lt same : A -> A -> bool).
  Hypothesis lt_key : forall a b, lt a b = true <-> (key a < key b)%Q.
  Hypothesis same_key : forall a b, same a b = true -> (key a == key b)%Q.

  Let level (e : Q) (l : list A) : list A := filter (fun x => Qeq_bool (key x) e = true) l.

  Lemma lt_key_false a b : lt a b = false <-> (key b <= key a)%Q.
  Proof. rewrite <-not_true_iff_false, lt_key. split; [apply Qnot_lt_le|apply Qle_not_lt]. Qed.
  Lemma insert_level e x l : level e (insert_sorted lt x l) = level e (x :: l).
  Proof.
    unfold level. induction l as [|y l IH]; cbn [insert_sorted]; [done|]. destruct (lt y x) eqn:E; [|done].
    rewrite filter_cons, IH, !filter_cons. apply lt_key in E.
    destruct (decide (Qeq_bool (key y) e = true)) as [Hy|Hy], (decide (Qeq_bool (key x) e = true)) as [Hx|Hx]; try done.
    apply Qeq_bool_iff in Hx, Hy. exfalso. rewrite Hx, Hy in E. by apply Qlt_irrefl in E.
  Qed.
  Lemma sorted_level e l : level e (py_sorted lt l) = level e l.
  Proof.
    induction l as [|x l IH]; [done|]. change (py_sorted lt (x :: l)) with (insert_sorted lt x (py_sorted lt l)).
    rewrite insert_level. unfold level in *. by rewrite !filter_cons, IH.
  Qed.
  Lemma level_Forall2 e l k : Forall2 (fun x y => same x y = true) l k ->
    Forall2 (fun x y => same x y = true) (level e l) (level e k).
  Proof.
    unfold level. induction 1 as [|x y l k H _ IH]; [constructor|]. rewrite !filter_cons.
    pose proof (same_key _ _ H) as E. destruct (decide (Qeq_bool (key x) e = true)) as [Hx|Hx].
    - rewrite decide_True; [by constructor|]. apply Qeq_bool_iff. apply Qeq_bool_iff in Hx. by rewrite <-E.
    - rewrite decide_False; [done|]. intros Hy. apply Hx. apply Qeq_bool_iff. apply Qeq_bool_iff in Hy. by rewrite E.
  Qed.
  Lemma level_in e l x : x ∈ level e l <-> x ∈ l /\ (key x == e)%Q.
  Proof. unfold level. rewrite elem_of_list_filter, Qeq_bool_iff. tauto. Qed.

  Lemma sorted_from_levels l k : StronglySorted (fun a b => lt b a = false) l -> StronglySorted (fun a b => lt b a = false) k ->
    (forall e, Forall2 (fun x y => same x y = true) (level e l) (level e k)) -> Forall2 (fun x y => same x y = true) l k.
  Proof.
    intros Hl. revert k. induction Hl as [|x l Hl IH Hf]; intros k Hk H.
    - destruct k as [|y k]; [constructor|]. specialize (H (key y)). apply Forall2_length in H.
      assert (y ∈ level (key y) (y :: k)) as Hy by (apply level_in; split; [by left|done]).
      destruct (level (key y) (y :: k)); [by apply elem_of_nil in Hy|done].
    - assert (forall (z : A) (p q : list A) e, z ∈ level e p -> Forall2 (fun x y => same x y = true) (level e p) (level e q) ->
        exists z', z' ∈ level e q) as Hex.
      { intros z p q e Hz HF. apply Forall2_length in HF. destruct (level e q) as [|z' q'] eqn:E; [|exists z'; by left].
        destruct (level e p); [by apply elem_of_nil in Hz|done]. }
      destruct (Hex x (x :: l) k (key x)) as [z Hz]; [apply level_in; split; [by left|done]|apply H|].
      destruct Hk as [|y k Hk Hg]; [by apply elem_of_nil in Hz|].
      assert (key y <= key x)%Q as H1.
      { apply level_in in Hz as [Hz Ez]. rewrite <-Ez. apply elem_of_cons in Hz as [->|Hz]; [apply Qle_refl|].
        rewrite Forall_forall in Hg. by apply lt_key_false, Hg. }
      assert (key x <= key y)%Q as H2.
      { destruct (level (key y) (x :: l)) as [|z2 q] eqn:E2.
        - specialize (H (key y)). apply Forall2_length in H. rewrite E2 in H.
          assert (y ∈ level (key y) (y :: k)) as Hy by (apply level_in; split; [by left|done]).
          destruct (level (key y) (y :: k)); [by apply elem_of_nil in Hy|done].
        - assert (z2 ∈ level (key y) (x :: l)) as Hz2 by (rewrite E2; by left).
          apply level_in in Hz2 as [Hz2 Ez2]. rewrite <-Ez2. apply elem_of_cons in Hz2 as [->|Hz2]; [apply Qle_refl|].
          rewrite Forall_forall in Hf. by apply lt_key_false, Hf. }
      assert (key x == key y)%Q as Exy by by apply Qle_antisym.
      assert (forall e, Forall2 (fun x y => same x y = true) (level e l) (level e k) /\ ((key x == e)%Q -> same x y = true)) as H'.
      { intros e. specialize (H e). unfold level in H. rewrite !filter_cons in H.
        destruct (decide (Qeq_bool (key x) e = true)) as [Hx|Hx].
        - rewrite decide_True in H; [by inversion H|]. apply Qeq_bool_iff. apply Qeq_bool_iff in Hx. by rewrite <-Exy.
        - rewrite decide_False in H; [split; [done|]|].
          + intros He. exfalso. apply Hx. by apply Qeq_bool_iff.
          + intros Hy. apply Hx. apply Qeq_bool_iff. apply Qeq_bool_iff in Hy. by rewrite Exy. }
      constructor; [by apply (H' (key x))|]. apply IH; [done|]. intros e. apply H'.
  Qed.
  Lemma sorted_same_levels l k : sorted_same lt same l k = true <->
    forall e, Forall2 (fun x y => same x y = true) (level e l) (level e k).
  Proof.
    assert (forall r, StronglySorted (fun a b => lt b a = false) (py_sorted lt r)) as Hs.
    { intros r. apply py_sorted_ok.
      - intros a b c. rewrite !lt_key_false. intros H1 H2. by eapply Qle_trans.
      - intros a b. rewrite lt_key, lt_key_false. apply Qlt_le_weak. }
    unfold sorted_same. rewrite list_same_Forall2. split.
    - intros H e. rewrite <-(sorted_level e l), <-(sorted_level e k). by apply level_Forall2.
    - intros H. apply sorted_from_levels; [apply Hs|apply Hs|]. intros e. by rewrite !sorted_level.
  Qed.
End keyed.

Lemma xy_same_eq (a b : xy) : xy_same a b = true <-> a = b.
Proof. destruct a, b. unfold xy_same. cbn. rewrite andb_true_iff, !Z.eqb_eq. split; [intros [-> ->]; done|by intros [= -> ->]]. Qed.
Lemma pte_same_eq (a b : pte) : pte_same a b = true <-> a = b.
Proof. destruct a as [a e], b as [b f]. unfold pte_same. cbn. rewrite andb_true_iff, xy_same_eq, Z.eqb_eq. split; [intros [-> ->]; done|by intros [= -> ->]]. Qed.
Lemma xy_lt_spec (a b : xy) : xy_lt a b = true <-> a.1 < b.1 \/ (a.1 = b.1 /\ a.2 < b.2).
Proof. unfold xy_lt. rewrite orb_true_iff, andb_true_iff, !Z.ltb_lt, Z.eqb_eq. done. Qed.
Lemma pte_lt_spec (a b : pte) : pte_lt a b = true <->
  a.1.1 < b.1.1 \/ (a.1.1 = b.1.1 /\ (a.1.2 < b.1.2 \/ (a.1.2 = b.1.2 /\ a.2 < b.2))).
Proof.
  unfold pte_lt. rewrite orb_true_iff, andb_true_iff, Z.ltb_lt, xy_lt_spec. unfold xy_same.
  rewrite andb_true_iff, !Z.eqb_eq. lia.
Qed.
Lemma multipoint_eq_perm a b : multipoint_eq a b = true <-> a ≡ₚ b.
Proof.
  apply sorted_same_perm.
  - apply xy_same_eq.
  - intros x y z. rewrite <-!not_true_iff_false, !xy_lt_spec. lia.
  - intros x y. rewrite <-not_true_iff_false, !xy_lt_spec. lia.
  - intros [x1 x2] [y1 y2]. rewrite <-!not_true_iff_false, !xy_lt_spec. cbn. intros. f_equal; lia.
Qed.
Lemma perimeter_eq_perm a b : perimeter_eq a b = true <-> a ≡ₚ b.
Proof.
  apply sorted_same_perm.
  - apply pte_same_eq.
  - intros x y z. rewrite <-!not_true_iff_false, !pte_lt_spec. lia.
  - intros x y. rewrite <-not_true_iff_false, !pte_lt_spec. lia.
  - intros [[x1 x2] x3] [[y1 y2] y3]. rewrite <-!not_true_iff_false, !pte_lt_spec. cbn. intros. repeat f_equal; lia.
Qed.

(** The members at one elevation. *)
Definition at_level (e : Q) (l : list item) : list item := filter (fun x => Qeq_bool (it_ele x) e = true) l.
Lemma items_eq_levels l k : sorted_same item_lt item_eq l k = true <->
  forall e, Forall2 (fun x y => item_eq x y = true) (at_level e l) (at_level e k).
Proof.
  apply (sorted_same_levels it_ele).
  - intros a b. apply Qlt_b_iff.
  - intros a b. unfold item_eq. rewrite !andb_true_iff, Qeq_bool_iff. tauto.
Qed.

Lemma eq_key_same p q : eq_key p = eq_key q <-> same_coord (Some p) (Some q).
Proof.
  unfold same_coord, blank, eq_key. destruct (Qeq_bool p 0) eqn:Ep, (Qeq_bool q 0) eqn:Eq;
    rewrite <-?not_true_iff_false, ?Qeq_bool_iff in *.
  - split; [intros _; left; split; by intros ? [= <-]|done].
  - split; [done|]. intros [[_ H]|(p' & q' & [= <-] & [= <-] & H & _)]; [by destruct Eq; apply H|done].
  - split; [done|]. intros [[H _]|(p' & q' & [= <-] & [= <-] & _ & H & _)]; [by destruct Ep; apply H|done].
  - split; [intros [= E]; right; exists p, q; naive_solver|].
    intros [[H _]|(p' & q' & [= <-] & [= <-] & _ & _ & ->)]; [by destruct Ep; apply H|done].
Qed.
Lemma coord_key_same c d : coord_key c = coord_key d <-> same_coord c d.
Proof.
  destruct c as [p|], d as [q|]; cbn.
  - apply eq_key_same.
  - unfold same_coord, blank, eq_key. destruct (Qeq_bool p 0) eqn:Ep; rewrite <-?not_true_iff_false, ?Qeq_bool_iff in *.
    + split; [intros _; left; split; [by intros ? [= <-]|done]|done].
    + split; [done|]. intros [[H _]|(p' & q' & _ & [=] & _)]. by destruct Ep; apply H.
  - unfold same_coord, blank, eq_key. destruct (Qeq_bool q 0) eqn:Ep; rewrite <-?not_true_iff_false, ?Qeq_bool_iff in *.
    + split; [intros _; left; split; [done|by intros ? [= <-]]|done].
    + split; [done|]. intros [[_ H]|(p' & q' & [=] & _)]. by destruct Ep; apply H.
  - split; [|done]. intros _. left. by split.
Qed.
Lemma loc_eq_spec a b : loc_eq a b = true <-> same_place a b.
Proof.
  unfold loc_eq, coord_eq, same_place. rewrite !andb_true_iff, !bool_decide_eq_true, !coord_key_same, Qeq_bool_iff. tauto.
Qed.
Lemma item_eq_spec a b : item_eq a b = true <-> same_item a b.
Proof.
  unfold item_eq, same_item. rewrite !andb_true_iff, !bool_decide_eq_true, !eq_key_same, Qeq_bool_iff. tauto.
Qed.
Lemma picks_unique {A} (P : A -> Prop) l k k' : picks P l k -> picks P l k' -> k = k'.
Proof.
  intros H. revert k'. induction H as [|x l k Hx _ IH|x l k Hx _ IH]; intros k' H'; inversion H'; subst; try done.
  - f_equal. by apply IH.
  - by apply IH.
Qed.
Lemma levels_picks {A} (key : A -> Q) (same : A -> A -> Prop) l k :
  level_by_level key same l k <->
  forall e, Forall2 same (filter (fun x => Qeq_bool (key x) e = true) l) (filter (fun x => Qeq_bool (key x) e = true) k).
Proof.
  assert (forall e r, picks (fun x => (key x == e)%Q) r (filter (fun x => Qeq_bool (key x) e = true) r)) as H.
  { intros e r. eapply picks_ext; [|apply picks_filter]. intros x _. apply Qeq_bool_iff. }
  split.
  - intros Hl e. by eapply Hl.
  - intros Hf e l' k' Hl Hk. rewrite (picks_unique _ _ _ _ Hl (H e l)), (picks_unique _ _ _ _ Hk (H e k)). apply Hf.
Qed.
Lemma sorted_items l k : sorted_same item_lt item_eq l k = true <-> level_by_level it_ele same_item l k.
Proof.
  rewrite items_eq_levels, levels_picks. unfold at_level.
  split; intros H e; (eapply Forall2_impl; [apply H|]); intros x y; apply item_eq_spec.
Qed.
Lemma inject_eq a b : (inject_Z a == inject_Z b)%Q <-> a = b.
Proof. unfold Qeq. cbn. lia. Qed.
Lemma gridpoints_levels l k : gridpoints_eq l k = true <-> level_by_level (fun p => inject_Z p.2) eq l k.
Proof.
  unfold gridpoints_eq. rewrite (sorted_same_levels (fun p : pte => inject_Z p.2)), levels_picks.
  - split; intros H e; (eapply Forall2_impl; [apply H|]); intros x y; apply pte_same_eq.
  - intros a b. unfold gp_lt. rewrite Z.ltb_lt, <-Zlt_Qlt. done.
  - intros a b E. apply pte_same_eq in E as ->. reflexivity.
Qed.
Lemma base_gridpoints_levels l k : base_gridpoints_eq l k = true <-> level_by_level (fun p => inject_Z (p.1 + p.2)) eq l k.
Proof.
  unfold base_gridpoints_eq. rewrite (sorted_same_levels (fun p : xy => inject_Z (p.1 + p.2))), levels_picks.
  - split; intros H e; (eapply Forall2_impl; [apply H|]); intros x y; apply xy_same_eq.
  - intros a b. unfold bgp_lt. rewrite Z.ltb_lt, <-Zlt_Qlt. done.
  - intros a b E. apply xy_same_eq in E as ->. reflexivity.
Qed.
Lemma domain_eq_spec s1 sa1 p1 s2 sa2 p2 : domain_eq s1 sa1 p1 s2 sa2 p2 = true <->
  same_item s1 s2 /\ level_by_level it_ele same_item sa1 sa2 /\ p1 ≡ₚ p2.
Proof.
  unfold domain_eq. rewrite !andb_true_iff, item_eq_spec, sorted_items.
  change (sorted_same pte_lt pte_same p1 p2) with (perimeter_eq p1 p2). rewrite perimeter_eq_perm. tauto.
Qed.

(** ** Replacing a member *)

Lemma py_set_in {A} (l : list A) i x : - Z.of_nat (length l) <= i < Z.of_nat (length l) ->
  exists l', py_set i x l = Ok l' /\ put_in l i x l'.
Proof.
  intros H. unfold py_set, put_in. set (n := Z.of_nat (length l)) in *.
  assert (exists k : nat, Z.of_nat k = i mod n /\ (k < length l)%nat /\
    ((0 <= i /\ k = Z.to_nat i) \/ (i < 0 /\ k = Z.to_nat (i + n)))) as (k & Hk & Hlt & Hc).
  { destruct (Z.le_gt_cases 0 i).
    - exists (Z.to_nat i). rewrite Z.mod_small by lia. split; [lia|]. split; [lia|]. by left.
    - exists (Z.to_nat (i + n)). rewrite <-(Z.mod_add i 1 n) by lia. rewrite Z.mod_small by lia. split; [lia|]. split; [lia|]. by right. }
  exists (<[k := x]> l). split.
  - destruct Hc as [[Hi ->]|[Hi ->]].
    + by replace ((0 <=? i) && (i <? n)) with true by lia.
    + replace ((0 <=? i) && (i <? n)) with false by lia. by replace ((- n <=? i) && (i <? 0)) with true by lia.
  - split; [by rewrite insert_length|]. intros j. rewrite <-Hk. case_decide as Hd.
    + assert (k = j) as -> by lia. by rewrite list_lookup_insert.
    + rewrite list_lookup_insert_ne; [done|lia].
Qed.
Lemma py_set_out {A} (l : list A) i x : ~ (- Z.of_nat (length l) <= i < Z.of_nat (length l)) -> py_set i x l = Err IndexError.
Proof.
  intros H. unfold py_set. set (n := Z.of_nat (length l)) in *.
  replace ((0 <=? i) && (i <? n)) with false by lia. by replace ((- n <=? i) && (i <? 0)) with false by lia.
Qed.
Lemma c_setitem_spec i x c :
  let n := Z.of_nat (length (c_points c)) in
  (accepts (c_kind c) (it_cls x) -> - n <= i < n -> exists c', c_setitem i x c = Ok c' /\ c_kind c' = c_kind c /\
     put_in (c_points c) i x (c_points c') /\ forall j, by_id j c' = by_id j c) /\
  (accepts (c_kind c) (it_cls x) -> ~ (- n <= i < n) -> c_setitem i x c = Err IndexError) /\
  (~ accepts (c_kind c) (it_cls x) -> c_setitem i x c = Err TypeError).
Proof.
  unfold c_setitem. pose proof (may_add_iff (c_kind c) (it_cls x)) as Hm. split; [|split].
  - intros Ha Hi. apply Hm in Ha. rewrite Ha. destruct (py_set_in (c_points c) i x Hi) as (l' & -> & Hp).
    eexists. split; [reflexivity|]. done.
  - intros Ha Hi. apply Hm in Ha. by rewrite Ha, (py_set_out _ _ _ Hi).
  - intros Ha. destruct (may_add _ _); [|done]. by destruct Ha; apply Hm.
Qed.
