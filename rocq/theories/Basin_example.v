(** Examples of graphs for basin saddle detection. *)
From Verif Require Import Base_model Graph_model Basin_model Graph_spec Basin_spec Graph_example Example_maps Basin_proof.
Local Open Scope Z_scope.

(** The graph with the given links (summit, saddle), elevations of saddles,
    overrides and elevations of summits. *)
Definition mk_graph (links : list (nat * nat)) (ss : list Z) (over : list (option bool)) (us : list Z) : world :=
  let ls := map (fun p => Link p.1 p.2 false) links in
  let idx i f := filter (fun k => (f <$> ls !! k) = Some i) (seq 0 (length ls)) in
  World (imap (fun i e => Saddle (at_ KSaddle (Z.of_nat i, 3) e) (idx i ln_saddle) None [] false false []
                            (default None (over !! i))) ss)
        (imap (fun i e => Summit (at_ KSummit (Z.of_nat i, 5) e) (idx i ln_summit) None) us) ls.

(** A computable test of [basin_graph]. *)
Definition open_b (w : world) (n : node) : bool := negb (dead w n).
Definition graph_check (m : datamap) (w : world) (saddles : list nat) : bool :=
  forallb (fun i =>
    dead w (Sad i) ||
    (bool_decide (i ∈ saddles) && (length (summits_of w i) <=? 2)%nat &&
     match w_saddles w !! i with
     | Some s => forallb (fun k => match w_links w !! k with
         | Some l => (ln_saddle l =? i)%nat && match w_summits w !! ln_summit l with
             | Some u => ft_edge (su_feat u) || bool_decide (k ∈ su_links u) | None => true end
         | None => false end) (sa_links s)
     | None => true end &&
     forallb (fun a => dead w (Sum a) || (ele_at w (Sad i) <? ele_at w (Sum a))) (summits_of w i)))
    (seq 0 (length (w_saddles w))) &&
  forallb (fun a =>
    dead w (Sum a) ||
    match w_summits w !! a with
    | Some u => bool_decide (NoDup (su_links u)) && forallb (fun k => match w_links w !! k with
         | Some l => (ln_summit l =? a)%nat && match w_saddles w !! ln_saddle l with
             | Some s => disqualified s || ft_edge (sa_feat s) || bool_decide (k ∈ sa_links s) | None => true end
         | None => false end) (su_links u)
    | None => true end &&
    forallb (fun b => negb (summit_same m w a b) || (a =? b)%nat) (seq 0 (length (w_summits w))))
    (seq 0 (length (w_summits w))).

Lemma graph_check_sound m w saddles : (forall a b, summit_same m w a b = true -> a = b) ->
  graph_check m w saddles = true -> basin_graph m w saddles.
Proof.
  intros Hap H. unfold graph_check in H. apply andb_true_iff in H as [H1 H2].
  rewrite forallb_forall in H1, H2.
  assert (forall i, open_ w (Sad i) -> In i (seq 0 (length (w_saddles w))) /\ dead w (Sad i) = false) as Hs.
  { intros i Hi. split; [|by apply open_dead]. destruct Hi as (s & Hs & _). apply in_seq. apply lookup_lt_Some in Hs. lia. }
  assert (forall a, open_ w (Sum a) -> In a (seq 0 (length (w_summits w))) /\ dead w (Sum a) = false) as Hu.
  { intros i Hi. split; [|by apply open_dead]. destruct Hi as (s & Hs' & _). apply in_seq. apply lookup_lt_Some in Hs'. lia. }
  split.
  - intros i Hi _. destruct (Hs i Hi) as [Hin Hd]. specialize (H1 i Hin). rewrite Hd in H1. cbn [orb] in H1.
    rewrite !andb_true_iff in H1. destruct H1 as [[[H1 _] _] _]. by apply bool_decide_eq_true in H1.
  - intros i Hi. destruct (Hs i Hi) as [Hin Hd]. specialize (H1 i Hin). rewrite Hd in H1. cbn [orb] in H1.
    rewrite !andb_true_iff in H1. destruct H1 as [[[_ H1] _] _]. by apply Nat.leb_le.
  - intros i s k Hi Es Hk. destruct (Hs i Hi) as [Hin Hd]. specialize (H1 i Hin). rewrite Hd, Es in H1. cbn [orb] in H1.
    rewrite !andb_true_iff in H1. destruct H1 as [[_ H1] _]. rewrite forallb_forall in H1. specialize (H1 k).
    destruct (w_links w !! k) as [l|]; [|by apply elem_of_list_In in Hk; specialize (H1 Hk)].
    exists l. apply elem_of_list_In in Hk. specialize (H1 Hk). apply andb_true_iff in H1 as [H3 H4].
    split; [done|]. split; [by apply Nat.eqb_eq|]. intros u Eu He. rewrite Eu, He in H4. by apply bool_decide_eq_true in H4.
  - intros a u k Ha Eu Hk. destruct (Hu a Ha) as [Hin Hd]. specialize (H2 a Hin). rewrite Hd, Eu in H2. cbn [orb] in H2.
    rewrite !andb_true_iff in H2. destruct H2 as [[_ H2] _]. rewrite forallb_forall in H2. specialize (H2 k).
    destruct (w_links w !! k) as [l|]; [|by apply elem_of_list_In in Hk; specialize (H2 Hk)].
    exists l. apply elem_of_list_In in Hk. specialize (H2 Hk). apply andb_true_iff in H2 as [H3 H4].
    split; [done|]. split; [by apply Nat.eqb_eq|]. intros s Es Hq He. rewrite Es, Hq, He in H4. by apply bool_decide_eq_true in H4.
  - intros a u Ha Eu. destruct (Hu a Ha) as [Hin Hd]. specialize (H2 a Hin). rewrite Hd, Eu in H2. cbn [orb] in H2.
    rewrite !andb_true_iff in H2. destruct H2 as [[H2 _] _]. by apply bool_decide_eq_true in H2.
  - intros i a (Hi & Ha & He). destruct (Hs i Hi) as [Hin Hd]. specialize (H1 i Hin). rewrite Hd in H1. cbn [orb] in H1.
    rewrite !andb_true_iff in H1. destruct H1 as [_ H1]. rewrite forallb_forall in H1. apply elem_of_list_In in He.
    specialize (H1 a He). apply open_dead in Ha. rewrite Ha in H1. by apply Z.ltb_lt.
  - exact Hap.
Qed.
Lemma apart_check m w : forallb (fun a => forallb (fun b => negb (summit_same m w a b) || (a =? b)%nat)
    (seq 0 (length (w_summits w)))) (seq 0 (length (w_summits w))) = true ->
  forall a b, summit_same m w a b = true -> a = b.
Proof.
  rewrite forallb_forall. intros H a b E. pose proof E as E0. unfold summit_same in E.
  apply orb_true_iff in E as [E|E]; [by apply Nat.eqb_eq|]. unfold summit_spot in E.
  destruct (w_summits w !! a) as [x|] eqn:Ea; [|done]. destruct (w_summits w !! b) as [y|] eqn:Eb; [|done].
  apply lookup_lt_Some in Ea, Eb. specialize (H a ltac:(apply in_seq; lia)). rewrite forallb_forall in H.
  specialize (H b ltac:(apply in_seq; lia)). rewrite E0 in H. by apply Nat.eqb_eq.
Qed.
Lemma kept_none m w : forallb (fun s => bool_decide (sa_over s = None)) (w_saddles w) = true -> no_override w /\ kept_proper m w.
Proof.
  rewrite forallb_forall. intros H. assert (forall i s, w_saddles w !! i = Some s -> sa_over s = None) as H'.
  { intros i s Hs. apply elem_of_list_lookup_2, elem_of_list_In in Hs. specialize (H s Hs). by apply bool_decide_eq_true in H. }
  split; [intros i s Hs; by rewrite (H' i s Hs)|]. intros i s Hs. by rewrite (H' i s Hs).
Qed.

(** Two summits joined by three saddles of which two are lowest, a third summit
    behind a saddle, and a saddle with a single summit. *)
Definition g_ring : world :=
  mk_graph [(0,0);(1,0);(0,1);(1,1);(0,2);(1,2);(1,3);(2,3);(2,4);(2,4)]%nat [7;3;3;1;2] [] [10;11;12].
Lemma g_ring_ok : basin_graph ex_map g_ring [0;1;2;3;4]%nat /\ no_override g_ring /\ kept_proper ex_map g_ring.
Proof.
  split.
  - apply graph_check_sound; [apply apart_check; by vm_compute|by vm_compute].
  - apply kept_none. by vm_compute.
Qed.
(** The flags and alternatives after detection. *)
Definition marks (r : res world) : option (list (bool * bool * list nat)) :=
  match r with Ok w => Some (map (fun s => (sa_single s, sa_basin s, sa_alts s)) (w_saddles w)) | Err _ => None end.
Definition final (r : res world) : world := match r with Ok w => w | Err _ => World [] [] [] end.
Definition is_ok (r : res world) : bool := match r with Ok _ => true | Err _ => false end.
Lemma ok_final r : is_ok r = true -> r = Ok (final r).
Proof. by destruct r. Qed.
Lemma ok_exists r : is_ok r = true -> exists w', r = Ok w'.
Proof. destruct r as [w'|]; [by exists w'|done]. Qed.
Lemma saddle_get w i (f : saddle -> bool) : match w_saddles w !! i with Some s => f s | None => false end = true ->
  exists s, w_saddles w !! i = Some s /\ f s = true.
Proof. destruct (w_saddles w !! i) as [s|]; [by exists s|done]. Qed.

(** Two saddles between two summits; the lower one is forced to be kept. *)
Definition g_forced : world := mk_graph [(0,0);(1,0);(0,1);(1,1)]%nat [2;1] [None; Some false] [5;6].
Lemma g_forced_ok : basin_graph ex_map g_forced [0;1]%nat /\ kept_proper ex_map g_forced.
Proof.
  split.
  - apply graph_check_sound; [apply apart_check; by vm_compute|by vm_compute].
  - intros i s Hs Ho Hone. destruct i as [|[|i]]; cbn in Hs; [injection Hs as <-; done| |done].
    assert (summit_same ex_map g_forced 0 1 = true) as H; [|by vm_compute in H].
    apply Hone; vm_compute; [left|right; left].
Qed.
Lemma g_forced_cycle : closed (open_edge g_forced) [Sad 1; Sum 0; Sad 0; Sum 1]%nat.
Proof.
  assert (forall i, (i < 2)%nat -> open_ g_forced (Sad i)) as H1.
  { intros i Hi. apply open_dead. destruct i as [|[|i]]; [done|done|lia]. }
  assert (forall i, (i < 2)%nat -> open_ g_forced (Sum i)) as H2.
  { intros i Hi. apply open_dead. destruct i as [|[|i]]; [done|done|lia]. }
  split; [cbn; lia|]. split.
  - apply (bool_decide_unpack _). by vm_compute.
  - intros k x y Hx Hy. destruct k as [|[|[|[|[|k]]]]]; cbn in Hx, Hy; try done; injection Hx as <-; injection Hy as <-;
      (split; [first [apply H1|apply H2]; lia|]; split; [first [apply H1|apply H2]; lia|]);
      apply neighbors_edge; apply (bool_decide_unpack _); by vm_compute.
Qed.

Lemma g_forced_two j : Sad j ∈ [Sad 1; Sum 0; Sad 0; Sum 1]%nat -> ~ one_summit ex_map g_forced j.
Proof.
  rewrite !elem_of_cons, elem_of_nil. intros H Hone.
  assert (summit_same ex_map g_forced 0 1 = true) as H'; [|by vm_compute in H'].
  assert (j = 0%nat \/ j = 1%nat) as [-> | ->] by naive_solver; apply Hone; vm_compute; set_solver.
Qed.

(** A saddle with three summits: it is lowest on a chain between two of them. *)
Definition g_three : world := mk_graph [(0,0);(1,0);(2,0);(0,1);(1,1)]%nat [1;2] [] [5;6;7].
(** The summits 0 to 3 in a row; the last saddle lists its second summit twice. *)
Definition g_double : world := mk_graph [(0,0);(1,0);(1,1);(2,1);(2,2);(3,2);(3,2)]%nat [9;1;5] [] [20;21;22;23].
(** Three equal saddles between two summits. *)
Definition g_equal : world := mk_graph [(1,0);(0,0);(0,1);(1,1);(1,2);(0,2)]%nat [1;1;1] [] [5;6].

(** Saddles that join only members of [X] with members of [X] do not leave it. *)
Lemma not_joined w ok (X : list nat) a b : (forall i x y, not_disq w i -> x ∈ summits_of w i -> y ∈ summits_of w i -> x ∈ X -> y ∈ X) ->
  a ∈ X -> b ∉ X -> ~ joined w ok a b.
Proof.
  intros H Ha Hb Hj. apply Hb. induction Hj as [|x y z (i & _ & Hi & Hx & Hy) _ IH]; [done|].
  apply IH; [|done]. by apply (H i x y).
Qed.
Lemma not_joined_check w ok (X : list nat) a b :
  forallb (fun i => match w_saddles w !! i with
    | Some s => disqualified s || forallb (fun x => bool_decide (x ∉ X) ||
        forallb (fun y => bool_decide (y ∈ X)) (summits_of w i)) (summits_of w i)
    | None => true end) (seq 0 (length (w_saddles w))) = true ->
  bool_decide (a ∈ X) = true -> bool_decide (b ∈ X) = false -> ~ joined w ok a b.
Proof.
  rewrite forallb_forall. intros H Ha Hb. apply (not_joined _ _ X).
  - intros i x y (s & Hs & Hd) Hx Hy HxX. assert (In i (seq 0 (length (w_saddles w)))) as Hi.
    { apply in_seq. apply lookup_lt_Some in Hs. lia. }
    specialize (H i Hi). rewrite Hs, Hd in H. cbn [orb] in H. rewrite forallb_forall in H.
    apply elem_of_list_In in Hx, Hy. specialize (H x Hx). rewrite bool_decide_false in H by tauto.
    cbn [orb] in H. rewrite forallb_forall in H. specialize (H y Hy). by apply bool_decide_eq_true in H.
  - by apply bool_decide_eq_true in Ha.
  - by apply bool_decide_eq_false in Hb.
Qed.

Lemma g_ring_apart : ~ joined g_ring (fun i => 3 <= ele_at g_ring (Sad i)) 0 2.
Proof.
  intros H. assert (forall a b, joined g_ring (fun i => 3 <= ele_at g_ring (Sad i)) a b -> a <> 2%nat -> b <> 2%nat) as Hi.
  { clear. intros a b. induction 1 as [|x y z (i & Hi & _ & Hx & Hy) _ IH]; [done|]. intros Ha. apply IH.
    assert (forall v, v ∈ summits_of g_ring i -> v <> 2%nat) as Hv; [|by apply Hv].
    destruct i as [|[|[|[|[|i]]]]]; vm_compute in Hi; try (by destruct Hi); intros v Hv; vm_compute in Hv; set_solver. }
  by apply (Hi _ _ H).
Qed.
