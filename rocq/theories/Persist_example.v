(** Examples for saving and loading. *)
From Verif Require Import Persist_model Persist_spec Persist_load_proof.
Local Open Scope Z_scope.
Local Open Scope string_scope.

Definition here (x y : Z) (e : Z) : spot := Spot (inject_Z x / inject_Z 10) (inject_Z y / inject_Z 10) e.
Definition summit_of (a : spot) (links : list string) : psummit := PSummit a false [] None links None.
Definition saddle_of (a : spot) (links : list string) : psaddle := PSaddle a false [] None [] links None [] false false [] None.

(** A flat area with a perimeter in which one place occurs twice. *)
Definition flat : multi :=
  Multi [((4, 5), None); ((4, 6), Some 7)] 7
    (Some (Bounds (Perimeter [(3, 5, 8); (5, 6, 2); (3, 6, 9); (5, 6, 3)] None) true (Some [(3, 6, 9)]))).

(** Two summits, a saddle with a flat area and a child, and a runoff. *)
Definition p_map : pmap := PMap
  [("a", PSummit (here 431 (-721) 500) false [] None ["k1"; "k3"] (Some (PDomain "a" ["s"] [(1, 2, 3)]))); ("b", summit_of (here 432 (-722) 600) ["k2"])]
  [("s", PSaddle (here 433 (-723) 300) false [] (Some flat) [[(1, 1, 9)]; [(2, 2, 9)]] ["k1"; "k2"] None ["t"] false false [] None);
   ("t", PSaddle (here 434 (-724) 300) true [(0, 1, 2)] None [] [] (Some "s") [] true true ["s"] (Some true))]
  [("r", PSaddle (here 435 (-725) 200) true [] None [] ["k3"] (Some "r") ["r"] false false ["r"] None)]
  [("k1", PLink "a" "s" false); ("k2", PLink "b" "s" true); ("k3", PLink "a" "r" false)]
  [PDomain "a" ["s"] [(1, 2, 3)]].

(** A runoff that is listed twice, as linked runoffs of a map are. *)
Definition p_copies : pmap :=
  let r := saddle_of (here 435 (-725) 200) ["k1"] in
  PMap [("a", summit_of (here 431 (-721) 500) ["k1"])] [] [("r", r); ("r", r)] [("k1", PLink "a" "r" false)] [].

Global Instance Q_eq : EqDecision Q. Proof. solve_decision. Defined.
Global Instance spot_eq : EqDecision spot. Proof. solve_decision. Defined.
Global Instance per_eq : EqDecision perimeter. Proof. solve_decision. Defined.
Global Instance bounds_eq : EqDecision bounds. Proof. solve_decision. Defined.
Global Instance multi_eq : EqDecision multi. Proof. solve_decision. Defined.
Global Instance psaddle_eq : EqDecision psaddle. Proof. solve_decision. Defined.
Definition check_ids (p : pmap) : bool :=
  bool_decide (NoDup (map fst (pm_summits p))) && bool_decide (NoDup (map fst (pm_saddles p))) &&
  bool_decide (NoDup (map fst (pm_linkers p))) && forallb (fun e => bool_decide (pa_parent e.2 <> Some "")) (pm_saddles p) &&
  bool_decide ("" ∉ map fst (pm_linkers p)) && forallb (fun i => bool_decide (i ∉ map fst (pm_runoffs p))) (map fst (pm_saddles p)) &&
  forallb (fun e => forallb (fun e' => bool_decide (e.1 = e'.1 -> e.2 = e'.2)) (pm_runoffs p)) (pm_runoffs p).
Lemma check_ids_ok p : check_ids p = true -> good_ids p.
Proof.
  unfold check_ids. rewrite !andb_true_iff, !bool_decide_eq_true, !forallb_forall. intros ((((((H1 & H2) & H3) & H4) & H5) & H6) & H7).
  split; try done.
  - intros i Hi. apply elem_of_list_In in Hi. specialize (H6 _ Hi). by rewrite bool_decide_eq_true in H6.
  - intros i s t Hs%elem_of_list_In Ht%elem_of_list_In. specialize (H7 _ Hs). rewrite forallb_forall in H7. specialize (H7 _ Ht).
    rewrite bool_decide_eq_true in H7. f_equal. by apply H7.
  - intros i s Hin. apply elem_of_list_In in Hin. specialize (H4 _ Hin). by rewrite bool_decide_eq_true in H4.
Qed.
(** Saving and loading. *)
Definition trip (p : pmap) : res pmap := let* d := map_to_dict "f" p in map_from_dict "new" "f" d.
Lemma trip_ok p p' : trip p = Ok p' -> exists d, map_to_dict "f" p = Ok d /\ map_from_dict "new" "f" d = Ok p'.
Proof. unfold trip. destruct (map_to_dict "f" p) as [d|]; [|done]. intros H. by exists d. Qed.

(** Two links between the same summit and saddle, as a saddle with one summit
    only has. *)
Definition p_double : pmap := PMap [("a", summit_of (here 431 (-721) 500) ["k1"; "k2"])] [("s", saddle_of (here 433 (-723) 300) ["k1"; "k2"])] []
  [("k1", PLink "a" "s" true); ("k2", PLink "a" "s" true)] [].
(** Two saddles at one position. *)
Definition p_colocated : pmap := PMap [("a", summit_of (here 431 (-721) 500) ["k1"; "k2"])]
  [("s", saddle_of (here 433 (-723) 300) ["k1"]); ("t", saddle_of (here 433 (-723) 300) ["k2"])] []
  [("k1", PLink "a" "s" false); ("k2", PLink "a" "t" false)] [].
(** A saddle kept by hand. *)
Definition p_override : pmap := PMap [] [("s", PSaddle (here 433 (-723) 300) false [] None [] [] None [] false true [] (Some false))] [] [] [].
(** A saddle whose child is in no container. *)
Definition p_orphan : pmap := PMap [] [("s", PSaddle (here 433 (-723) 300) false [] None [] [] None ["lost"] false false [] None)] [] [] [].
(** A case is checked by one computation. *)
Definition check (p : pmap) (Q : pmap -> bool) : bool := check_ids p && match trip p with Ok p' => Q p' | Err _ => false end.
Lemma trip_case p (Q : pmap -> bool) : check p Q = true ->
  good_ids p /\ exists d p', map_to_dict "f" p = Ok d /\ map_from_dict "new" "f" d = Ok p' /\ Q p' = true.
Proof.
  unfold check. intros [H1 H2]%andb_true_iff. split; [exact (check_ids_ok p H1)|]. destruct (trip p) as [p'|] eqn:E; [|discriminate H2].
  destruct (trip_ok _ _ E) as (d & E1 & E2). exists d, p'. split; [exact E1|]. split; [exact E2|exact H2].
Qed.
Definition links_are (p : pmap) (su sa : list (list string)) : bool :=
  bool_decide (map (fun e => pu_links e.2) (pm_summits p) = su) && bool_decide (map (fun e => pa_links e.2) (pm_saddles p) = sa).
Definition test_map (p : pmap) : bool :=
  links_are p [["k1"; "k3"]; ["k2"]] [["k1"; "k2"]; []] &&
  (bool_decide (map fst (pm_saddles p) = ["s"; "t"]) && (bool_decide (map (fun e => pa_over e.2) (pm_saddles p) = [None; Some true]) &&
  (bool_decide (map (fun e => pa_children e.2) (pm_saddles p) = [["t"]; []]) &&
  bool_decide (map (fun e => (pa_parent e.2, pa_children e.2, pa_alts e.2)) (pm_runoffs p) = [(None, [], [])])))).
Lemma case_map : check p_map test_map = true.
Proof. vm_compute. exact eq_refl. Qed.
Definition test_double (p : pmap) : bool := links_are p [["k1"]] [["k1"]].
Lemma case_double : check p_double test_double = true.
Proof. vm_compute. exact eq_refl. Qed.
Definition test_colocated (p : pmap) : bool := links_are p [["k1"]] [["k1"]; ["k2"]].
Lemma case_colocated : check p_colocated test_colocated = true.
Proof. vm_compute. exact eq_refl. Qed.
Definition test_copies (p : pmap) : bool :=
  bool_decide (map fst (pm_runoffs p) = ["r"; "r"]) && bool_decide (map (fun e => pa_links e.2) (pm_runoffs p) = [[]; ["k1"]]).
Lemma case_copies : check p_copies test_copies = true.
Proof. vm_compute. exact eq_refl. Qed.
Lemma test_copies_iff p : test_copies p = true <->
  map fst (pm_runoffs p) = ["r"; "r"] /\ map (fun e => pa_links e.2) (pm_runoffs p) = [[]; ["k1"]].
Proof. unfold test_copies. by rewrite andb_true_iff, !bool_decide_eq_true. Qed.
Definition test_override (p : pmap) : bool :=
  bool_decide (map (fun e => pa_over e.2) (pm_saddles p) = [None]) && bool_decide (map (fun e => pa_basin e.2) (pm_saddles p) = [true]).
Lemma case_override : check p_override test_override = true.
Proof. vm_compute. exact eq_refl. Qed.
Lemma links_are_iff p su sa : links_are p su sa = true <->
  map (fun e => pu_links e.2) (pm_summits p) = su /\ map (fun e => pa_links e.2) (pm_saddles p) = sa.
Proof. unfold links_are. by rewrite andb_true_iff, !bool_decide_eq_true. Qed.
Lemma test_map_iff p : test_map p = true <->
  (map (fun e => pu_links e.2) (pm_summits p) = [["k1"; "k3"]; ["k2"]] /\ map (fun e => pa_links e.2) (pm_saddles p) = [["k1"; "k2"]; []]) /\
  map fst (pm_saddles p) = ["s"; "t"] /\ map (fun e => pa_over e.2) (pm_saddles p) = [None; Some true] /\
  map (fun e => pa_children e.2) (pm_saddles p) = [["t"]; []] /\
  map (fun e => (pa_parent e.2, pa_children e.2, pa_alts e.2)) (pm_runoffs p) = [(None, [], [])].
Proof. unfold test_map. by rewrite !andb_true_iff, links_are_iff, !bool_decide_eq_true. Qed.
Lemma test_override_iff p : test_override p = true <->
  map (fun e => pa_over e.2) (pm_saddles p) = [None] /\ map (fun e => pa_basin e.2) (pm_saddles p) = [true].
Proof. unfold test_override. by rewrite andb_true_iff, !bool_decide_eq_true. Qed.
Definition fails_with (f g : string) (p : pmap) (e : exn) : bool :=
  check_ids p && match map_to_dict f p with Ok d => match map_from_dict "new" g d with Err e' => bool_decide (e' = e) | Ok _ => false end | Err _ => false end.
Lemma fails_case f g p e : fails_with f g p e = true -> good_ids p /\ exists d, map_to_dict f p = Ok d /\ map_from_dict "new" g d = Err e.
Proof.
  unfold fails_with. intros [H1 H2]%andb_true_iff. split; [exact (check_ids_ok p H1)|]. destruct (map_to_dict f p) as [d|]; [|discriminate H2]. exists d.
  split; [exact eq_refl|]. destruct (map_from_dict "new" g d) as [|e']; [discriminate H2|]. apply bool_decide_eq_true in H2. by rewrite H2.
Qed.
Lemma case_orphan : fails_with "f" "f" p_orphan KeyError = true.
Proof. vm_compute. exact eq_refl. Qed.
Definition seed_hash (seed : nat) (s : string) : Z := Z.of_nat seed.
Lemma case_process : fails_with (md5_of seed_hash 0 "0a" "[1]") (md5_of seed_hash 1 "0a" "[1]") p_double OtherError = true.
Proof. vm_compute. exact eq_refl. Qed.
Lemma double_good : closed p_double /\ can_read p_double.
Proof.
  destruct (trip_case p_double test_double case_double) as (H & d & p' & H1 & H2 & _).
  apply (load_iff p_double "f" "new" d H H1) in H2. tauto.
Qed.

(** Two domains of one summit with the same points in another order. *)
Definition p_merged : pmap := PMap [("a", summit_of (here 431 (-721) 500) [])] [] [] []
  [PDomain "a" [] [(1, 2, 3); (4, 5, 6)]; PDomain "a" [] [(4, 5, 6); (1, 2, 3)]].
(** The domains of the summits after one round and after two. *)
Definition test_merged (p : pmap) : bool :=
  bool_decide (map (fun e => pd_points <$> pu_domain e.2) (pm_summits p) = [Some [(4, 5, 6); (1, 2, 3)]]) &&
  match trip p with
  | Ok p2 => bool_decide (map (fun e => pd_points <$> pu_domain e.2) (pm_summits p2) = [Some [(1, 2, 3); (4, 5, 6)]])
  | Err _ => false
  end.
Lemma case_merged : check p_merged test_merged = true. Proof. vm_compute. reflexivity. Qed.
