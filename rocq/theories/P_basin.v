(** Properties C26-C29: basin saddle detection. *)
From Verif Require Import Base_model Graph_model Basin_model Graph_spec Basin_spec Basin_proof Search_proof
  Basin_facts Detect_proof Graph_example Basin_example.
Local Open Scope Z_scope.

(** C26.  Detection flags as single-summit saddles exactly the given saddles
    that are not disqualified and whose summits are all the same, and it marks
    the links of the saddles that it flags.  Apart from that it changes only the
    basin flag and the alternatives of open saddles that do not become
    disqualified by being single-summit saddles. *)
Theorem C26_marks m fuel w saddles w' : disqualify_basin_saddles m fuel w saddles = Ok w' ->
  exists S B A, marked S B A w w' /\
    (forall i, i ∈ S <-> i ∈ saddles /\ not_disq w i /\ one_summit m w i) /\
    (forall b, b ∈ B \/ b ∈ A -> open_ w (Sad b) /\
       (b ∈ S -> exists s, w_saddles w !! b = Some s /\ sa_over s = Some false)).
Proof. exact (basin_marks m fuel w saddles w'). Qed.
Print Assumptions C26_marks.

(** C26.  Every given saddle without override and with at most one summit is
    disqualified afterwards; if it was not before, so are all its links. *)
Theorem C26_single m fuel w saddles w' i s : disqualify_basin_saddles m fuel w saddles = Ok w' ->
  i ∈ saddles -> w_saddles w !! i = Some s -> sa_over s = None -> one_summit m w i ->
  exists s', w_saddles w' !! i = Some s' /\ disqualified s' = true /\
    (disqualified s = false -> sa_single s' = true /\ sa_basin s' = false /\ sa_alts s' = sa_alts s /\
       forall k l, k ∈ sa_links s -> w_links w' !! k = Some l -> ln_disq l = true).
Proof. exact (single_disqualified m fuel w saddles w' i s). Qed.
Print Assumptions C26_single.

Example C26_case :
  (exists w', disqualify_basin_saddles ex_map 12 g_ring [0;1;2;3;4]%nat = Ok w') /\
  one_summit ex_map g_ring 4 /\ not_disq g_ring 4 /\
  marks (disqualify_basin_saddles ex_map 12 g_ring [0;1;2;3;4]%nat) =
    Some [(false, false, []); (false, true, []); (false, true, []); (false, false, []); (true, false, [])].
Proof.
  split; [apply ok_exists; by vm_compute|]. split; [|split; [by eexists|by vm_compute]].
  intros a b Ha Hb. vm_compute in Ha, Hb. assert (a = 2%nat /\ b = 2%nat) as [-> ->] by set_solver. by vm_compute.
Qed.

(** C27.  When no saddle is forced to be kept, the outer loop ends after at most
    one round for every given saddle and every saddle; the only failure is that
    of a summit without the methods of saddles. *)
Theorem C27_terminates m w saddles fuel : no_override w ->
  (length saddles + length (w_saddles w) < fuel)%nat ->
  match disqualify_basin_saddles m fuel w saddles with Ok _ => True | Err e => e = AttributeError end.
Proof. exact (basin_terminates m w saddles fuel). Qed.
Print Assumptions C27_terminates.

(** C27.  In a graph as walks make it that failure does not happen. *)
Theorem C27_completes m w saddles fuel : basin_graph m w saddles -> no_override w ->
  (length saddles + length (w_saddles w) < fuel)%nat ->
  exists w', disqualify_basin_saddles m fuel w saddles = Ok w'.
Proof. exact (detect_completes m w saddles fuel). Qed.
Print Assumptions C27_completes.

Example C27_case : no_override g_ring /\ basin_graph ex_map g_ring [0;1;2;3;4]%nat /\
  (length [0;1;2;3;4] + length (w_saddles g_ring) < 11)%nat.
Proof. split; [apply g_ring_ok|]. split; [apply g_ring_ok|vm_compute; lia]. Qed.

(** C27.  The failure can happen: a summit below its saddles. *)
Theorem C27_summit_lowest : exists w, no_override w /\ forall fuel, (5 <= fuel)%nat ->
  disqualify_basin_saddles ex_map fuel w [0;1]%nat = Err AttributeError.
Proof.
  exists (mk_graph [(0,0);(1,0);(0,1);(1,1)]%nat [9;8] [] [5;6]).
  split; [apply (kept_none ex_map); by vm_compute|].
  intros fuel H. do 5 (destruct fuel as [|fuel]; [lia|]). by vm_compute.
Qed.
Print Assumptions C27_summit_lowest.

(** C27.  A saddle that is forced to be kept and is strictly lowest on a closed
    chain keeps detection going for ever: no number of rounds is enough. *)
Theorem C27_forever m w saddles i s c : basin_graph m w saddles -> kept_proper m w ->
  w_saddles w !! i = Some s -> sa_over s = Some false ->
  closed (open_edge w) c -> (forall j, Sad j ∈ c -> ~ one_summit m w j) -> Sad i ∈ c ->
  (forall j, Sad j ∈ c -> j <> i -> ele_at w (Sad i) < ele_at w (Sad j)) ->
  forall fuel, disqualify_basin_saddles m fuel w saddles = Err OutOfFuel.
Proof. intros G K Hs Ho Hc H1 Hi Hl fuel. by eapply (detect_forever m w saddles G K fuel i s c). Qed.
Print Assumptions C27_forever.

Example C27_forced : basin_graph ex_map g_forced [0;1]%nat /\ kept_proper ex_map g_forced /\
  (exists s, w_saddles g_forced !! 1%nat = Some s /\ sa_over s = Some false) /\
  closed (open_edge g_forced) [Sad 1; Sum 0; Sad 0; Sum 1]%nat /\
  (forall j, Sad j ∈ [Sad 1; Sum 0; Sad 0; Sum 1]%nat -> ~ one_summit ex_map g_forced j) /\
  ele_at g_forced (Sad 1%nat) < ele_at g_forced (Sad 0%nat).
Proof.
  split; [apply g_forced_ok|]. split; [apply g_forced_ok|]. split; [by eexists|].
  split; [exact g_forced_cycle|]. split; [exact g_forced_two|by vm_compute].
Qed.

(** C28.  In a graph as walks make it, a saddle that gets the basin flag is of
    lowest elevation on a closed chain of distinct saddles and summits that were
    not disqualified and not on the border before, single-summit saddles not
    counted.  The alternatives that a saddle gets are the other lowest saddles
    of such a chain. *)
Theorem C28_cycle_minimum m w saddles fuel w' : basin_graph m w saddles -> kept_proper m w ->
  disqualify_basin_saddles m fuel w saddles = Ok w' ->
  forall b s s', w_saddles w !! b = Some s -> w_saddles w' !! b = Some s' ->
    (sa_basin s' = true -> sa_basin s = true \/
       blamed (fun c => closed (open_edge w) c /\ forall j, Sad j ∈ c -> ~ one_summit m w j) w b) /\
    (sa_alts s' = sa_alts s \/ alternatives m (closed (open_edge w)) w w' b).
Proof. exact (detect_minimum m w saddles fuel w'). Qed.
Print Assumptions C28_cycle_minimum.

(** C28.  When a list of equally low saddles at different places is labelled,
    the first one gets the basin flag and each of them gets all the others as
    alternatives. *)
Theorem C28_ties m w i ids w' : ids <> [] -> NoDup (i :: ids) ->
  (forall j, j ∈ i :: ids -> is_Some (w_saddles w !! j)) ->
  (forall x y, x ∈ i :: ids -> y ∈ i :: ids -> saddle_same m w x y = true -> x = y) ->
  disqualify_and_label m w (map Sad (i :: ids)) = Ok w' ->
  marked [] [i] (i :: ids) w w' /\
  forall a s, a ∈ i :: ids -> w_saddles w' !! a = Some s ->
    NoDup (sa_alts s) /\ forall b, b ∈ sa_alts s <-> b ∈ i :: ids /\ b <> a.
Proof. exact (label_ties m w i ids w'). Qed.
Print Assumptions C28_ties.

Example C28_case : basin_graph ex_map g_ring [0;1;2;3;4]%nat /\ kept_proper ex_map g_ring /\
  (exists w', disqualify_basin_saddles ex_map 12 g_ring [0;1;2;3;4]%nat = Ok w') /\
  (exists w', disqualify_and_label ex_map g_ring (map Sad [1;2]%nat) = Ok w') /\
  saddle_same ex_map g_ring 1%nat 2%nat = false.
Proof.
  split; [apply g_ring_ok|]. split; [apply g_ring_ok|]. split; [apply ok_exists; by vm_compute|].
  split; [apply ok_exists; by vm_compute|by vm_compute].
Qed.

(** C28.  Later cycles overwrite alternatives, so at the end the relation need
    not be mutual. *)
Theorem C28_mutual_refuted : exists w w', basin_graph ex_map w [0;1;2]%nat /\ no_override w /\
  disqualify_basin_saddles ex_map 9 w [0;1;2]%nat = Ok w' /\
  exists a b sa sb, w_saddles w' !! a = Some sa /\ w_saddles w' !! b = Some sb /\
    b ∈ sa_alts sa /\ a ∉ sa_alts sb.
Proof.
  exists g_equal, (final (disqualify_basin_saddles ex_map 9 g_equal [0;1;2]%nat)).
  split; [|split; [|split; [apply ok_final; by vm_compute|]]].
  - apply graph_check_sound; [apply apart_check; by vm_compute|by vm_compute].
  - apply (kept_none ex_map). by vm_compute.
  - exists 1%nat, 2%nat.
    destruct (saddle_get (final (disqualify_basin_saddles ex_map 9 g_equal [0;1;2]%nat)) 1
      (fun s => bool_decide (2%nat ∈ sa_alts s))) as (sa & Ha & H1%bool_decide_eq_true); [by vm_compute|].
    destruct (saddle_get (final (disqualify_basin_saddles ex_map 9 g_equal [0;1;2]%nat)) 2
      (fun s => bool_decide (1%nat ∉ sa_alts s))) as (sb & Hb & H2%bool_decide_eq_true); [by vm_compute|].
    exists sa, sb. exact (conj Ha (conj Hb (conj H1 H2))).
Qed.
Print Assumptions C28_mutual_refuted.

(** C28.  When a saddle lists a summit twice, a saddle on no closed chain can be
    flagged: here it was the only connection between summits 1 and 2. *)
Theorem C28_double_refuted : exists w w', no_override w /\
  disqualify_basin_saddles ex_map 9 w [0;1;2]%nat = Ok w' /\
  joined w (fun _ => True) 1 2 /\ ~ joined w' (fun _ => True) 1 2 /\
  (exists s, w_saddles w' !! 1%nat = Some s /\ sa_basin s = true).
Proof.
  exists g_double, (final (disqualify_basin_saddles ex_map 9 g_double [0;1;2]%nat)).
  split; [|split; [apply ok_final; by vm_compute|]].
  - apply (kept_none ex_map). by vm_compute.
  - split; [|split; [|apply saddle_get; by vm_compute]].
    + apply rtc_once. exists 1%nat. split; [done|]. split; [by eexists|]. vm_compute. set_solver.
    + by apply (not_joined_check _ _ [0;1]%nat); vm_compute.
Qed.
Print Assumptions C28_double_refuted.

(** C29.  After detection the saddles that are left, the border aside, form no
    closed chain with the summits; equal elevations are allowed. *)
Theorem C29_forest m w saddles fuel w' : basin_graph m w saddles -> kept_proper m w ->
  disqualify_basin_saddles m fuel w saddles = Ok w' -> forall c, ~ closed (open_edge w') c.
Proof. intros G K. exact (detect_forest m w saddles G K fuel w'). Qed.
Print Assumptions C29_forest.

(** C29.  Summits are joined by saddles of elevation at least [t] afterwards if
    and only if they were before, for every [t]: connections and the highest
    lowest point between two summits are kept. *)
Theorem C29_joined m w saddles fuel w' : basin_graph m w saddles -> kept_proper m w ->
  disqualify_basin_saddles m fuel w saddles = Ok w' -> forall a b,
  (joined w (fun _ => True) a b <-> joined w' (fun _ => True) a b) /\
  forall t, joined w (fun i => t <= ele_at w (Sad i)) a b <-> joined w' (fun i => t <= ele_at w' (Sad i)) a b.
Proof. exact (detect_key m w saddles fuel w'). Qed.
Print Assumptions C29_joined.

Example C29_case : basin_graph ex_map g_ring [0;1;2;3;4]%nat /\ kept_proper ex_map g_ring /\
  (exists w', disqualify_basin_saddles ex_map 12 g_ring [0;1;2;3;4]%nat = Ok w') /\
  joined g_ring (fun i => 3 <= ele_at g_ring (Sad i)) 0 1 /\ ~ joined g_ring (fun i => 3 <= ele_at g_ring (Sad i)) 0 2.
Proof.
  split; [apply g_ring_ok|]. split; [apply g_ring_ok|]. split; [apply ok_exists; by vm_compute|]. split.
  - apply rtc_once. exists 0%nat. split; [by vm_compute|]. split; [by eexists|]. vm_compute. set_solver.
  - exact g_ring_apart.
Qed.

(** C29.  A saddle between three summits that is lowest on a closed chain through
    two of them is removed and the third is cut off. *)
Theorem C29_three_refuted : exists w w', no_override w /\
  disqualify_basin_saddles ex_map 9 w [0;1]%nat = Ok w' /\
  joined w (fun _ => True) 0 2 /\ ~ joined w' (fun _ => True) 0 2.
Proof.
  exists g_three, (final (disqualify_basin_saddles ex_map 9 g_three [0;1]%nat)).
  split; [|split; [apply ok_final; by vm_compute|]].
  - apply (kept_none ex_map). by vm_compute.
  - split.
    + apply rtc_once. exists 0%nat. split; [done|]. split; [by eexists|]. vm_compute. set_solver.
    + by apply (not_joined_check _ _ [0;1]%nat); vm_compute.
Qed.
Print Assumptions C29_three_refuted.
