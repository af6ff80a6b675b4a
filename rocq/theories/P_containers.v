(** Properties C37-C42: containers, equality of locations and collections,
    pseudo-summits. *)
From Verif Require Import Container_model Container_spec Container_proof Pseudo_model Pseudo_spec Pseudo_proof.
Local Open Scope Z_scope.

(** C37.  After creating a container and any sequence of appends and extends,
    some of which may fail, the container holds the initial objects followed by
    everything that was added.  Looking up an id gives the last of them with
    that id, or a KeyError if there is none; so every member's id is found. *)
Theorem C37_lookup k l c ops : new_container k l = Ok c -> Forall (fun o => is_set o = false) ops ->
  let c' := foldl do_call c ops in
  let all := l ++ concat (map (adds k) ops) in
  c_points c' = all /\
  (forall i x, by_id i c' = Ok x <-> last_with i all x) /\
  (forall i, by_id i c' = Err KeyError <-> Forall (fun y => it_id y <> i) all) /\
  (forall x, x ∈ c_points c' -> exists y, by_id (it_id x) c' = Ok y /\ y ∈ c_points c' /\ it_id y = it_id x).
Proof. exact (by_id_history k l c ops). Qed.
Print Assumptions C37_lookup.

Definition ex_a : item := Item 0 7 CSaddle (44#1) (-(72#1)) (300#1).
Definition ex_b : item := Item 1 8 CRunoff (45#1) (-(72#1)) (300#1).
Definition ex_c : item := Item 2 7 CSaddle (46#1) (-(71#1)) (310#1).
Definition ex_s : item := Item 3 9 CSummit (46#1) (-(71#1)) (400#1).
Definition ex_box : container := Container SaddlesC [ex_a; ex_b] (build_lookup [ex_a; ex_b]).
Definition ex_ops : list cop := [OAppend ex_s; OExtend [ex_c]; OExtend [ex_a; ex_s]].
Example C37_case : new_container SaddlesC [ex_a; ex_b] = Ok ex_box /\ Forall (fun o => is_set o = false) ex_ops /\
  c_points (foldl do_call ex_box ex_ops) = [ex_a; ex_b; ex_c] /\ by_id 7 (foldl do_call ex_box ex_ops) = Ok ex_c.
Proof. split; [done|]. split; [by repeat constructor|]. split; by vm_compute. Qed.

(** C37.  Replacing a member by index: exactly that place changes, and every id
    is found or not found as before; an object of a wrong class or an index
    outside the list is an error. *)
Theorem C37_setitem i x c :
  let n := Z.of_nat (length (c_points c)) in
  (accepts (c_kind c) (it_cls x) -> - n <= i < n -> exists c', c_setitem i x c = Ok c' /\ c_kind c' = c_kind c /\
     put_in (c_points c) i x (c_points c') /\ forall j, by_id j c' = by_id j c) /\
  (accepts (c_kind c) (it_cls x) -> ~ (- n <= i < n) -> c_setitem i x c = Err IndexError) /\
  (~ accepts (c_kind c) (it_cls x) -> c_setitem i x c = Err TypeError).
Proof. exact (c_setitem_spec i x c). Qed.
Print Assumptions C37_setitem.

Example C37_setitem_case : accepts (c_kind ex_box) (it_cls ex_c) /\ ~ accepts (c_kind ex_box) (it_cls ex_s) /\
  (exists c', c_setitem (-2) ex_c ex_box = Ok c' /\ c_points c' = [ex_c; ex_b] /\ by_id 7 c' = Ok ex_a) /\
  c_setitem 2 ex_c ex_box = Err IndexError /\ c_setitem 0 ex_s ex_box = Err TypeError.
Proof. split; [done|]. split; [by intros []|]. split; [by eexists; split; vm_compute|]. by split. Qed.

(** C37.  Replacing an element by index leaves the lookup as it was: the new
    member is not found, and the replaced object still is. *)
Theorem C37_setitem_refuted : exists c x i c' y, new_container SaddlesC (c_points c) = Ok c /\ c_setitem i x c = Ok c' /\
  x ∈ c_points c' /\ by_id (it_id x) c' = Err KeyError /\ by_id (it_id y) c' = Ok y /\ y ∉ c_points c'.
Proof.
  exists ex_box, (Item 4 10 CSaddle (1#1) (1#1) (1#1)), 0, (Container SaddlesC [Item 4 10 CSaddle (1#1) (1#1) (1#1); ex_b] (c_lookup ex_box)), ex_a.
  split; [done|]. split; [done|]. split; [by left|]. split; [by vm_compute|]. split; [by vm_compute|].
  intros [H|H]%elem_of_cons; [done|]. apply elem_of_list_singleton in H. done.
Qed.
Print Assumptions C37_setitem_refuted.

(** C38.  A radius query returns a container of the same kind with exactly the
    members nearer than the given distance, in order; the unit can be written in
    any of the listed ways, in any case. *)
Theorem C38_radius geodesic lat lon value u f c : unit_is u f ->
  Forall (fun x => belongs (c_kind c) (it_cls x)) (c_points c) ->
  exists c', radius geodesic lat lon value u c = Ok c' /\ c_kind c' = c_kind c /\
    picks (fun x => geodesic (lat, lon) (it_lat x, it_lon x) < value * f)%Q (c_points c) (c_points c').
Proof. exact (radius_spec geodesic lat lon value u f c). Qed.
Print Assumptions C38_radius.

Theorem C38_unknown_unit geodesic lat lon value u c : (forall f, ~ unit_is u f) ->
  radius geodesic lat lon value u c = Err ValueError.
Proof. exact (radius_unknown geodesic lat lon value u c). Qed.
Print Assumptions C38_unknown_unit.

(** A distance for the examples. *)
Definition taxi (p q : Q * Q) : Q := Qabs.Qabs (p.1 - q.1) + Qabs.Qabs (p.2 - q.2).
Example C38_radius_case : unit_is "KiloMeters"%string (1000#1) /\
  Forall (fun x => belongs (c_kind ex_box) (it_cls x)) (c_points ex_box) /\
  (exists c', radius taxi (44#1) (-(72#1)) (1#1000) "KiloMeters" ex_box = Ok c' /\ c_points c' = [ex_a]) /\
  (forall f, ~ unit_is "yards"%string f) /\
  radius taxi (44#1) (-(72#1)) (1#1000) "yards" ex_box = Err ValueError.
Proof.
  split; [apply unit_is_lower; do 3 right; by left|]. split; [constructor; [by split|]; constructor; [by split|constructor]|].
  split; [by eexists; split; vm_compute|]. split; [|by vm_compute].
  intros f H. apply unit_is_lower in H. unfold unit_names in H. rewrite !elem_of_cons, elem_of_nil in H. naive_solver.
Qed.

(** C38.  The same for rectangles, whose corners may be given in any order. *)
Theorem C38_rectangle lat1 long1 lat2 long2 c : Forall (fun x => belongs (c_kind c) (it_cls x)) (c_points c) ->
  (exists c', rectangle lat1 long1 lat2 long2 c = Ok c' /\ c_kind c' = c_kind c /\
    picks (fun x => strictly_within lat1 lat2 (it_lat x) /\ strictly_within long1 long2 (it_lon x))
      (c_points c) (c_points c')) /\
  rectangle lat1 long1 lat2 long2 c = rectangle lat2 long2 lat1 long1 c /\
  rectangle lat1 long1 lat2 long2 c = rectangle lat1 long2 lat2 long1 c.
Proof. exact (fun H => conj (rectangle_spec lat1 long1 lat2 long2 c H) (rectangle_corners lat1 long1 lat2 long2 c H)). Qed.
Print Assumptions C38_rectangle.

(** C38.  Elevation ranges, in feet (0.3048 m) and in meters. *)
Theorem C38_elevation lo up c : Forall (fun x => belongs (c_kind c) (it_cls x)) (c_points c) ->
  (exists c', elevation_range lo up c = Ok c' /\ c_kind c' = c_kind c /\
    picks (fun x => lo * (3048 # 10000) < it_ele x /\ it_ele x < up * (3048 # 10000))%Q (c_points c) (c_points c')) /\
  (exists c', elevation_range_metric lo up c = Ok c' /\ c_kind c' = c_kind c /\
    picks (fun x => lo < it_ele x /\ it_ele x < up)%Q (c_points c) (c_points c')).
Proof. exact (fun H => conj (elevation_range_spec lo up c H) (elevation_range_metric_spec lo up c H)). Qed.
Print Assumptions C38_elevation.

Example C38_case : 
  (exists c', rectangle (50#1) (-(75#1)) (44#1) (-(70#1)) ex_box = Ok c' /\ c_points c' = [ex_b]) /\
  (exists c', elevation_range (900#1) (1000#1) ex_box = Ok c' /\ c_points c' = [ex_a; ex_b]) /\
  (exists c', elevation_range_metric (300#1) (310#1) ex_box = Ok c' /\ c_points c' = []).
Proof. split; [|split]; eexists; split; by vm_compute. Qed.

(** C38.  A container of runoffs accepts a saddle that is no runoff, and every
    query that returns it then fails. *)
Theorem C38_runoffs_refuted : exists c x c', new_container RunoffsC (c_points c) = Ok c /\ c_append x c = Ok c' /\
  elevation_range_metric 0 (1000#1) c' = Err TypeError.
Proof.
  exists (Container RunoffsC [ex_b] (build_lookup [ex_b])), ex_a,
    (Container RunoffsC [ex_b; ex_a] (<[7%nat := ex_a]> (build_lookup [ex_b]))).
  split; [done|]. split; [done|]. by vm_compute.
Qed.
Print Assumptions C38_runoffs_refuted.

(** C39.  The lowest and highest queries return exactly the members of extreme
    elevation, in order; an empty container is an error. *)
Theorem C39_extremes {A} (ele : A -> Q) l : l <> [] ->
  (exists r, lowest ele l = Ok r /\ picks (fun x => forall y, y ∈ l -> (ele x <= ele y)%Q) l r /\ r <> []) /\
  (exists r, highest_of ele l = Ok r /\ picks (fun x => forall y, y ∈ l -> (ele y <= ele x)%Q) l r /\ r <> []).
Proof. exact (fun H => conj (lowest_spec ele l H) (highest_of_spec ele l H)). Qed.
Print Assumptions C39_extremes.

Example C39_case : lowest it_ele [ex_c; ex_a; ex_b] = Ok [ex_a; ex_b] /\
  highest_of it_ele [ex_a; ex_c; ex_b] = Ok [ex_c] /\ lowest it_ele [] = Err IndexError.
Proof. split; [|split]; by vm_compute. Qed.

(** C40.  Two locations are equal exactly if their elevations are equal and
    their coordinates agree to six decimals, where a zero coordinate agrees with
    zero and with a missing one only.  This is an equivalence. *)
Theorem C40_equality : (forall a b, loc_eq a b = true <-> same_place a b) /\
  (forall a, loc_eq a a = true) /\ (forall a b, loc_eq a b = loc_eq b a) /\
  (forall a b c, loc_eq a b = true -> loc_eq b c = true -> loc_eq a c = true).
Proof. exact (conj loc_eq_spec loc_eq_equiv). Qed.
Print Assumptions C40_equality.

(** C40.  Equal locations with coordinates that are not saddles have equal
    hash inputs. *)
Theorem C40_hash a b : is_saddle (lc_cls a) = false -> is_saddle (lc_cls b) = false ->
  is_Some (lc_lat a) -> is_Some (lc_lon a) -> is_Some (lc_lat b) -> is_Some (lc_lon b) ->
  loc_eq a b = true -> exists k k', hash_key a = Ok k /\ hash_key b = Ok k' /\ hkey_same k k'.
Proof. exact (loc_eq_hash a b). Qed.
Print Assumptions C40_hash.

(** C40.  Locations that are unequal for [!=] are never equal for [==]; they are
    neither exactly if they agree after rounding and, for one of the
    coordinates, one is zero and the other a nonzero number that rounds to
    zero. *)
Theorem C40_complement a b xa ya xb yb :
  lc_lat a = Some xa -> lc_lon a = Some ya -> lc_lat b = Some xb -> lc_lon b = Some yb ->
  exists r, loc_ne a b = Ok r /\
    (r = true -> loc_eq a b = false) /\
    (r = false /\ loc_eq a b = false <->
       (lc_ele a == lc_ele b)%Q /\ round6 xa = round6 xb /\ round6 ya = round6 yb /\
       (near_zero xa xb \/ near_zero ya yb)).
Proof. exact (loc_ne_spec a b xa ya xb yb). Qed.
Print Assumptions C40_complement.

(** C40.  The same for plain coordinates. *)
Theorem C40_coordinates a b xa ya xb yb :
  lc_lat a = Some xa -> lc_lon a = Some ya -> lc_lat b = Some xb -> lc_lon b = Some yb ->
  exists r, coord_ne a b = Ok r /\
    (r = true -> coord_eq a b = false) /\
    (r = false /\ coord_eq a b = false <->
       round6 xa = round6 xb /\ round6 ya = round6 yb /\ (near_zero xa xb \/ near_zero ya yb)).
Proof. exact (coord_ne_spec a b xa ya xb yb). Qed.
Print Assumptions C40_coordinates.

Definition ex_loc (c : cls) (x : Q) : location := Loc c (Some x) (Some (-72#1)) (300#1) [].
Example C40_case :
  loc_eq (ex_loc CSpot (44#1)) (ex_loc CSummit (440000001#10000000)) = true /\
  loc_ne (ex_loc CSpot (44#1)) (ex_loc CSummit (440001#10000)) = Ok true /\
  (* neither equal nor unequal *)
  loc_eq (ex_loc CSpot 0) (ex_loc CSpot (1#10000000)) = false /\
  loc_ne (ex_loc CSpot 0) (ex_loc CSpot (1#10000000)) = Ok false /\
  near_zero 0 (1#10000000).
Proof.
  split; [by vm_compute|]. split; [by vm_compute|]. split; [by vm_compute|]. split; [by vm_compute|].
  split; [|split; by vm_compute]. left. split; [reflexivity|]. by vm_compute.
Qed.

(** C40.  For saddles the contract between equality and hashing fails: a saddle
    without higher groups equals a summit but has another hash input, and a
    saddle with higher groups has no hash at all. *)
Theorem C40_saddle_refuted :
  (exists a b k k', loc_eq a b = true /\ hash_key a = Ok k /\ hash_key b = Ok k' /\ ~ hkey_same k k') /\
  (exists a, loc_eq a a = true /\ hash_key a = Err TypeError).
Proof.
  split.
  - exists (ex_loc CSaddle (44#1)), (ex_loc CSummit (44#1)), (HPair 44000000 (-72000000)), (HNums 44000000 (-72000000) (300#1)).
    split; [by vm_compute|]. split; [by vm_compute|]. split; [by vm_compute|]. intros H. exact H.
  - exists (Loc CSaddle (Some (44#1)) (Some (-72#1)) (300#1) [[((1,2),310)]]). split; by vm_compute.
Qed.
Print Assumptions C40_saddle_refuted.

(** C41.  Flat areas and perimeters compare equal exactly when one list of
    points is a reordering of the other. *)
Theorem C41_multipoint : (forall a b, multipoint_eq a b = true <-> a ≡ₚ b) /\ (forall a b, perimeter_eq a b = true <-> a ≡ₚ b).
Proof. exact (conj multipoint_eq_perm perimeter_eq_perm). Qed.
Print Assumptions C41_multipoint.

(** C41.  Feature containers and grid-point containers compare equal exactly
    when, for each elevation, the members at this elevation agree in order; for
    containers of plain grid points the sum of the coordinates plays the role of
    the elevation. *)
Theorem C41_containers :
  (forall a b, container_eq a b = true <-> level_by_level it_ele same_item (c_points a) (c_points b)) /\
  (forall l k, gridpoints_eq l k = true <-> level_by_level (fun p => inject_Z p.2) eq l k) /\
  (forall l k, base_gridpoints_eq l k = true <-> level_by_level (fun p => inject_Z (p.1 + p.2)) eq l k).
Proof. exact (conj (fun a b => sorted_items (c_points a) (c_points b)) (conj gridpoints_levels base_gridpoints_levels)). Qed.
Print Assumptions C41_containers.

(** C41.  Summit domains: equal summits, saddles agreeing level by level, and
    points that are a reordering. *)
Theorem C41_domains s1 sa1 p1 s2 sa2 p2 : domain_eq s1 sa1 p1 s2 sa2 p2 = true <->
  same_item s1 s2 /\ level_by_level it_ele same_item sa1 sa2 /\ p1 ≡ₚ p2.
Proof. exact (domain_eq_spec s1 sa1 p1 s2 sa2 p2). Qed.
Print Assumptions C41_domains.

(** C41.  So a reordering of members need not be equal. *)
Theorem C41_reorder_refuted :
  (exists a b, c_points a ≡ₚ c_points b /\ container_eq a b = false) /\
  (exists l k, l ≡ₚ k /\ gridpoints_eq l k = false) /\
  (exists l k, l ≡ₚ k /\ base_gridpoints_eq l k = false).
Proof.
  split; [|split].
  - exists (Container SaddlesC [ex_a; ex_b] ∅), (Container SaddlesC [ex_b; ex_a] ∅). split; [apply perm_swap|by vm_compute].
  - exists [((0,0),5); ((0,1),5)], [((0,1),5); ((0,0),5)]. split; [apply perm_swap|by vm_compute].
  - exists [(0,1); (1,0)], [(1,0); (0,1)]. split; [apply perm_swap|by vm_compute].
Qed.
Print Assumptions C41_reorder_refuted.

Example C41_case : multipoint_eq [(2,1); (1,5); (1,2)] [(1,2); (2,1); (1,5)] = true /\
  container_eq (Container SaddlesC [ex_c; ex_a; ex_b] ∅) (Container SaddlesC [ex_a; ex_c; ex_b] ∅) = true /\
  gridpoints_eq [((0,0),5); ((0,1),6)] [((0,1),6); ((0,0),5)] = true /\
  domain_eq ex_s [ex_a; ex_b] [((0,1),6); ((0,0),5)] ex_s [ex_a; ex_b] [((0,0),5); ((0,1),6)] = true.
Proof. split; [|split; [|split]]; by vm_compute. Qed.

(** C42.  For members at different places the search ends; it reports only
    members, and all members of flat areas without higher surroundings, in
    particular every strict local maximum. *)
Theorem C42_complete l : NoDup (map fst l) -> exists r, find_pseudo_summits l = Ok r /\
  (forall p, p ∈ r -> p ∈ l) /\ forall p, pseudo_summit l p -> p ∈ r.
Proof. exact (find_pseudo_total l). Qed.
Print Assumptions C42_complete.

(** C42.  If no two touching members have the same elevation, the result
    consists exactly of the members without a higher neighbour, in order. *)
Theorem C42_exact l : NoDup (map fst l) ->
  (forall p q, p ∈ l -> q ∈ l -> touching p.1 q.1 -> p.2 <> q.2) ->
  exists r, find_pseudo_summits l = Ok r /\ picks (fun p => no_higher l p) l r.
Proof. exact (find_pseudo_uneven l). Qed.
Print Assumptions C42_exact.

(** C42.  In general members that are no pseudo-summits are reported, and members
    are reported twice. *)
Theorem C42_sound_refuted : exists l r p, NoDup (map fst l) /\ find_pseudo_summits l = Ok r /\ p ∈ r /\ ~ pseudo_summit l p.
Proof.
  exists [((0,0),1); ((0,1),1); ((0,2),2)], [((0,0),1); ((0,2),2)], ((0,0),1).
  split; [by apply (bool_decide_unpack _); vm_compute|]. split; [by vm_compute|]. split; [by left|].
  intros [H1 H2]. specialize (H2 ((0,1),1)).
  assert (no_higher [((0,0),1); ((0,1),1); ((0,2),2)] ((0,1),1)) as H.
  { apply H2. eapply flat_step; [by apply flat_here|right; by left| |done]. unfold touching. cbn. split; [done|lia]. }
  specialize (H ((0,2),2)). cbn in H. assert (2 <= 1); [|lia]. apply H; [do 2 right; by left|].
  unfold touching. cbn. split; [done|lia].
Qed.
Print Assumptions C42_sound_refuted.

Theorem C42_once_refuted : exists l r, NoDup (map fst l) /\ find_pseudo_summits l = Ok r /\ ~ NoDup r.
Proof.
  exists [((0,0),1); ((0,1),1); ((1,0),1)], [((0,0),1); ((1,0),1); ((0,1),1); ((0,1),1)].
  split; [by apply (bool_decide_unpack _); vm_compute|]. split; [by vm_compute|].
  intros H. apply NoDup_cons in H as [_ H]. apply NoDup_cons in H as [_ H]. apply NoDup_cons in H as [H _]. apply H. by left.
Qed.
Print Assumptions C42_once_refuted.

Example C42_case :
  let l := [((0,0),1); ((0,1),2); ((0,2),3); ((0,3),2); ((0,4),4); ((0,5),4); ((0,6),3)] in
  find_pseudo_summits l = Ok [((0,2),3); ((0,4),4); ((0,5),4)] /\ NoDup (map fst l) /\ pseudo_summit l ((0,4),4) /\
  let l' := [((0,0),1); ((0,1),2); ((0,2),1)] in
  find_pseudo_summits l' = Ok [((0,1),2)] /\ forall p q, p ∈ l' -> q ∈ l' -> touching p.1 q.1 -> p.2 <> q.2.
Proof.
  cbn zeta. split; [by vm_compute|]. split; [by apply (bool_decide_unpack _); vm_compute|]. split.
  - split; [do 4 right; by left|].
    set (l := [((0,0),1); ((0,1),2); ((0,2),3); ((0,3),2); ((0,4),4); ((0,5),4); ((0,6),3)] : list pte).
    assert (forall q : pte, q ∈ l -> q.2 <= 4) as H.
    { apply Forall_forall. unfold l. repeat constructor; cbn; lia. }
    intros q Hq r Hr _. assert (q.2 = 4) as -> by (by induction Hq). by apply H.
  - split; [by vm_compute|]. intros p q. rewrite !elem_of_cons, !elem_of_nil. unfold touching.
    intros [->|[->|[->|[]]]] [->|[->|[->|[]]]]; cbn; intros (Hn & H1 & H2); lia || congruence.
Qed.
