(** Properties C14, C15, C17: closest points. *)
From Verif Require Import Closest_model Raster_spec Closest_spec Closest_proof Reach_proof Example_maps.
Local Open Scope Z_scope.

(** C14.  As long as some cross pair is closer than sys.maxsize, the query
    returns a member of each list and their distance, and no cross pair is
    closer; for 100 points and more this needs square pixels. *)
Theorem C14_closest_pair near m us them p0 t0 :
  nearest_query near -> p0 ∈ us -> t0 ∈ them ->
  (distance2 m (pt_xy p0) (pt_xy t0) < maxsize2)%Q ->
  (length us + length them < 100)%nat \/ square_pixels m ->
  exists p t, find_closest_points near m us them =
      Ok (CP (Some p) (Some t) (distance2 m (pt_xy p) (pt_xy t))) /\
    p ∈ us /\ t ∈ them /\
    (forall p' t', p' ∈ us -> t' ∈ them ->
       (distance2 m (pt_xy p) (pt_xy t) <= distance2 m (pt_xy p') (pt_xy t'))%Q).
Proof. exact (find_closest_spec near m us them p0 t0). Qed.
Print Assumptions C14_closest_pair.

(** The pair that the nested loops meet first is taken among equals. *)
Theorem C14_first_in_order m us them p0 t0 :
  p0 ∈ us -> t0 ∈ them -> (distance2 m (pt_xy p0) (pt_xy t0) < maxsize2)%Q ->
  exists p t, closest_points_between_sets_brute_force m us them =
      CP (Some p) (Some t) (distance2 m (pt_xy p) (pt_xy t)) /\
    first_least (fun c : pte * pte => distance2 m (pt_xy c.1) (pt_xy c.2))
      (p ← us; t ← them; [(p, t)]) (p, t).
Proof. exact (brute_first m us them p0 t0). Qed.
Print Assumptions C14_first_in_order.

(** A pair of points at distance [L] is found exactly if [L] is below
    [sys.maxsize]. *)
Theorem C14_reach m p t (L : Q) : (0 <= L)%Q -> (distance2 m (pt_xy p) (pt_xy t) == L * L)%Q ->
  cp_mine (closest_points_between_sets_brute_force m [p] [t]) = Some p <-> (L < 9223372036854775807 # 1)%Q.
Proof. exact (reach_spec m p t L). Qed.
Print Assumptions C14_reach.

Example C14_reach_case : (0 <= 2)%Q /\ (distance2 map_a (4, 4)%Z (4, 6)%Z == 2 * 2)%Q /\ (2 < 9223372036854775807 # 1)%Q.
Proof. split_and!; by vm_compute. Qed.

(** With non-square pixels the large variant is wrong. *)
Theorem C14_kdtree_refuted :
  exists near m us them p t, nearest_query near /\ us <> [] /\ them <> [] /\ p ∈ us /\ t ∈ them /\
    match find_closest_points near m us them with
    | Ok c => (distance2 m (pt_xy p) (pt_xy t) < cp_d2 c)%Q
    | Err _ => False
    end.
Proof. exact kdtree_wrong. Qed.
Print Assumptions C14_kdtree_refuted.

Example C14_case :
  let us := [(0, 0, 5); (4, 4, 5); (2, 9, 5)] in
  let them := [(9, 9, 5); (4, 6, 5); (6, 4, 5)] in
  (4, 4, 5) ∈ us /\ (4, 6, 5) ∈ them /\
  (distance2 map_a (4, 4)%Z (4, 6)%Z < maxsize2)%Q /\
  find_closest_points near0 map_a us them = Ok (CP (Some (4, 4, 5)) (Some (4, 6, 5)) (4#1)).
Proof. split_and!; [by right; left|by right; left|by vm_compute|by vm_compute]. Qed.

(** C15.  Every point of the first list is mapped to a nearest point (in
    pixels) of the second list; there is no other key. *)
Theorem C15_distance_map near us them :
  nearest_query near -> them <> [] ->
  (forall p, p ∈ us -> exists t, t ∈ them /\ (pixel2 (pt_xy p) (pt_xy t) < maxsize2)%Q) ->
  exists d, find_closest_point_by_distance_map near us them = Ok d /\
  (forall p, p ∈ us -> exists t, d !! p = Some t /\ t ∈ them /\
     forall t', t' ∈ them -> (pixel2 (pt_xy p) (pt_xy t) <= pixel2 (pt_xy p) (pt_xy t'))%Q) /\
  (forall p, p ∉ us -> d !! p = None).
Proof. exact (distance_map_spec near us them). Qed.
Print Assumptions C15_distance_map.

Example C15_case :
  let us := [(0, 0, 5); (4, 4, 5)] in
  let them := [(9, 9, 5); (4, 6, 5); (1, 1, 5)] in
  (forall p, p ∈ us -> exists t, t ∈ them /\ (pixel2 (pt_xy p) (pt_xy t) < maxsize2)%Q) /\
  match find_closest_point_by_distance_map near0 us them with
  | Ok d => d !! (0, 0, 5) = Some (1, 1, 5) /\ d !! (4, 4, 5) = Some (4, 6, 5)
  | Err _ => False
  end.
Proof.
  split; [|by vm_compute].
  intros p Hp. exists (1, 1, 5). split; [by right; right; left|].
  apply elem_of_cons in Hp as [->|Hp]; [by vm_compute|].
  apply elem_of_list_singleton in Hp as ->. by vm_compute.
Qed.

(** C17.  The closest-point query returns the cell of a member at least squared
    distance from the (possibly fractional) position. *)
Theorem C17_closest_member tx ty p0 pts :
  p0.2 = None ->
  exists p, closestPoint tx ty (p0 :: pts) = Ok p /\ p ∈ map fst (p0 :: pts) /\
    forall q, q ∈ map fst (p0 :: pts) -> (dist2_to tx ty p <= dist2_to tx ty q)%Q.
Proof. exact (closestPoint_spec tx ty p0 pts). Qed.
Print Assumptions C17_closest_member.

(** C17.  It fails exactly if there are no points (IndexError) or the first one
    carries an elevation (TypeError). *)
Theorem C17_closest_fails tx ty l e :
  closestPoint tx ty l = Err e <-> (l = [] /\ e = IndexError) \/ (e = TypeError /\ exists p0 pts, l = p0 :: pts /\ p0.2 <> None).
Proof.
  destruct l as [|p0 pts]; [cbn; naive_solver|]. destruct (p0.2) as [z|] eqn:E.
  - unfold closestPoint. rewrite E. split; [intros [= <-]; right; split; [done|]; exists p0, pts; by rewrite E|]. by intros [[? _]|[-> _]].
  - destruct (closestPoint_spec tx ty p0 pts E) as (p & -> & _). split; [done|]. naive_solver.
Qed.
Print Assumptions C17_closest_fails.

Example C17_case :
  closestPoint (5#2) 3 [((0, 0), None); ((2, 2), None); ((3, 3), None); ((7, 7), None)] = Ok (3, 3).
Proof. by vm_compute. Qed.
