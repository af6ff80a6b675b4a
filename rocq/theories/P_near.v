(** Properties of the searches for nearest points in binary64. *)
From Verif Require Import Base_model Raster_model Raster_spec Analyze_model Closest_model Closest_spec Float_model
  Slope_spec Slope_example Near_model Near_spec Near_run_proof Near_example.
From Flocq Require Import Core BinarySingleNaN.
From Coq Require Import Reals Lra Qreals.
Local Open Scope R_scope.

(** C65.  The nearest point in pixels is found exactly, as in C15: on rasters with
    at most 2^22 rows and columns rounding never makes a farther point win,
    whatever the library's [hypot] within [good_hypot] and its tree. *)
Theorem C65_distance_map hyp kd us them :
  good_hypot hyp -> exact_at_zero hyp -> good_tree kd ->
  usual_cells us -> usual_cells them -> them <> [] ->
  exists d, f_find_closest_point_by_distance_map hyp kd us them = Ok d /\
    (forall p, p ∈ us -> exists t, d !! p = Some t /\ t ∈ them /\
       forall t', t' ∈ them -> (pixel2 (pt_xy p) (pt_xy t) <= pixel2 (pt_xy p) (pt_xy t'))%Q) /\
    (forall p, p ∉ us -> d !! p = None).
Proof. intros Hh Hz Hk. exact (distance_map hyp Hh Hz kd Hk us them). Qed.
Print Assumptions C65_distance_map.

Example C65_distance_map_ok :
  good_hypot plain_hypot /\ exact_at_zero plain_hypot /\ good_tree plain_tree /\
  usual_cells [origin; wide] /\ usual_cells [wide; tall] /\ [wide; tall] <> [].
Proof.
  split; [exact plain_hypot_good|]. split; [exact plain_zero|]. split; [exact plain_tree_good|].
  split; [|split; [|done]]; intros p [->|[->|H%elem_of_nil]%elem_of_cons]%elem_of_cons; try done; vm_compute; intuition congruence.
Qed.

(** C65.  A pair of points is found with its distance within 2^-50 of the true
    length.  No pair has a squared distance smaller by more than the factor
    1 + 2^-48, and with square pixels none is nearer at all. *)
Theorem C65_closest_pair hyp kd m g1 g5 us them p0 t0 :
  good_hypot hyp -> exact_at_zero hyp -> good_tree kd ->
  Q2R (gt1 (dm_gt m)) = B2R g1 -> Q2R (gt5 (dm_gt m)) = B2R g5 -> usual_size g1 -> usual_size g5 ->
  usual_cells us -> usual_cells them -> p0 ∈ us -> t0 ∈ them ->
  (distance2 m (pt_xy p0) (pt_xy t0) < inject_Z (2 ^ 124))%Q ->
  (length us + length them < 100)%nat \/ square_pixels m ->
  exists p t d, f_find_closest_points hyp g1 g5 kd us them = Ok (Some (p, t), Some d) /\ p ∈ us /\ t ∈ them /\
    length_of d (sqrt (Q2R (distance2 m (pt_xy p) (pt_xy t)))) /\
    forall p' t', p' ∈ us -> t' ∈ them ->
      (distance2 m (pt_xy p) (pt_xy t) <= (1 + (1 # 2 ^ 48)) * distance2 m (pt_xy p') (pt_xy t'))%Q /\
      (square_pixels m -> (distance2 m (pt_xy p) (pt_xy t) <= distance2 m (pt_xy p') (pt_xy t'))%Q).
Proof. intros Hh Hz Hk E1 E5 S1 S5. exact (closest_pair hyp Hh Hz kd Hk m g1 g5 E1 E5 S1 S5 us them p0 t0). Qed.
Print Assumptions C65_closest_pair.

Example C65_closest_pair_ok :
  good_hypot plain_hypot /\ exact_at_zero plain_hypot /\ good_tree plain_tree /\
  Q2R (gt1 (dm_gt slim_map)) = B2R (one false) /\ Q2R (gt5 (dm_gt slim_map)) = B2R side /\
  usual_size (one false) /\ usual_size side /\ usual_cells [origin] /\ usual_cells [wide; tall] /\
  (distance2 slim_map (pt_xy origin) (pt_xy wide) < inject_Z (2 ^ 124))%Q /\ (length [origin] + length [wide; tall] < 100)%nat.
Proof.
  split; [exact plain_hypot_good|]. split; [exact plain_zero|]. split; [exact plain_tree_good|].
  split; [exact slim_one|]. split; [exact slim_side|]. split; [exact one_usual|]. split; [exact side_usual|].
  split; [|split; [|split; [reflexivity|repeat constructor]]].
  - intros p [->|H%elem_of_nil]%elem_of_cons; [vm_compute; intuition congruence|done].
  - intros p [->|[->|H%elem_of_nil]%elem_of_cons]%elem_of_cons; try done; vm_compute; intuition congruence.
Qed.

(** C65.  With pixels that are not square the pair need not be the nearest one
    (contrast C14): with sides 1 and 1 + 2^-52 the distances to (3, 4) and (4, 3)
    are rounded to the same float and the farther point, seen first, is kept. *)
Theorem C65_exact_refuted : exists hyp kd m g1 g5 us them p t d t',
  good_hypot hyp /\ exact_at_zero hyp /\ good_tree kd /\
  Q2R (gt1 (dm_gt m)) = B2R g1 /\ Q2R (gt5 (dm_gt m)) = B2R g5 /\ usual_size g1 /\ usual_size g5 /\
  usual_cells us /\ usual_cells them /\ (length us + length them < 100)%nat /\
  f_find_closest_points hyp g1 g5 kd us them = Ok (Some (p, t), Some d) /\ p ∈ us /\ t' ∈ them /\
  (distance2 m (pt_xy p) (pt_xy t') < distance2 m (pt_xy p) (pt_xy t))%Q.
Proof.
  destruct slim_choice as [d Hd].
  exists plain_hypot, plain_tree, slim_map, (one false), side, [origin], [wide; tall], origin, wide, d, tall.
  destruct C65_closest_pair_ok as (H1 & H2 & H3 & H4 & H5 & H6 & H7 & H8 & H9 & _ & H10).
  repeat (split; [assumption|]). split; [by left|]. split; [right; by left|]. vm_compute. reflexivity.
Qed.
Print Assumptions C65_exact_refuted.

(** C65.  The member of a multipoint nearest to a position between cells (a
    multiple of one half) is found exactly, as in C17. *)
Theorem C65_closest_member hyp tx ty k l p0 pts :
  good_hypot hyp -> exact_at_zero hyp -> half_way tx k -> half_way ty l ->
  p0.2 = None -> (forall p, p ∈ p0 :: pts -> usual_cell p.1) ->
  exists p, f_closestPoint hyp tx ty (p0 :: pts) = Ok p /\ p ∈ map fst (p0 :: pts) /\
    forall q, q ∈ map fst (p0 :: pts) -> (dist2_to (k # 2) (l # 2) p <= dist2_to (k # 2) (l # 2) q)%Q.
Proof. intros Hh Hz Hx Hy. exact (closest_member hyp Hh Hz tx ty k l Hx Hy p0 pts). Qed.
Print Assumptions C65_closest_member.

(** C65.  It fails exactly if there are no points or the first one carries an
    elevation. *)
Theorem C65_closest_fails hyp tx ty k l ps :
  good_hypot hyp -> exact_at_zero hyp -> half_way tx k -> half_way ty l -> (forall p, p ∈ ps -> usual_cell p.1) ->
  (exists e, f_closestPoint hyp tx ty ps = Err e) <-> ps = [] \/ exists p0 pts, ps = p0 :: pts /\ p0.2 <> None.
Proof.
  intros Hh Hz Hx Hy Hu. destruct ps as [|p0 pts]; [split; [by left|by eexists]|]. destruct (p0.2) as [z|] eqn:E.
  - split; [intros _; right; exists p0, pts; by rewrite E|]. intros _. unfold f_closestPoint. rewrite E. by eexists.
  - destruct (closest_member hyp Hh Hz tx ty k l Hx Hy p0 pts E Hu) as (p & -> & _). split; [by intros [? ?]|]. naive_solver.
Qed.
Print Assumptions C65_closest_fails.

Example C65_closest_member_ok :
  half_way half5 5 /\ (forall p, p ∈ [((0, 0), None); ((2, 4), Some 7); ((3, 3), None); ((2, 2), None)]%Z -> usual_cell p.1) /\
  f_closestPoint plain_hypot half5 half5 [((0, 0), None); ((2, 4), Some 7); ((3, 3), None); ((2, 2), None)]%Z = Ok (3, 3)%Z.
Proof.
  split; [exact half5_value|]. split; [|exact member_choice].
  intros p [->|[->|[->|[->|H%elem_of_nil]%elem_of_cons]%elem_of_cons]%elem_of_cons]%elem_of_cons; try done; vm_compute; intuition congruence.
Qed.
