(** Model of /repo/pyprom/lib/logic/shortest_path_by_points.py:68-215 and of
    /repo/pyprom/lib/containers/multipoint.py:139-171. *)
From Verif Require Export Analyze_model.

(** Square of [sys.maxsize], the starting value of the searches.  Lengths are
    represented by their exact squares, so [distance < sys.maxsize] becomes a
    comparison with this number. *)
Definition maxsize2 : Q := inject_Z (9223372036854775807 * 9223372036854775807).

(** [hypot(ax - bx, ay - by)], squared. *)
Definition pixel2 (a b : xy) : Q := inject_Z ((a.1 - b.1) * (a.1 - b.1) + (a.2 - b.2) * (a.2 - b.2)).

(** Result of a closest-pair search: the pair (None, None when nothing was
    closer than sys.maxsize) and the squared distance. *)
Record closest := CP { cp_mine : option pte; cp_theirs : option pte; cp_d2 : Q }.

Definition Qlt_bool (a b : Q) : bool := negb (Qle_bool b a).

(** shortest_path_by_points.py:68-97 *)
Definition closest_points_between_sets_brute_force (m : datamap) (us them : list pte) : closest :=
  foldl (fun c p =>
    foldl (fun c t =>
      let d := distance2 m (pt_xy p) (pt_xy t) in
      if Qlt_bool d (cp_d2 c) then CP (Some p) (Some t) d else c) c them)
    (CP None None maxsize2) us.

(** shortest_path_by_points.py:100-123; the dict is a finite map. *)
Definition closest_point_by_distance_brute_force (us them : list pte) : gmap pte pte :=
  foldl (fun (d : gmap pte pte) p =>
    (foldl (fun (s : gmap pte pte * Q) t =>
      let dist := pixel2 (pt_xy p) (pt_xy t) in
      if Qlt_bool dist s.2 then (<[p := t]> s.1, dist) else s) (d, maxsize2) them).1) ∅ us.

(** [numpy.argmin]: index of the first minimal value. *)
Fixpoint argmin_from (i : nat) (l : list Q) (best : nat * Q) : nat :=
  match l with
  | [] => best.1
  | q :: l => if Qlt_bool q best.2 then argmin_from (S i) l (i, q) else argmin_from (S i) l best
  end.
Definition argmin (l : list Q) : option nat :=
  match l with [] => None | q :: l => Some (argmin_from 1 l (0%nat, q)) end.

Section kdtree.
  (** [near pts q] is the index returned by scipy's KDTree(pts).query(q). *)
  Variable near : list xy -> xy -> nat.

  (** shortest_path_by_points.py:125-148.  The distance reported by the tree for
      a query point is the pixel distance to the point of that index. *)
  Definition closest_points_between_sets_kdtree (m : datamap) (us them : list pte) : res closest :=
    match us with
    | [] => Err ValueError
    | _ =>
        let us2d := map pt_xy us in
        let dists := map (fun t =>
          match us2d !! near us2d (pt_xy t) with
          | Some q => pixel2 q (pt_xy t)
          | None => maxsize2
          end) them in
        match argmin dists with
        | None => Err ValueError
        | Some idx =>
            match them !! idx with
            | None => Err IndexError
            | Some theirs =>
                match us !! near us2d (pt_xy theirs) with
                | None => Err IndexError
                | Some ours =>
                    Ok (CP (Some ours) (Some theirs) (distance2 m (pt_xy ours) (pt_xy theirs)))
                end
            end
        end
    end.

  (** shortest_path_by_points.py:150-169 *)
  Definition closest_point_by_distance_kdtree (us them : list pte) : res (gmap pte pte) :=
    match them with
    | [] => Err ValueError
    | _ =>
        let them2d := map pt_xy them in
        foldM (fun p d =>
          match them !! near them2d (pt_xy p) with
          | None => Err IndexError
          | Some t => Ok (<[p := t]> d)
          end) us ∅
    end.

  (** shortest_path_by_points.py:172-193 *)
  Definition find_closest_points (m : datamap) (us them : list pte) : res closest :=
    if Nat.ltb (length us + length them) 100
    then Ok (closest_points_between_sets_brute_force m us them)
    else closest_points_between_sets_kdtree m us them.

  (** shortest_path_by_points.py:195-215 *)
  Definition find_closest_point_by_distance_map (us them : list pte) : res (gmap pte pte) :=
    if Nat.ltb (length us + length them) 100
    then Ok (closest_point_by_distance_brute_force us them)
    else closest_point_by_distance_kdtree us them.
End kdtree.

(** Squared pixel distance from a possibly fractional position. *)
Definition dist2_to (tx ty : Q) (p : xy) : Q :=
  ((tx - inject_Z p.1) * (tx - inject_Z p.1) + (ty - inject_Z p.2) * (ty - inject_Z p.2))%Q.

(** multipoint.py:159-167, the search loop with its early exit. *)
Fixpoint closestPoint_loop (tx ty : Q) (pts : list mpoint) (best : mpoint) (bd : Q) : mpoint :=
  match pts with
  | [] => best
  | p :: pts =>
      let d := dist2_to tx ty p.1 in
      if Qeq_bool d 0 then p
      else if Qlt_bool d bd then closestPoint_loop tx ty pts p d
      else closestPoint_loop tx ty pts best bd
  end.

(** multipoint.py:139-171.  The first member is unpacked as two arguments, so a
    3-tuple there is a TypeError.  The result is the member's cell; conversion
    to a SpotElevation uses the datamap's xy_to_latlon. *)
Definition closestPoint (tx ty : Q) (pts : list mpoint) : res xy :=
  match pts with
  | [] => Err IndexError
  | p :: rest =>
      match p.2 with
      | Some _ => Err TypeError
      | None => Ok (closestPoint_loop tx ty rest p (dist2_to tx ty p.1)).1
      end
  end.

(** The three searches used by the analysis: [find_closest_point_by_distance_map],
    [find_closest_points] and [MultiPoint.closestPoint].  The analysis takes any
    such functions; [cp_d2] is the square of the distance that was computed. *)
Record searches := Searches {
  s_map : list pte -> list pte -> res (gmap pte pte);
  s_pair : datamap -> list pte -> list pte -> res closest;
  s_member : Q -> Q -> list mpoint -> res xy }.
(** They are the ones above in exact arithmetic, with the tree [near]. *)
Definition exact_searches (near : list xy -> xy -> nat) : searches :=
  Searches (find_closest_point_by_distance_map near) (find_closest_points near) closestPoint.
