(** Model of the searches for nearest points in binary64 arithmetic.
    Sources: pyprom/lib/logic/shortest_path_by_points.py,
    pyprom/lib/datamaps/base_datamap.py, pyprom/lib/containers/multipoint.py. *)
From Verif Require Import Base_model Raster_model Analyze_model Float_model.
From Flocq Require Import Core BinarySingleNaN.
Local Open Scope Z_scope.

(** [distance < closest_distance]; [None] stands for the integer [sys.maxsize],
    2^63 - 1.  No float lies between it and 2^63. *)
Definition two63 : b64 := binary_normalize 53 1024 _ _ mode_NE 1 63 false.
Definition f_closer (distance : b64) (closest_distance : option b64) : bool :=
  Bltb distance (default two63 closest_distance).

(** [numpy.argmin]: index of the first minimal value. *)
Fixpoint f_argmin_from (i : nat) (l : list b64) (best : nat * b64) : nat :=
  match l with
  | [] => best.1
  | d :: l => if Bltb d best.2 then f_argmin_from (S i) l (i, d) else f_argmin_from (S i) l best
  end.
Definition f_argmin (l : list b64) : option nat :=
  match l with [] => None | d :: l => Some (f_argmin_from 1 l (0%nat, d)) end.

Section hypot.
  (** [math.hypot] *)
  Variable hyp : b64 -> b64 -> b64.
  (** The sizes of a pixel, [geotransform[1]] and [geotransform[5]]. *)
  Variable g1 g5 : b64.

  (** base_datamap.py:129-135 *)
  Definition f_distance (us them : xy) : res b64 :=
    let* dx := f_int (us.1 - them.1) in
    let* dy := f_int (us.2 - them.2) in
    Ok (hyp (f_mul dx g1) (f_mul dy g5)).

  (** shortest_path_by_points.py:68-97: the pair and its distance. *)
  Definition f_closest_points_between_sets_brute_force (us them : list pte) : res (option (pte * pte) * option b64) :=
    foldM (fun p c =>
      foldM (fun t (c : option (pte * pte) * option b64) =>
        let* distance := f_distance (pt_xy p) (pt_xy t) in
        Ok (if f_closer distance c.2 then (Some (p, t), Some distance) else c)) them c) us (None, None).

  (** shortest_path_by_points.py:118 *)
  Definition f_pixel (us them : xy) : res b64 :=
    let* dx := f_int (us.1 - them.1) in
    let* dy := f_int (us.2 - them.2) in
    Ok (hyp dx dy).

  (** shortest_path_by_points.py:100-123 *)
  Definition f_closest_point_by_distance_brute_force (us them : list pte) : res (gmap pte pte) :=
    foldM (fun p (closest : gmap pte pte) =>
      let* s := foldM (fun t (s : gmap pte pte * option b64) =>
        let* distance := f_pixel (pt_xy p) (pt_xy t) in
        Ok (if f_closer distance s.2 then (<[p := t]> s.1, Some distance) else s)) them (closest, None) in
      Ok s.1) us ∅.

  (** scipy's KDTree(pts).query(q): an index and a distance *)
  Variable kd : list xy -> xy -> nat * b64.

  (** shortest_path_by_points.py:125-148 *)
  Definition f_closest_points_between_sets_kdtree (us them : list pte) : res (option (pte * pte) * option b64) :=
    match us with
    | [] => Err ValueError
    | _ =>
        let us2d := map pt_xy us in
        match f_argmin (map (fun t => (kd us2d (pt_xy t)).2) them) with
        | None => Err ValueError
        | Some idx =>
            match them !! idx with
            | None => Err IndexError
            | Some theirs =>
                match us !! (kd us2d (pt_xy theirs)).1 with
                | None => Err IndexError
                | Some ours =>
                    let* distance := f_distance (pt_xy ours) (pt_xy theirs) in
                    Ok (Some (ours, theirs), Some distance)
                end
            end
        end
    end.

  (** shortest_path_by_points.py:150-169 *)
  Definition f_closest_point_by_distance_kdtree (us them : list pte) : res (gmap pte pte) :=
    match them with
    | [] => Err ValueError
    | _ =>
        let them2d := map pt_xy them in
        foldM (fun p d =>
          match them !! (kd them2d (pt_xy p)).1 with
          | None => Err IndexError
          | Some t => Ok (<[p := t]> d)
          end) us ∅
    end.

  (** shortest_path_by_points.py:172-193 *)
  Definition f_find_closest_points (us them : list pte) : res (option (pte * pte) * option b64) :=
    if Nat.ltb (length us + length them) 100
    then f_closest_points_between_sets_brute_force us them
    else f_closest_points_between_sets_kdtree us them.

  (** shortest_path_by_points.py:195-215 *)
  Definition f_find_closest_point_by_distance_map (us them : list pte) : res (gmap pte pte) :=
    if Nat.ltb (length us + length them) 100
    then f_closest_point_by_distance_brute_force us them
    else f_closest_point_by_distance_kdtree us them.

  (** multipoint.py:154-155; an [int] position behaves as the [float] of its value. *)
  Definition f_distanceCalc (themX themY : b64) (us : xy) : res b64 :=
    let* usX := f_int us.1 in
    let* usY := f_int us.2 in
    Ok (hyp (f_sub themX usX) (f_sub themY usY)).

  (** multipoint.py:159-167 *)
  Fixpoint f_closestPoint_loop (themX themY : b64) (pts : list mpoint) (best : mpoint) (bd : b64) : res mpoint :=
    match pts with
    | [] => Ok best
    | p :: pts =>
        let* d := f_distanceCalc themX themY p.1 in
        if Beqb d (B754_zero false) then Ok p
        else if Bltb d bd then f_closestPoint_loop themX themY pts p d
        else f_closestPoint_loop themX themY pts best bd
    end.

  (** multipoint.py:139-171, as [closestPoint] *)
  Definition f_closestPoint (themX themY : b64) (pts : list mpoint) : res xy :=
    match pts with
    | [] => Err IndexError
    | p :: rest =>
        match p.2 with
        | Some _ => Err TypeError
        | None =>
            let* bd := f_distanceCalc themX themY p.1 in
            let* c := f_closestPoint_loop themX themY rest p bd in
            Ok c.1
        end
    end.
End hypot.
