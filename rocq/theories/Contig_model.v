(** Model of /repo/pyprom/lib/logic/contiguous_neighbors.py. *)
From Verif Require Export Raster_model.

(** contiguous_neighbors.py:14 *)
Definition OFFSETS : list Z := [-1; 0; 1].

(** Local variables of the flood fill: [stack] (top first), the set [points]
    (duplicate-free enumeration), the nested dict [lookup] flattened, and the
    current [neighbors] list. *)
Record cn_state := CN {
  cn_stack : list pte;
  cn_points : list pte;
  cn_lookup : gmap xy (option Z);
  cn_nbrs : list pte }.

(** contiguous_neighbors.py:45-59, the body for one pair of offsets.
    Simplification: the row test [not x_axis] (an empty row dict) is subsumed by
    the cell lookup, since an empty row has no cells. *)
Definition cn_visit (point : pte) (off : Z * Z) (s : cn_state) : res cn_state :=
  let x_val := pt_x point + off.1 in
  if x_val <? 0 then Ok s
  else
    let y_val := pt_y point + off.2 in
    if y_val <? 0 then Ok s
    else
      match cn_lookup s !! (x_val, y_val) with
      | Some (Some el) =>
          let pt := (x_val, y_val, el) in
          if decide (pt ∈ cn_points s) then
            Ok (CN (pt :: cn_stack s)
                   (filter (fun q => q <> pt) (cn_points s))
                   (<[(x_val, y_val) := None]> (cn_lookup s))
                   (cn_nbrs s ++ [pt]))
          else Err KeyError
      | _ => Ok s
      end.

(** contiguous_neighbors.py:44 and 49, the nested offset loops in order. *)
Definition cn_offsets : list (Z * Z) :=
  ox ← OFFSETS; oy ← OFFSETS; [(ox, oy)].

(** contiguous_neighbors.py:41-59, [while stack]. *)
Fixpoint cn_inner (fuel : nat) (s : cn_state) : res cn_state :=
  match fuel with
  | O => Err OutOfFuel
  | S fuel =>
      match cn_stack s with
      | [] => Ok s
      | point :: st =>
          let* s' := foldM (cn_visit point) cn_offsets
                       (CN st (cn_points s) (cn_lookup s) (cn_nbrs s)) in
          cn_inner fuel s'
      end
  end.

(** contiguous_neighbors.py:36-59, [while points].  [orc] decides what
    [points.pop()] returns at each step. *)
Fixpoint cn_outer (fuel inner_fuel : nat) (orc : nat -> nat) (points : list pte)
    (lookup : gmap xy (option Z)) (neighborsList : list (list pte)) :
    res (list (list pte)) :=
  match fuel with
  | O => Err OutOfFuel
  | S fuel =>
      match pop_any (orc fuel) points with
      | None => Ok neighborsList
      | Some (p, rest) =>
          let* s := cn_inner inner_fuel
                      (CN [p] rest (<[pt_xy p := None]> lookup) [p]) in
          cn_outer fuel inner_fuel orc (cn_points s) (cn_lookup s)
            (neighborsList ++ [cn_nbrs s])
      end
  end.

(** contiguous_neighbors.py:31-34, building [lookup]. *)
Definition cn_init_lookup (points : list pte) : gmap xy (option Z) :=
  foldl (fun l p => <[pt_xy p := Some (pt_e p)]> l) ∅ points.

(** contiguous_neighbors.py:17-60.  [set(points)] is enumerated as the
    duplicate-free version of the argument. *)
Definition contiguous_neighbors (orc : nat -> nat) (points : list pte) :
    res (list (list pte)) :=
  let pset := remove_dups points in
  cn_outer (S (length pset)) (S (length pset)) orc pset (cn_init_lookup pset) [].

(** contiguous_neighbors.py:81-84: [lookup] maps a cell to the index of the
    (last) list that contains it. *)
Definition tn_lookup (ls : list (list pte)) : gmap xy Z :=
  foldl (fun l (ip : nat * list pte) =>
           foldl (fun l p => <[pt_xy p := Z.of_nat ip.1]> l) l ip.2)
        ∅ (imap pair ls).

(** State of touching_neighborhoods: the tracker list and the result dict
    (insertion ordered, as an association list). *)
Record tn_state := TN { tn_tracker : list (Z * Z); tn_result : list (Z * list Z) }.

(** [touching_neighborhoods[us].append(them)] on an insertion-ordered
    defaultdict(list). *)
Fixpoint dict_append (us them : Z) (d : list (Z * list Z)) : list (Z * list Z) :=
  match d with
  | [] => [(us, [them])]
  | (k, v) :: d =>
      if us =? k then (k, v ++ [them]) :: d else (k, v) :: dict_append us them d
  end.

(** contiguous_neighbors.py:88-94.  The truth test on the looked-up index makes
    index 0 behave like a missing entry. *)
Definition tn_visit (lookup : gmap xy Z) (us : Z) (q : xy) (s : tn_state) : tn_state :=
  match lookup !! q with
  | Some them =>
      if them =? 0 then s
      else if us =? them then s
      else if decide ((us, them) ∈ tn_tracker s) then s
      else TN (tn_tracker s ++ [(them, us); (us, them)])
              (dict_append us them (tn_result s))
  | None => s
  end.

(** contiguous_neighbors.py:62-95.  The result is the dict in insertion order. *)
Definition touching_neighborhoods (m : datamap) (ls : list (list pte)) :
    res (list (Z * list Z)) :=
  let lookup := tn_lookup ls in
  let* s :=
    foldM (fun (ip : nat * list pte) s =>
      foldM (fun p s =>
        let* ns := iterateFull m (pt_x p) (pt_y p) in
        Ok (foldl (fun s (n : xy * option Z) =>
                     tn_visit lookup (Z.of_nat ip.1) n.1 s) s ns))
        ip.2 s)
      (imap pair ls) (TN [] []) in
  Ok (tn_result s).

(** /repo/pyprom/lib/logic/tuple_funcs.py:11-26, loop of [highest]. *)
Fixpoint highest_loop (high : Z) (acc : list pte) (points : list pte) : list pte :=
  match points with
  | [] => acc
  | g :: points =>
      if high <? pt_e g then highest_loop (pt_e g) [g] points
      else if pt_e g =? high then highest_loop high (acc ++ [g]) points
      else highest_loop high acc points
  end.

(** /repo/pyprom/lib/logic/tuple_funcs.py:11-26 *)
Definition highest (points : list pte) : res (list pte) :=
  match points with
  | [] => Err IndexError
  | p :: _ => Ok (highest_loop (pt_e p) [] points)
  end.
