(** Model of /repo/pyprom/lib/containers/base_self_iterable.py and of
    /repo/pyprom/lib/containers/perimeter.py. *)
From Verif Require Export Contig_model.
Local Open Scope Z_scope.

(** The objects with the slots [points] and [pointIndex].  The nested index is
    flattened; [None] is a missing attribute.  Simplification: the index is a
    defaultdict (as every caller passes it), so reading a missing row only adds
    an empty one, which the flattening does not show. *)
Record perimeter := Perimeter { per_points : list pte; per_index : option (gmap xy pte) }.

(** base_self_iterable.py:66-68: later points overwrite earlier ones. *)
Definition index_of (points : list pte) : gmap xy pte := foldl (fun t p => <[pt_xy p := p]> t) ∅ points.

(** base_self_iterable.py:50-68 [__init__] with a point list only. *)
Definition per_new (points : list pte) : perimeter :=
  match points with
  | [] => Perimeter [] None
  | _ => Perimeter points (Some (index_of points))
  end.

(** base_self_iterable.py:83-87: the loop over the shifts.  Members are
    non-empty tuples, hence true. *)
Definition iter_shifts (per : perimeter) (shifts : list (Z * Z)) (point : pte) : res (list pte) :=
  match per_index per with
  | None => Err AttributeError
  | Some t => Ok (omap (fun s => t !! (pt_x point + s.1, pt_y point + s.2)) shifts)
  end.
(** base_self_iterable.py:70-87 *)
Definition iterNeighborFull (per : perimeter) := iter_shifts per FULL_SHIFT_LIST.
(** base_self_iterable.py:89-106 *)
Definition iterNeighborOrthogonal (per : perimeter) := iter_shifts per ORTHOGONAL_SHIFT_LIST.
(** base_self_iterable.py:108-125: the loop is over the orthogonal shifts. *)
Definition iterNeighborOrthogonalDiagonal (per : perimeter) := iter_shifts per ORTHOGONAL_SHIFT_LIST.

(** perimeter.py:116-128 [findHighPerimeter] *)
Definition findHighPerimeter (per : perimeter) (elevation : Z) : list pte :=
  filter (fun x => elevation < pt_e x) (per_points per).
(** perimeter.py:103-114 [findHighPerimeterNeighborhoods] *)
Definition findHighPerimeterNeighborhoods (orc : nat -> nat) (per : perimeter) (elevation : Z) : res (list (list pte)) :=
  contiguous_neighbors orc (findHighPerimeter per elevation).

(** perimeter.py:130-140 [append]: the index is not updated. *)
Definition per_append (per : perimeter) (p : pte) : perimeter := Perimeter (per_points per ++ [p]) (per_index per).
