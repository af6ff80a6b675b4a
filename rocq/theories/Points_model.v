(** Model of the list-like operations of point collections.
    Sources: pyprom/lib/containers/multipoint.py, perimeter.py, base_gridpoint.py,
    gridpoint.py and pyprom/lib/locations/base_gridpoint.py, gridpoint.py. *)
From Verif Require Import Base_model Raster_model Closest_model.
Local Open Scope Z_scope.

(** The Python values handed to the operations: a [BaseGridPoint], a [GridPoint]
    (a subclass of it), a tuple of numbers, or anything else. *)
Inductive value := VBase (p : xy) | VGrid (p : pte) | VTuple (t : list Z) | VOther.

(** locations/base_gridpoint.py:68-75 and locations/gridpoint.py:71-75 [to_tuple] *)
Definition xy_tuple (p : xy) : list Z := [p.1; p.2].
Definition pte_tuple (p : pte) : list Z := [p.1.1; p.1.2; p.2].

(** multipoint.py:253-275 [_check_and_return_incoming_point_type].  A bare
    [Exception] is [OtherError]. *)
Definition mp_incoming (v : value) : res (list Z) :=
  let* t := match v with
            | VBase p => Ok (xy_tuple p)
            | VGrid p => Ok (pte_tuple p)
            | VTuple t => Ok t
            | VOther => Err TypeError
            end in
  if Nat.eqb (length t) 2 then Ok t else Err OtherError.
(** perimeter.py:215-235 [_check_and_return_incoming_point_type] *)
Definition pr_incoming (v : value) : res (list Z) :=
  let* t := match v with
            | VGrid p => Ok (pte_tuple p)
            | VTuple t => Ok t
            | VBase _ | VOther => Err TypeError
            end in
  if Nat.eqb (length t) 3 then Ok t else Err OtherError.

(** [l[idx] = v] and [l[idx]] of a Python list. *)
Definition py_index (n : nat) (idx : Z) : res nat :=
  let i := if idx <? 0 then idx + Z.of_nat n else idx in
  if (0 <=? i) && (i <? Z.of_nat n) then Ok (Z.to_nat i) else Err IndexError.
Definition py_setitem {A} (l : list A) (idx : Z) (v : A) : res (list A) :=
  let* i := py_index (length l) idx in Ok (<[i := v]> l).
Definition py_getitem {A} (l : list A) (idx : Z) : res A :=
  let* i := py_index (length l) idx in
  match l !! i with Some a => Ok a | None => Err IndexError end.

(** multipoint.py:125-136, 188-198, 200-208 *)
Definition mp_append (l : list (list Z)) (v : value) : res (list (list Z)) :=
  let* t := mp_incoming v in Ok (l ++ [t]).
Definition mp_setitem (l : list (list Z)) (idx : Z) (v : value) : res (list (list Z)) :=
  let* t := mp_incoming v in py_setitem l idx t.
Definition mp_getitem (l : list (list Z)) (idx : Z) : res xy :=
  let* t := py_getitem l idx in
  match t with x :: y :: _ => Ok (x, y) | _ => Err IndexError end.
(** multipoint.py:173-179 [points_with_elevation]; every member has two entries. *)
Definition mp_points_with_elevation (l : list (list Z)) (e : Z) : res (list pte) :=
  foldM (fun t acc => match t with x :: y :: _ => Ok (acc ++ [((x, y), e)]) | _ => Err IndexError end) l [].

(** perimeter.py:130-140, 149-159, 161-169 *)
Definition pr_append (l : list (list Z)) (v : value) : res (list (list Z)) :=
  let* t := pr_incoming v in Ok (l ++ [t]).
Definition pr_setitem (l : list (list Z)) (idx : Z) (v : value) : res (list (list Z)) :=
  let* t := pr_incoming v in py_setitem l idx t.
Definition pr_getitem (l : list (list Z)) (idx : Z) : res (list Z) := py_getitem l idx.

(** A member of a [GridPointContainer]: a [GridPoint], or a [BaseGridPoint]
    without elevation. *)
Definition gpoint : Type := xy * option Z.
(** The container: its points and the lookup table, flattened. *)
Record gpc := GPC { gpc_points : list gpoint; gpc_index : gmap xy gpoint }.

(** gridpoint.py:107-114 [genFastLookup] *)
Definition gen_lookup (l : list gpoint) (t : gmap xy gpoint) : gmap xy gpoint :=
  foldl (fun t p => <[p.1 := p]> t) t l.
(** gridpoint.py:31-46 [__init__] *)
Definition gpc_new (l : list value) : res gpc :=
  let* pts := foldM (fun v acc => match v with
                                  | VGrid p => Ok (acc ++ [(p.1, Some p.2)])
                                  | _ => Err TypeError
                                  end) l [] in
  Ok (GPC pts (gen_lookup pts ∅)).
(** gridpoint.py:267-279 [append] *)
Definition gpc_append (c : gpc) (v : value) : res gpc :=
  match v with
  | VGrid p => let pts := gpc_points c ++ [(p.1, Some p.2)] in Ok (GPC pts (gen_lookup pts (gpc_index c)))
  | _ => Err TypeError
  end.
(** base_gridpoint.py:83-95 [__setitem__], inherited: any [BaseGridPoint] is
    accepted and the lookup table is not touched. *)
Definition gpc_setitem (c : gpc) (idx : Z) (v : value) : res gpc :=
  let* p := match v with
            | VBase p => Ok (p, None)
            | VGrid p => Ok (p.1, Some p.2)
            | _ => Err TypeError
            end in
  let* pts := py_setitem (gpc_points c) idx p in
  Ok (GPC pts (gpc_index c)).

(** gridpoint.py:116-136 and 138-157.  A table without rows is generated first;
    members are true. *)
Definition gpc_iter (shifts : list xy) (c : gpc) (p : xy) : list gpoint :=
  let t := if decide (gpc_index c = ∅) then gen_lookup (gpc_points c) ∅ else gpc_index c in
  omap (fun s : xy => t !! (p.1 + s.1, p.2 + s.2)) shifts.
Definition gpc_iterNeighborFull := gpc_iter [(-1,0); (-1,1); (0,1); (1,1); (1,0); (1,-1); (0,-1); (-1,-1)].
Definition gpc_iterNeighborOrthogonal := gpc_iter [(-1,0); (0,1); (1,0); (0,-1)].

(** [==] of two members, locations/base_gridpoint.py:124-137 and
    locations/gridpoint.py:90-100: between a [GridPoint] and a plain
    [BaseGridPoint] Python calls the method of the subclass, which raises. *)
Definition gp_eq (a b : gpoint) : res bool :=
  match a.2, b.2 with
  | None, None => Ok (bool_decide (a.1 = b.1))
  | Some e, Some e' => Ok (bool_decide (a.1 = b.1) && (e =? e'))
  | _, _ => Err TypeError
  end.
Fixpoint gp_index_from (i : nat) (l : list gpoint) (p : gpoint) : res nat :=
  match l with
  | [] => Err ValueError
  | a :: l => let* b := gp_eq a p in if b then Ok i else gp_index_from (S i) l p
  end.
(** base_gridpoint.py:58-74 [index]: every exception becomes [None]. *)
Definition gpc_find (c : gpc) (p : gpoint) : option nat :=
  match gp_index_from 0 (gpc_points c) p with Ok i => Some i | Err _ => None end.

(** gridpoint.py:235-265 [findClosestPoints] with
    locations/base_gridpoint.py:78-91 [distance], squared. *)
Record gclosest := GCP { gc_mine : option gpoint; gc_theirs : option gpoint; gc_d2 : Q }.
Definition gpc_closest (us them : list gpoint) : gclosest :=
  foldl (fun c p =>
    foldl (fun c t =>
      let d := pixel2 p.1 t.1 in
      if Qlt_bool d (gc_d2 c) then GCP (Some p) (Some t) d else c) c them)
    (GCP None None maxsize2) us.

(** A history of operations; a failed operation changes nothing. *)
Inductive gop := GAppend (v : value) | GSet (idx : Z) (v : value).
Definition gpc_do (c : gpc) (o : gop) : gpc :=
  match (match o with GAppend v => gpc_append c v | GSet i v => gpc_setitem c i v end) with
  | Ok c' => c'
  | Err _ => c
  end.
