(** Model of the hashes of collections:
    /repo/pyprom/lib/containers/base_gridpoint.py, summit_domain.py and linker.py.
    Python's [hash] of numbers, of tuples of numbers and of tuples of objects is a
    parameter; the hash of a tuple of objects is a function of their hashes. *)
From Verif Require Export Container_model.
Local Open Scope Z_scope.

Section hashes.
  (** [hash] of the input of a location's hash, of an int, of (x, y), of
      (x, y, elevation) and of a tuple of objects with the given hashes. *)
  Context (h_loc : hkey -> Z) (h_int : Z -> Z) (h_xy : xy -> Z) (h_pte : pte -> Z) (h_tuple : list Z -> Z).

  (** containers/base_gridpoint.py:107-114 [__hash__], for the two classes of
      points (locations/base_gridpoint.py:93-100, gridpoint.py:125-130). *)
  Definition base_gridpoints_hash (l : list xy) : Z := h_tuple (map h_xy (py_sorted bgp_lt l)).
  Definition gridpoints_hash (l : list pte) : Z := h_tuple (map h_pte (py_sorted gp_lt l)).

  (** locations/spot_elevation.py:195-206, saddle.py:412-423 [__hash__] *)
  Definition loc_hash (a : location) : res Z := let* k := hash_key a in Ok (h_loc k).

  (** The location of an object in a container; its higher groups play no role
      for a summit. *)
  Definition item_loc (a : item) : location := Loc (it_cls a) (Some (it_lat a)) (Some (it_lon a)) (it_ele a) [].

  (** summit_domain.py:251-256 [__hash__] *)
  Definition domain_hash (s : item) (sa : list item) (p : list pte) : res Z := loc_hash (item_loc s).

  (** linker.py:244-251 [__hash__] *)
  Definition linker_hash (su sa : location) : res Z :=
    let* a := loc_hash sa in
    let* b := loc_hash su in
    Ok (h_int (a + b)).
End hashes.

(** linker.py:253-264 [__eq__]; the members are compared by identity first,
    which [loc_eq] includes. *)
Definition linker_eq (su sa su' sa' : location) : bool := loc_eq su su' && loc_eq sa sa'.
