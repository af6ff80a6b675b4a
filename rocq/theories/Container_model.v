(** Model of the location classes and their containers:
    /repo/pyprom/lib/locations/base_coordinate.py, spot_elevation.py,
    saddle.py (hash), base_gridpoint.py, gridpoint.py and
    /repo/pyprom/lib/containers/spot_elevation.py, summits.py, saddles.py,
    runoffs.py, base_gridpoint.py, gridpoint.py, multipoint.py, perimeter.py,
    summit_domain.py (comparison). *)
From Verif Require Export Graph_model.
From Coq Require Export Ascii.
From stdpp Require Export strings.
Local Open Scope Z_scope.

Definition Qlt_b (a b : Q) : bool := negb (Qle_bool b a).

(** ** Classes *)

(** The class of a Python object; [COther] is anything that is not a
    SpotElevation. *)
Inductive cls := CSpot | CSummit | CSaddle | CRunoff | COther.
(** spot_elevation.py:221-230, summit.py:201-209, saddle.py:439-447: instance
    tests; a Runoff is a Saddle (runoff.py:21). *)
Definition is_spot (c : cls) : bool := match c with COther => false | _ => true end.
Definition is_summit (c : cls) : bool := match c with CSummit => true | _ => false end.
Definition is_saddle (c : cls) : bool := match c with CSaddle | CRunoff => true | _ => false end.
Definition is_runoff (c : cls) : bool := match c with CRunoff => true | _ => false end.

(** An object as containers see it: its identity, its id, class, position and
    elevation.  Simplification: exact rationals instead of binary64. *)
Record item := Item { it_obj : nat; it_id : nat; it_cls : cls; it_lat : Q; it_lon : Q; it_ele : Q }.

(** ** Feature containers *)

Inductive ckind := SpotC | SummitsC | SaddlesC | RunoffsC.
Record container := Container { c_kind : ckind; c_points : list item; c_lookup : gmap nat item }.

(** [{point.id: point for point in self.points}]: later points win. *)
Definition build_lookup (l : list item) : gmap nat item :=
  foldl (fun t x => <[it_id x := x]> t) ∅ l.

(** spot_elevation.py:37-47, summits.py:26-36, saddles.py:30-40,
    runoffs.py:28-38.  SpotElevationContainer does not test the class but reads
    [point.id], which fails for other objects. *)
Definition new_container (k : ckind) (l : list item) : res container :=
  match k with
  | SpotC => if forallb (fun x => is_spot (it_cls x)) l then Ok (Container k l (build_lookup l)) else Err AttributeError
  | SummitsC => if forallb (fun x => is_summit (it_cls x)) l then Ok (Container k l (build_lookup l)) else Err TypeError
  | SaddlesC => if forallb (fun x => is_saddle (it_cls x)) l then Ok (Container k l (build_lookup l)) else Err TypeError
  | RunoffsC => if forallb (fun x => is_runoff (it_cls x)) l then Ok (Container k l (build_lookup l)) else Err TypeError
  end.

(** The test in [append], [extend] and [__setitem__]: spot_elevation.py:249, 265,
    312, summits.py:58, 74, 129, saddles.py:136, 152, 233.  RunoffsContainer
    inherits these methods from SaddlesContainer. *)
Definition may_add (k : ckind) (c : cls) : bool :=
  match k with
  | SpotC => is_spot c
  | SummitsC => is_summit c
  | SaddlesC | RunoffsC => is_saddle c
  end.

(** spot_elevation.py:238-251 and overrides *)
Definition c_append (x : item) (c : container) : res container :=
  if may_add (c_kind c) (it_cls x)
  then Ok (Container (c_kind c) (c_points c ++ [x]) (<[it_id x := x]> (c_lookup c)))
  else Err TypeError.
(** spot_elevation.py:253-268 and overrides.  The argument is a list other than
    the container's own. *)
Definition c_extend (l : list item) (c : container) : res container :=
  if forallb (fun x => may_add (c_kind c) (it_cls x)) l
  then Ok (Container (c_kind c) (c_points c ++ l) (foldl (fun t x => <[it_id x := x]> t) (c_lookup c) l))
  else Err TypeError.
(** [l[idx] = x] on a Python list. *)
Definition py_set {A} (i : Z) (x : A) (l : list A) : res (list A) :=
  let n := Z.of_nat (length l) in
  if (0 <=? i) && (i <? n) then Ok (<[Z.to_nat i := x]> l)
  else if (- n <=? i) && (i <? 0) then Ok (<[Z.to_nat (i + n) := x]> l)
  else Err IndexError.
(** spot_elevation.py:301-313 [__setitem__] and overrides *)
Definition c_setitem (i : Z) (x : item) (c : container) : res container :=
  if may_add (c_kind c) (it_cls x)
  then let* l := py_set i x (c_points c) in Ok (Container (c_kind c) l (c_lookup c))
  else Err TypeError.
(** spot_elevation.py:89-96 [by_id] *)
Definition by_id (i : nat) (c : container) : res item :=
  match c_lookup c !! i with Some x => Ok x | None => Err KeyError end.

(** A call on a container; a call that raises leaves it unchanged, since every
    test comes first. *)
Inductive cop := OAppend (x : item) | OExtend (l : list item) | OSet (i : Z) (x : item).
Definition call (o : cop) (c : container) : res container :=
  match o with
  | OAppend x => c_append x c
  | OExtend l => c_extend l c
  | OSet i x => c_setitem i x c
  end.
Definition do_call (c : container) (o : cop) : container :=
  match call o c with Ok c' => c' | Err _ => c end.

(** ** Queries *)

(** spot_elevation.py:49-67 [lowest] and gridpoint.py:73-88, for objects with an
    elevation. *)
Definition extreme {A} (better : Q -> Q -> bool) (ele : A -> Q) (l : list A) : res (list A) :=
  match l with
  | [] => Err IndexError
  | a :: _ =>
      let r := foldl (fun st x =>
        if better (ele x) st.1 then (ele x, [x])
        else if Qeq_bool (ele x) st.1 then (st.1, st.2 ++ [x])
        else st) (ele a, []) l in
      Ok r.2
  end.
Definition lowest {A} (ele : A -> Q) (l : list A) : res (list A) := extreme Qlt_b ele l.
(** spot_elevation.py:69-87 [highest] and gridpoint.py:90-105 *)
Definition highest_of {A} (ele : A -> Q) (l : list A) : res (list A) := extreme (fun a b => Qlt_b b a) ele l.

(** [str.lower] for ASCII letters. *)
Definition lower_char (a : ascii) : ascii :=
  let n := nat_of_ascii a in
  if (65 <=? n)%nat && (n <=? 90)%nat then ascii_of_nat (n + 32) else a.
Fixpoint lower (s : string) : string :=
  match s with EmptyString => EmptyString | String a s => String (lower_char a) (lower s) end.
Definition mem (s : string) (l : list string) : bool := existsb (String.eqb s) l.

(** constants.py:13-19 *)
Definition METERS_PER_FOOT : Q := 3048 # 10000.
Definition FEET_PER_METER : Q := / METERS_PER_FOOT.
Definition FEET_PER_MILE : Q := 5280 # 1.

Section queries.
  (** [geodesic(p, q).meters] of geopy, an external library. *)
  Variable geodesic : Q * Q -> Q * Q -> Q.

  (** spot_elevation.py:117-129 *)
  Definition to_meters (value : Q) (unit_ : string) : res Q :=
    let u := lower unit_ in
    if mem u ["meters"; "meter"; "m"]%string then Ok value
    else if mem u ["kilometers"; "kilometer"; "km"]%string then Ok (value * (1000 # 1))%Q
    else if mem u ["feet"; "foot"; "ft"]%string then Ok (METERS_PER_FOOT * value)%Q
    else if mem u ["miles"; "mile"; "mi"]%string then Ok (METERS_PER_FOOT * value * FEET_PER_MILE)%Q
    else Err ValueError.
  (** spot_elevation.py:98-139 [radius] *)
  Definition radius (lat lon value : Q) (unit_ : string) (c : container) : res container :=
    let* d := to_meters value unit_ in
    let positive := foldl (fun acc x =>
      if Qlt_b (geodesic (lat, lon) (it_lat x, it_lon x)) d then acc ++ [x] else acc) [] (c_points c) in
    new_container (c_kind c) positive.

  Definition Qmax_b (a b : Q) : Q := if Qlt_b a b then b else a.
  Definition Qmin_b (a b : Q) : Q := if Qlt_b b a then b else a.
  (** spot_elevation.py:141-169 [rectangle] *)
  Definition rectangle (lat1 long1 lat2 long2 : Q) (c : container) : res container :=
    let upperlat := Qmax_b lat1 lat2 in
    let upperlong := Qmax_b long1 long2 in
    let lowerlat := Qmin_b lat1 lat2 in
    let lowerlong := Qmin_b long1 long2 in
    new_container (c_kind c) (filter (fun x =>
      Qlt_b lowerlat (it_lat x) && Qlt_b (it_lat x) upperlat &&
      Qlt_b lowerlong (it_lon x) && Qlt_b (it_lon x) upperlong = true) (c_points c)).
  (** spot_elevation.py:171-187 [elevationRange], feet *)
  Definition elevation_range (lower_ upper : Q) (c : container) : res container :=
    new_container (c_kind c) (filter (fun x =>
      Qlt_b lower_ (it_ele x * FEET_PER_METER) && Qlt_b (it_ele x * FEET_PER_METER) upper = true) (c_points c)).
  (** spot_elevation.py:189-205 [elevationRangeMetric] *)
  Definition elevation_range_metric (lower_ upper : Q) (c : container) : res container :=
    new_container (c_kind c) (filter (fun x =>
      Qlt_b (it_ele x) upper && Qlt_b lower_ (it_ele x) = true) (c_points c)).
End queries.

(** ** Equality and hashing of locations *)

(** A location: a missing coordinate is None.  [lc_hpn] is the list of higher
    groups of a saddle. *)
Record location := Loc { lc_cls : cls; lc_lat : option Q; lc_lon : option Q; lc_ele : Q; lc_hpn : list (list pte) }.

(** base_coordinate.py:77-87, spot_elevation.py:156-166 *)
Definition coord_key (c : option Q) : option Z := match c with Some q => eq_key q | None => None end.
(** base_coordinate.py:68-87 [__eq__] *)
Definition coord_eq (a b : location) : bool :=
  bool_decide (coord_key (lc_lat a) = coord_key (lc_lat b)) &&
  bool_decide (coord_key (lc_lon a) = coord_key (lc_lon b)).
(** spot_elevation.py:147-166 [__eq__] *)
Definition loc_eq (a b : location) : bool := coord_eq a b && Qeq_bool (lc_ele a) (lc_ele b).
(** [round(c, 6)]; None cannot be rounded. *)
Definition round_coord (c : option Q) : res Z := match c with Some q => Ok (round6 q) | None => Err TypeError end.
(** base_coordinate.py:89-99 [__ne__] *)
Definition coord_ne (a b : location) : res bool :=
  let* x := round_coord (lc_lat a) in let* y := round_coord (lc_lon a) in
  let* x' := round_coord (lc_lat b) in let* y' := round_coord (lc_lon b) in
  Ok (negb ((x =? x') && (y =? y'))).
(** spot_elevation.py:168-180 [__ne__] *)
Definition loc_ne (a b : location) : res bool :=
  let* x := round_coord (lc_lat a) in let* y := round_coord (lc_lon a) in
  let* x' := round_coord (lc_lat b) in let* y' := round_coord (lc_lon b) in
  Ok (negb ((x =? x') && (y =? y') && Qeq_bool (lc_ele a) (lc_ele b))).

(** What [hash] is applied to. *)
Inductive hkey :=
  | HNums (x y : Z) (e : Q)      (** (lat, long, elevation) *)
  | HPair (x y : Z)              (** (hash((lat, long)), hash(())) *)
  .
(** spot_elevation.py:195-206 and, for saddles, saddle.py:412-423, which skips
    to base_coordinate.py:101-108 and then hashes a tuple of lists. *)
Definition hash_key (a : location) : res hkey :=
  let* x := round_coord (lc_lat a) in
  let* y := round_coord (lc_lon a) in
  if is_saddle (lc_cls a)
  then match lc_hpn a with [] => Ok (HPair x y) | _ :: _ => Err TypeError end
  else Ok (HNums x y (lc_ele a)).

(** ** Equality of collections *)

(** [sorted]: Python's sort is stable; with a [<] that is a strict weak order
    the result is that of insertion from the right. *)
Fixpoint insert_sorted {A} (lt : A -> A -> bool) (x : A) (l : list A) : list A :=
  match l with
  | [] => [x]
  | y :: l' => if lt y x then y :: insert_sorted lt x l' else x :: l
  end.
Definition py_sorted {A} (lt : A -> A -> bool) (l : list A) : list A := foldr (insert_sorted lt) [] l.
(** [==] of two lists *)
Fixpoint list_same {A} (same : A -> A -> bool) (l k : list A) : bool :=
  match l, k with
  | [], [] => true
  | x :: l, y :: k => same x y && list_same same l k
  | _, _ => false
  end.
(** [sorted(a) == sorted(b)] *)
Definition sorted_same {A} (lt same : A -> A -> bool) (l k : list A) : bool :=
  list_same same (py_sorted lt l) (py_sorted lt k).

(** Order and equality of tuples of numbers. *)
Definition xy_lt (a b : xy) : bool := (a.1 <? b.1) || ((a.1 =? b.1) && (a.2 <? b.2)).
Definition xy_same (a b : xy) : bool := (a.1 =? b.1) && (a.2 =? b.2).
Definition pte_lt (a b : pte) : bool := xy_lt a.1 b.1 || (xy_same a.1 b.1 && (a.2 <? b.2)).
Definition pte_same (a b : pte) : bool := xy_same a.1 b.1 && (a.2 =? b.2).

(** multipoint.py:210-222 and perimeter.py:171-185 [__eq__] *)
Definition multipoint_eq (a b : list xy) : bool := sorted_same xy_lt xy_same a b.
Definition perimeter_eq (a b : list pte) : bool := sorted_same pte_lt pte_same a b.

(** spot_elevation.py:147-193 for items. *)
Definition item_lt (a b : item) : bool := Qlt_b (it_ele a) (it_ele b).
Definition item_eq (a b : item) : bool :=
  bool_decide (eq_key (it_lat a) = eq_key (it_lat b)) && bool_decide (eq_key (it_lon a) = eq_key (it_lon b)) &&
  Qeq_bool (it_ele a) (it_ele b).
(** containers/spot_elevation.py:325-337 [__eq__]; lists compare their members by
    identity first, which [item_eq] includes.  [__ne__] (339-351) is the
    comparison of lists, hence the negation. *)
Definition container_eq (a b : container) : bool := sorted_same item_lt item_eq (c_points a) (c_points b).

(** base_gridpoint.py:108-136: compared by x + y. *)
Definition bgp_lt (a b : xy) : bool := a.1 + a.2 <? b.1 + b.2.
(** gridpoint.py:90-123: compared by elevation. *)
Definition gp_lt (a b : pte) : bool := a.2 <? b.2.
(** containers/base_gridpoint.py:116-128 [__eq__] for the two classes of points *)
Definition base_gridpoints_eq (a b : list xy) : bool := sorted_same bgp_lt xy_same a b.
Definition gridpoints_eq (a b : list pte) : bool := sorted_same gp_lt pte_same a b.

(** summit_domain.py:246-249 [__eq__] *)
Definition domain_eq (s1 : item) (sa1 : list item) (p1 : list pte) (s2 : item) (sa2 : list item) (p2 : list pte) : bool :=
  item_eq s1 s2 && sorted_same item_lt item_eq sa1 sa2 && sorted_same pte_lt pte_same p1 p2.
