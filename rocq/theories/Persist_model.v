(** Model of saving and loading: the [to_dict]/[from_dict] methods of
    /repo/pyprom/lib/locations, /repo/pyprom/lib/containers and
    /repo/pyprom/domain_map.py:134-265, and the fingerprint of
    /repo/pyprom/lib/datamaps/datamap.py:59. *)
From Verif Require Export Graph_model Container_model Perimeter_model.
From stdpp Require Export strings pretty.
Local Open Scope Z_scope.

(** ** Saved values *)

(** The values that go through cbor.  It keeps numbers, texts and truth values
    and makes lists of tuples; lists and tuples are therefore one case.
    Whole numbers (and elevations, see Raster_model) are [VInt], coordinates
    [VNum]. *)
Inductive val :=
  | VNone
  | VBool (b : bool)
  | VInt (z : Z)
  | VNum (q : Q)
  | VStr (s : string)
  | VSeq (l : list val)
  | VDict (d : list (string * val)).

(** [d[k]] and [d.get(k, ...)] *)
Fixpoint key (k : string) (d : list (string * val)) : option val :=
  match d with
  | [] => None
  | (k', v) :: d => if String.eqb k k' then Some v else key k d
  end.
Definition dget (d : val) (k : string) : res val :=
  match d with
  | VDict d => match key k d with Some v => Ok v | None => Err KeyError end
  | _ => Err TypeError
  end.
Definition dget_opt (d : val) (k : string) : res (option val) :=
  match d with
  | VDict d => Ok (key k d)
  | _ => Err TypeError
  end.

(** Reading a value where the code expects a certain type.  Simplification: a
    value of another type is a TypeError at once. *)
Definition as_int (v : val) : res Z := match v with VInt z => Ok z | _ => Err TypeError end.
Definition as_num (v : val) : res Q := match v with VNum q => Ok q | _ => Err TypeError end.
Definition as_bool (v : val) : res bool := match v with VBool b => Ok b | _ => Err TypeError end.
Definition as_str (v : val) : res string := match v with VStr s => Ok s | _ => Err TypeError end.
Fixpoint read_all {A} (f : val -> res A) (l : list val) : res (list A) :=
  match l with
  | [] => Ok []
  | v :: l => let* a := f v in let* r := read_all f l in Ok (a :: r)
  end.
(** A comprehension over a saved list; iterating anything else is a TypeError. *)
Definition each {A} (f : val -> res A) (v : val) : res (list A) :=
  match v with VSeq l => read_all f l | _ => Err TypeError end.
Fixpoint write_all {A} (f : A -> res val) (l : list A) : res (list val) :=
  match l with
  | [] => Ok []
  | a :: l => let* v := f a in let* r := write_all f l in Ok (v :: r)
  end.

(** An entry that is only written under a condition. *)
Definition entry (b : bool) (k : string) (v : val) : list (string * val) := if b then [(k, v)] else [].

(** ** Points *)

(** Tuples (x, y, elevation). *)
Definition put_pte (p : pte) : val := VSeq [VInt (pt_x p); VInt (pt_y p); VInt (pt_e p)].
(** [tuple(pt)] *)
Definition get_pte (v : val) : res pte :=
  match v with
  | VSeq [x; y; e] => let* x := as_int x in let* y := as_int y in let* e := as_int e in Ok (x, y, e)
  | _ => Err TypeError
  end.
Definition put_ptes (l : list pte) : val := VSeq (map put_pte l).
Definition get_ptes (v : val) : res (list pte) := each get_pte v.

(** base_gridpoint.py:58-66 [to_dict], 36-46 [from_dict] *)
Definition bgp_to_dict (p : xy) : val := VDict [("x", VInt p.1); ("y", VInt p.2)]%string.
Definition bgp_from_dict (d : val) : res xy :=
  let* x := dget d "x" in let* x := as_int x in
  let* y := dget d "y" in let* y := as_int y in Ok (x, y).
(** gridpoint.py:63-69 [to_dict], 40-51 [from_dict] *)
Definition gp_to_dict (p : pte) : val :=
  VDict [("x", VInt (pt_x p)); ("y", VInt (pt_y p)); ("elevation", VInt (pt_e p))]%string.
Definition gp_from_dict (d : val) : res pte :=
  let* x := dget d "x" in let* x := as_int x in
  let* y := dget d "y" in let* y := as_int y in
  let* e := dget d "elevation" in let* e := as_int e in Ok (x, y, e).

(** spot_elevation.py:60-73 [to_dict] and 75-94 [from_dict] of a plain
    SpotElevation, whose edge points are BaseGridPoints. *)
Record pspot := PSpot { po_id : string; po_at : spot; po_edge : bool; po_edgepts : list xy }.
Definition spot_to_dict (s : pspot) : val :=
  VDict [("latitude", VNum (sp_lat (po_at s)));
         ("longitude", VNum (sp_lon (po_at s)));
         ("elevation", VInt (sp_ele (po_at s)));
         ("edge", VBool (po_edge s));
         ("edgepoints", VSeq (map bgp_to_dict (po_edgepts s)));
         ("id", VStr (po_id s))]%string.
Definition spot_from_dict (d : val) : res pspot :=
  let* lat := dget d "lat" in let* lat := as_num lat in
  let* lon := dget d "lon" in let* lon := as_num lon in
  let* ele := dget d "ele" in let* ele := as_int ele in
  let* edge := dget d "edge" in let* edge := as_bool edge in
  let* pts := dget d "edgepoints" in let* pts := each bgp_from_dict pts in
  let* id := dget d "id" in let* id := as_str id in
  Ok (PSpot id (Spot lat lon ele) edge pts).

(** ** Perimeter *)

(** The object with the slots of Perimeter; [b_edgepts] is [mapEdgePoints],
    which may be None. *)
Record bounds := Bounds { b_per : perimeter; b_edge : bool; b_edgepts : option (list pte) }.

(** perimeter.py:64-75 [to_dict] *)
Definition per_to_dict (b : bounds) : val :=
  VDict [("points", put_ptes (per_points (b_per b)));
         ("mapEdge", VBool (b_edge b));
         ("mapEdgePoints", match b_edgepts b with Some l => put_ptes l | None => VNone end)]%string.

(** A dict with integer keys, in insertion order: setting an existing key keeps
    its place. *)
Fixpoint put_at {A} (k : Z) (v : A) (d : list (Z * A)) : list (Z * A) :=
  match d with
  | [] => [(k, v)]
  | (k', v') :: d => if decide (k = k') then (k', v) :: d else (k', v') :: put_at k v d
  end.
Fixpoint find_at {A} (k : Z) (d : list (Z * A)) : option A :=
  match d with
  | [] => None
  | (k', v) :: d => if decide (k = k') then Some v else find_at k d
  end.
(** perimeter.py:91-93: a dict of rows. *)
Definition put_point (d : list (Z * list (Z * pte))) (p : pte) : list (Z * list (Z * pte)) :=
  put_at (pt_x p) (put_at (pt_y p) p (default [] (find_at (pt_x p) d))) d.
Definition point_hash (l : list pte) : list (Z * list (Z * pte)) := foldl put_point [] l.
(** base_self_iterable.py:60-63, the constructor with an index only *)
Definition per_of_index (d : list (Z * list (Z * pte))) : perimeter :=
  match d with
  | [] => Perimeter [] None
  | _ =>
      let points := concat (map (fun r => map snd r.2) d) in
      Perimeter points
        (Some (list_to_map (concat (map (fun r => map (fun e => ((r.1, e.1), e.2)) r.2) d))))
  end.
(** perimeter.py:77-101 [from_dict] *)
Definition per_from_dict (d : val) : res bounds :=
  let* pts := dget d "points" in let* pts := get_ptes pts in
  let* edge := dget d "mapEdge" in let* edge := as_bool edge in
  let* ep := dget d "mapEdgePoints" in let* ep := get_ptes ep in
  Ok (Bounds (per_of_index (point_hash pts)) edge (Some ep)).

(** ** MultiPoint *)

(** [mu_per] is None if no perimeter was given to the constructor. *)
Record multi := Multi { mu_points : list mpoint; mu_ele : Z; mu_per : option bounds }.
Definition put_mpoint (p : mpoint) : val :=
  match p.2 with
  | None => VSeq [VInt p.1.1; VInt p.1.2]
  | Some e => VSeq [VInt p.1.1; VInt p.1.2; VInt e]
  end.
(** multipoint.py:106: [(pt[0], pt[1])] *)
Definition get_mpoint (v : val) : res mpoint :=
  match v with
  | VSeq (x :: y :: _) => let* x := as_int x in let* y := as_int y in Ok ((x, y), None)
  | VSeq _ => Err IndexError
  | _ => Err TypeError
  end.
(** multipoint.py:81-92 [to_dict] *)
Definition multi_to_dict (u : multi) : res val :=
  match mu_per u with
  | None => Err AttributeError
  | Some b => Ok (VDict [("points", VSeq (map put_mpoint (mu_points u)));
                         ("perimeter", per_to_dict b);
                         ("elevation", VInt (mu_ele u))]%string)
  end.
(** multipoint.py:94-109 [from_dict] *)
Definition multi_from_dict (d : val) : res multi :=
  let* pts := dget d "points" in let* pts := each get_mpoint pts in
  let* per := dget d "perimeter" in let* per := per_from_dict per in
  let* ele := dget d "elevation" in let* ele := as_int ele in
  Ok (Multi pts ele (Some per)).

(** The [multipoint] attribute is a list [[]] or a MultiPoint; both are false
    without points.  summit.py:154-155 and saddle.py:343-344 *)
Definition put_multi (u : option multi) : res (list (string * val)) :=
  match u with
  | None => Ok []
  | Some u => if decide (mu_points u = []) then Ok [] else let* v := multi_to_dict u in Ok [("multipoint"%string, v)]
  end.
(** summit.py:178-180 and saddle.py:390-392.  A saved MultiPoint is a non-empty
    dict, hence true. *)
Definition get_multi (d : val) : res (option multi) :=
  let* v := dget_opt d "multipoint" in
  match v with
  | None => Ok None
  | Some v => let* u := multi_from_dict v in Ok (Some u)
  end.

(** ** Summits, saddles, linkers, domains *)

(** Objects are named by their ids.  Simplification: ids ([randomString]) of
    different objects are taken to be different; a container may list an object
    more than once.  References to other objects are given by id; a
    reference may lead to an object outside all containers of the map. *)
Record pdomain := PDomain { pd_summit : string; pd_saddles : list string; pd_points : list pte }.
Record psummit := PSummit {
  pu_at : spot;
  pu_edge : bool;
  pu_edgepts : list pte;
  pu_multi : option multi;
  pu_links : list string;
  pu_domain : option pdomain }.
Record psaddle := PSaddle {
  pa_at : spot;
  pa_edge : bool;
  pa_edgepts : list pte;
  pa_multi : option multi;
  pa_hpn : list (list pte);
  pa_links : list string;
  pa_parent : option string;
  pa_children : list string;
  pa_single : bool;
  pa_basin : bool;
  pa_alts : list string;
  pa_over : option bool }.
Record plink := PLink { pl_summit : string; pl_saddle : string; pl_disq : bool }.

Definition ids (l : list string) : val := VSeq (map VStr l).

(** summit.py:138-159 [to_dict] *)
Definition summit_to_dict (e : string * psummit) : res val :=
  let u := e.2 in
  let* mu := put_multi (pu_multi u) in
  Ok (VDict ([("lat", VNum (sp_lat (pu_at u)));
              ("lon", VNum (sp_lon (pu_at u)));
              ("ele", VInt (sp_ele (pu_at u)));
              ("edge", VBool (pu_edge u));
              ("edgepoints", put_ptes (pu_edgepts u));
              ("id", VStr e.1)]%string
             ++ mu ++ [("saddles", ids (pu_links u))]%string)).
(** summit.py:161-185 [from_dict] *)
Definition summit_from_dict (d : val) : res (string * psummit) :=
  let* lat := dget d "lat" in let* lat := as_num lat in
  let* lon := dget d "lon" in let* lon := as_num lon in
  let* ele := dget d "ele" in let* ele := as_int ele in
  let* edge := dget d "edge" in let* edge := as_bool edge in
  let* pts := dget d "edgepoints" in let* pts := get_ptes pts in
  let* id := dget d "id" in let* id := as_str id in
  let* mu := get_multi d in
  Ok (id, PSummit (Spot lat lon ele) edge pts mu [] None).

(** saddle.py:323-358 [to_dict]; objects are always true. *)
Definition saddle_to_dict (e : string * psaddle) : res val :=
  let s := e.2 in
  let* mu := put_multi (pa_multi s) in
  Ok (VDict ([("lat", VNum (sp_lat (pa_at s)));
              ("lon", VNum (sp_lon (pa_at s)));
              ("ele", VInt (sp_ele (pa_at s)));
              ("edge", VBool (pa_edge s));
              ("edgepoints", put_ptes (pa_edgepts s));
              ("id", VStr e.1)]%string
             ++ entry (pa_single s) "singleSummit" (VBool true)
             ++ entry (pa_basin s) "basinSaddle" (VBool true)
             ++ entry (bool_decide (pa_over s = Some true)) "disqualified" (VBool true)
             ++ mu
             ++ entry (negb (bool_decide (pa_hpn s = []))) "highPerimeterNeighborhoods" (VSeq (map put_ptes (pa_hpn s)))
             ++ [("children", ids (pa_children s)); ("summits", ids (pa_links s))]%string
             ++ match pa_parent s with Some p => [("parent", VStr p)]%string | None => [] end
             ++ entry (negb (bool_decide (pa_alts s = []))) "basinSaddleAlternatives" (ids (pa_alts s)))).
(** saddle.py:360-410 [from_dict]; for a Runoff the constructor sets the edge
    flag (runoff.py:53). *)
Definition flag (d : val) (k : string) : res bool :=
  let* v := dget_opt d k in match v with None => Ok false | Some v => as_bool v end.
Definition saddle_from_dict (runoff : bool) (d : val) : res (string * psaddle) :=
  let* lat := dget d "lat" in let* lat := as_num lat in
  let* lon := dget d "lon" in let* lon := as_num lon in
  let* ele := dget d "ele" in let* ele := as_int ele in
  let* edge := dget d "edge" in let* edge := as_bool edge in
  let* pts := dget d "edgepoints" in let* pts := get_ptes pts in
  let* id := dget d "id" in let* id := as_str id in
  let* single := flag d "singleSummit" in
  let* basin := flag d "basinSaddle" in
  let* over := dget_opt d "disqualified" in
  let* over := match over with None => Ok None | Some v => let* b := as_bool v in Ok (Some b) end in
  let* mu := get_multi d in
  let* hpn := dget_opt d "highPerimeterNeighborhoods" in
  let* hpn := match hpn with None => Ok [] | Some v => each get_ptes v end in
  Ok (id, PSaddle (Spot lat lon ele) (runoff || edge) pts mu hpn [] None [] single basin [] over).

(** [fast_lookup[id]] (spot_elevation.py:49) and a change to the object found
    there: of several objects with one id the last. *)
Fixpoint obj {A} (k : string) (l : list (string * A)) : option A :=
  match l with
  | [] => None
  | (k', a) :: l => match obj k l with Some b => Some b | None => if decide (k = k') then Some a else None end
  end.
Definition need {A} (k : string) (l : list (string * A)) : res A :=
  match obj k l with Some a => Ok a | None => Err KeyError end.
Fixpoint change {A} (k : string) (f : A -> A) (l : list (string * A)) : list (string * A) :=
  match l with
  | [] => []
  | (k', a) :: l => if decide (k = k' /\ k ∉ map fst l) then (k', f a) :: l else (k', a) :: change k f l
  end.

Definition add_child (c : string) (s : psaddle) : psaddle :=
  PSaddle (pa_at s) (pa_edge s) (pa_edgepts s) (pa_multi s) (pa_hpn s) (pa_links s) (pa_parent s)
    (pa_children s ++ [c]) (pa_single s) (pa_basin s) (pa_alts s) (pa_over s).
Definition set_par (p : string) (s : psaddle) : psaddle :=
  PSaddle (pa_at s) (pa_edge s) (pa_edgepts s) (pa_multi s) (pa_hpn s) (pa_links s) (Some p)
    (pa_children s) (pa_single s) (pa_basin s) (pa_alts s) (pa_over s).
Definition add_alt (a : string) (s : psaddle) : psaddle :=
  PSaddle (pa_at s) (pa_edge s) (pa_edgepts s) (pa_multi s) (pa_hpn s) (pa_links s) (pa_parent s)
    (pa_children s) (pa_single s) (pa_basin s) (pa_alts s ++ [a]) (pa_over s).
Definition add_link_sa (k : string) (s : psaddle) : psaddle :=
  PSaddle (pa_at s) (pa_edge s) (pa_edgepts s) (pa_multi s) (pa_hpn s) (pa_links s ++ [k]) (pa_parent s)
    (pa_children s) (pa_single s) (pa_basin s) (pa_alts s) (pa_over s).
Definition add_link_su (k : string) (u : psummit) : psummit :=
  PSummit (pu_at u) (pu_edge u) (pu_edgepts u) (pu_multi u) (pu_links u ++ [k]) (pu_domain u).
Definition set_domain (d : pdomain) (u : psummit) : psummit :=
  PSummit (pu_at u) (pu_edge u) (pu_edgepts u) (pu_multi u) (pu_links u) (Some d).

(** The ids listed under a key that may be missing. *)
Definition listed (d : val) (k : string) : res (list string) :=
  let* v := dget_opt d k in match v with None => Ok [] | Some v => each as_str v end.
(** containers/saddles.py:183-197, the second loop, for one saved saddle *)
Definition relate (d : val) (sc : list (string * psaddle)) : res (list (string * psaddle)) :=
  let* sid := dget d "id" in let* sid := as_str sid in
  let* children := listed d "children" in
  let* sc := foldM (fun c sc => let* _ := need c sc in Ok (change sid (add_child c) sc)) children sc in
  let* parent := dget_opt d "parent" in
  let* sc := match parent with
             | None => Ok sc
             | Some p =>
                 let* p := as_str p in
                 if decide (p = ""%string) then Ok sc
                 else let* _ := need p sc in Ok (change sid (set_par p) sc)
             end in
  let* alts := listed d "basinSaddleAlternatives" in
  foldM (fun a sc => let* _ := need a sc in Ok (change sid (add_alt a) sc)) alts sc.
(** containers/saddles.py:157-198 *)
Definition saddles_to_dict (l : list (string * psaddle)) : res val :=
  let* l := write_all saddle_to_dict l in Ok (VDict [("saddles", VSeq l)]%string).
Definition saddles_from_dict (d : val) : res (list (string * psaddle)) :=
  let* v := dget d "saddles" in
  let* sc := each (saddle_from_dict false) v in
  match v with
  | VSeq l => foldM relate l sc
  | _ => Err TypeError
  end.
(** containers/summits.py:79-107 *)
Definition summits_to_dict (l : list (string * psummit)) : res val :=
  let* l := write_all summit_to_dict l in Ok (VDict [("summits", VSeq l)]%string).
Definition summits_from_dict (d : val) : res (list (string * psummit)) :=
  let* v := dget d "summits" in each summit_from_dict v.
(** containers/runoffs.py:40-65: no second loop *)
Definition runoffs_to_dict (l : list (string * psaddle)) : res val :=
  let* l := write_all saddle_to_dict l in Ok (VDict [("runoffs", VSeq l)]%string).
Definition runoffs_from_dict (d : val) : res (list (string * psaddle)) :=
  let* v := dget d "runoffs" in each (saddle_from_dict true) v.

(** linker.py:197-210 [to_dict] *)
Definition linker_to_dict (e : string * plink) : val :=
  VDict ([("id", VStr e.1)]%string ++ entry (pl_disq e.2) "disqualified" (VBool true)
         ++ [("summit", VStr (pl_summit e.2)); ("saddle", VStr (pl_saddle e.2))]%string).

(** The map being loaded or saved. *)
Record pmap := PMap {
  pm_summits : list (string * psummit);
  pm_saddles : list (string * psaddle);
  pm_runoffs : list (string * psaddle);
  pm_linkers : list (string * plink);
  pm_domains : list pdomain }.

(** Positions of the ends of a linker, for [==] of linkers (linker.py:253-264). *)
Definition su_at (p : pmap) (k : string) : option spot := pu_at <$> obj k (pm_summits p).
Definition sa_at (p : pmap) (k : string) : option spot := pa_at <$> obj k (pm_saddles p ++ pm_runoffs p).
Definition spots_same (a b : option spot) : bool :=
  match a, b with Some a, Some b => spot_eq a b | _, _ => false end.
Definition linkers_same (p : pmap) (a b : plink) : bool :=
  spots_same (su_at p (pl_summit a)) (su_at p (pl_summit b)) &&
  spots_same (sa_at p (pl_saddle a)) (sa_at p (pl_saddle b)).
(** [self in list]: one of the listed linkers is equal. *)
Definition among (p : pmap) (l : plink) (known : list string) : bool :=
  existsb (fun k => match obj k (pm_linkers p) with Some l' => linkers_same p l l' | None => false end) known.

(** linker.py:212-232 [from_dict], and the list of linkers of the caller.
    [newid] is what [randomString] yields if the saved id is empty
    (linker.py:44-47). *)
Section load.
  Variable newid : string.
  Definition linker_from_dict (d : val) (p : pmap) : res pmap :=
    let* sa := dget d "saddle" in let* sa := as_str sa in
    let* s := need sa (pm_saddles p ++ pm_runoffs p) in
    let* su := dget d "summit" in let* su := as_str su in
    let* u := need su (pm_summits p) in
    let* id := dget d "id" in let* id := as_str id in
    let id := if decide (id = ""%string) then newid else id in
    let* disq := flag d "disqualified" in
    let l := PLink su sa disq in
    (* add_to_remote_saddle_and_summit, linker.py:179-195 *)
    let summits := if among p l (pu_links u) then pm_summits p else change su (add_link_su id) (pm_summits p) in
    let know := among p l (pa_links s) in
    Ok (PMap summits
          (if know || bool_decide (sa ∈ map fst (pm_runoffs p)) then pm_saddles p else change sa (add_link_sa id) (pm_saddles p))
          (if know then pm_runoffs p else change sa (add_link_sa id) (pm_runoffs p))
          (pm_linkers p ++ [(id, l)]) (pm_domains p)).
End load.

(** summit_domain.py:190-203 [to_dict] *)
Definition domain_to_dict (d : pdomain) : val :=
  VDict [("points", put_ptes (pd_points d)); ("saddles", ids (pd_saddles d)); ("summit", VStr (pd_summit d))]%string.
(** [hash] (summit_domain.py:251-256, spot_elevation.py:195-206) and [==]
    (summit_domain.py:246-249) of two domains *)
Definition spot_key (s : spot) : Z * Z * Z := (round6 (sp_lat s), round6 (sp_lon s), sp_ele s).
Definition spot_lt (a b : spot) : bool := sp_ele a <? sp_ele b.
Definition domains_same (p : pmap) (a b : pdomain) : bool :=
  match su_at p (pd_summit a), su_at p (pd_summit b) with
  | Some x, Some y =>
      bool_decide (spot_key x = spot_key y) && spot_eq x y &&
      sorted_same spot_lt spot_eq (omap (sa_at p) (pd_saddles a)) (omap (sa_at p) (pd_saddles b)) &&
      sorted_same pte_lt pte_same (pd_points a) (pd_points b)
  | _, _ => false
  end.
(** summit_domain.py:205-231 [from_dict], and the addition to the set
    (domain_map.py:232-237).  The order of the set is left out. *)
Definition domain_from_dict (d : val) (p : pmap) : res pmap :=
  let* pts := dget_opt d "points" in
  let* pts := match pts with None => Ok [] | Some v => get_ptes v end in
  let* sas := dget d "saddles" in let* sas := each as_str sas in
  let* _ := foldM (fun k _ => let* _ := need k (pm_saddles p ++ pm_runoffs p) in Ok tt) sas tt in
  let* su := dget d "summit" in let* su := as_str su in
  let* _ := need su (pm_summits p) in
  let sd := PDomain su sas pts in
  Ok (PMap (change su (set_domain sd) (pm_summits p)) (pm_saddles p) (pm_runoffs p) (pm_linkers p)
        (if existsb (domains_same p sd) (pm_domains p) then pm_domains p else pm_domains p ++ [sd])).

(** ** The map *)

(** domain_map.py:244-265 [to_dict] for a map on a raster with the fingerprint
    [md5].  The entries that are not read back (extent, file name, date,
    version) are left out. *)
Definition map_to_dict (md5 : string) (p : pmap) : res val :=
  let* su := summits_to_dict (pm_summits p) in
  let* sa := saddles_to_dict (pm_saddles p) in
  let* ru := runoffs_to_dict (pm_runoffs p) in
  Ok (VDict [("file_md5", VStr md5); ("summits", su); ("saddles", sa); ("runoffs", ru);
             ("linkers", VSeq (map linker_to_dict (pm_linkers p)));
             ("summit_domains", VSeq (map domain_to_dict (pm_domains p)))]%string).

(** domain_map.py:197-242 [from_dict] *)
Definition map_from_dict (newid md5 : string) (d : val) : res pmap :=
  let* f := dget d "file_md5" in let* f := as_str f in
  if decide (f <> md5) then Err OtherError
  else
    let* sa := dget d "saddles" in let* sa := saddles_from_dict sa in
    let* su := dget d "summits" in let* su := summits_from_dict su in
    let* ru := dget d "runoffs" in let* ru := runoffs_from_dict ru in
    let* li := dget d "linkers" in
    let* p := match li with VSeq l => foldM (linker_from_dict newid) l (PMap su sa ru [] []) | _ => Err TypeError end in
    let* sd := dget d "summit_domains" in
    match sd with VSeq l => foldM domain_from_dict l p | _ => Err TypeError end.

(** ** The fingerprint, datamap.py:59 *)

(** [file_sum] is the checksum of the file, [str_hash seed] the hash function
    of texts in a process with that seed, [printed] is [array2string] of the
    raster. *)
Definition md5_of (str_hash : nat -> string -> Z) (seed : nat) (file_sum printed : string) : string :=
  (file_sum ++ pretty (str_hash seed printed))%string.
