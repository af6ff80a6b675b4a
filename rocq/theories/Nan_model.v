(** Model of feature discovery on rasters that hold NaN.
    Sources: pyprom/lib/datamaps/base_datamap.py, pyprom/lib/logic/equalheight.py,
    pyprom/lib/logic/contiguous_neighbors.py, pyprom/lib/logic/tuple_funcs.py and
    pyprom/feature_discovery.py. *)
From Verif Require Export Analyze_model.

(** A float: a number, or NaN.  NaN differs from itself, but Python's sets tell
    objects apart by identity first, so a NaN carries which object it is:
    [Some c] is made by a read while the loop is at the cell [c], [None] is the
    nodata value of the raster. *)
Inductive fnum := Num (z : Z) | NaN (made_at : option xy).
Global Instance fnum_eq_dec : EqDecision fnum.
Proof. solve_decision. Defined.

(** Python's [==], [<] on floats. *)
Definition n_eq (a b : fnum) : bool := match a, b with Num x, Num y => x =? y | _, _ => false end.
Definition n_lt (a b : fnum) : bool := match a, b with Num x, Num y => x <? y | _, _ => false end.

(** [(x, y, elevation)] tuples; [=] on them is equality in a Python set. *)
Notation npt := (Z * Z * fnum)%type.
Definition n_xy (p : npt) : xy := p.1.

(** [set(points)] and its contents in the order in which it is iterated. *)
Definition n_set_add (a : npt) (l : list npt) : list npt := if decide (a ∈ l) then l else l ++ [a].

(** A discovered object, as in [feature]. *)
Record nfeature := NFeat {
  nf_kind : kind;
  nf_pos : xy;
  nf_ele : fnum;
  nf_multi : list mpoint;
  nf_edge : bool;
  nf_edgepts : list npt;
  nf_hpn : list (list pte) }.

(** ** contiguous_neighbors.py:17-60 *)
Record nc_state := NC {
  nc_stack : list npt;
  nc_points : list npt;
  nc_lookup : gmap xy (option fnum);
  nc_nbrs : list npt }.

(** contiguous_neighbors.py:45-59 *)
Definition nc_visit (point : npt) (off : Z * Z) (s : nc_state) : res nc_state :=
  let x_val := point.1.1 + off.1 in
  if x_val <? 0 then Ok s
  else
    let y_val := point.1.2 + off.2 in
    if y_val <? 0 then Ok s
    else
      match nc_lookup s !! (x_val, y_val) with
      | Some (Some el) =>
          let pt := (x_val, y_val, el) in
          if decide (pt ∈ nc_points s) then
            Ok (NC (pt :: nc_stack s)
                   (filter (fun q => q <> pt) (nc_points s))
                   (<[(x_val, y_val) := None]> (nc_lookup s))
                   (nc_nbrs s ++ [pt]))
          else Err KeyError
      | _ => Ok s
      end.

(** contiguous_neighbors.py:41-59 *)
Fixpoint nc_inner (fuel : nat) (s : nc_state) : res nc_state :=
  match fuel with
  | O => Err OutOfFuel
  | S fuel =>
      match nc_stack s with
      | [] => Ok s
      | point :: st =>
          let* s' := foldM (nc_visit point) cn_offsets (NC st (nc_points s) (nc_lookup s) (nc_nbrs s)) in
          nc_inner fuel s'
      end
  end.

(** contiguous_neighbors.py:36-59 *)
Fixpoint nc_outer (fuel inner_fuel : nat) (orc : nat -> nat) (points : list npt)
    (lookup : gmap xy (option fnum)) (neighborsList : list (list npt)) : res (list (list npt)) :=
  match fuel with
  | O => Err OutOfFuel
  | S fuel =>
      match pop_any (orc fuel) points with
      | None => Ok neighborsList
      | Some (p, rest) =>
          let* s := nc_inner inner_fuel (NC [p] rest (<[n_xy p := None]> lookup) [p]) in
          nc_outer fuel inner_fuel orc (nc_points s) (nc_lookup s) (neighborsList ++ [nc_nbrs s])
      end
  end.

(** contiguous_neighbors.py:31-34 *)
Definition nc_init_lookup (points : list npt) : gmap xy (option fnum) :=
  foldl (fun l p => <[n_xy p := Some p.2]> l) ∅ points.

(** contiguous_neighbors.py:17-60; [pset] is the set of the points in the order in
    which line 33 iterates it. *)
Definition nc_groups (orc : nat -> nat) (pset : list npt) : res (list (list npt)) :=
  nc_outer (S (length pset)) (S (length pset)) orc pset (nc_init_lookup pset) [].

(** ** tuple_funcs.py:11-26 [highest] *)
Fixpoint n_highest_loop (high : fnum) (acc : list npt) (points : list npt) : list npt :=
  match points with
  | [] => acc
  | g :: points =>
      if n_lt high g.2 then n_highest_loop g.2 [g] points
      else if n_eq g.2 high then n_highest_loop high (acc ++ [g]) points
      else n_highest_loop high acc points
  end.
Definition n_highest (points : list npt) : res (list npt) :=
  match points with
  | [] => Err IndexError
  | p :: _ => Ok (n_highest_loop p.2 [] points)
  end.

(** feature_discovery.py:320-323 *)
Fixpoint n_lower_groups (elevation : fnum) (gs : list (list npt)) : res (list (list npt)) :=
  match gs with
  | [] => Ok []
  | g :: gs =>
      let* h := n_highest g in
      match h with
      | [] => Err IndexError
      | p :: _ =>
          let* rest := n_lower_groups elevation gs in
          Ok (if n_lt p.2 elevation then g :: rest else rest)
      end
  end.

(** Local variables of equalHeightBlob, as in [blob_state]. *)
Record nblob_state := NB {
  nb_explored : gset xy;
  nb_members : list xy;
  nb_hash : gmap xy pte;
  nb_perim : list pte;
  nb_stack : list xy;
  nb_map_edge : list npt;
  nb_mp_edges : list npt;
  nb_edge : bool }.

Record nblob := NBlob {
  nbl_points : list xy;
  nbl_perimeter : list pte;
  nbl_map_edge : bool;
  nbl_map_edge_points : list npt;
  nbl_edge_points : list npt }.

Section nan.
  (** The raster: [m] gives its shape, its numbers and its slopes (its field
      [dm_nodata] is not read), [nan] the cells that hold NaN, [nodata] the value
      that marks missing cells. *)
  Variable m : datamap.
  Variable nan : xy -> bool.
  Variable nodata : fnum.

  (** [float(self.numpy_array[q])], read while the loop is at [c] *)
  Definition n_read (c q : xy) : fnum := if nan q then NaN (Some c) else Num (dm_cell m q.1 q.2).

  (** base_datamap.py:55-70.  Simplification: the read is guarded by
      [coord_inbounds], so numpy's indexing is left out. *)
  Definition n_iterateFull (c : xy) : list (xy * fnum) :=
    map (fun d : Z * Z =>
           let q := (c.1 + d.1, c.2 + d.2) in
           (q, if coord_inbounds m q.1 q.2 then n_read c q else nodata)) FULL_SHIFT_LIST.

  (** base_datamap.py:106-127; a NaN elevation is not below the cell's and makes
      the slope NaN, which does not exceed anything. *)
  Fixpoint n_steepest_loop (c : xy) (pe : fnum) (ns : list (xy * fnum)) (best : option (npt * Q)) :
      res (option (npt * Q)) :=
    match ns with
    | [] => Ok best
    | (q, e) :: rest =>
        if n_lt e pe then n_steepest_loop c pe rest best
        else
          match pe, e with
          | Num zp, Num ze =>
              let* s := dm_slope m (c.1 - q.1) (c.2 - q.2) zp ze in
              let better :=
                match best with
                | None => Qle_bool 0 s
                | Some (_, s0) => negb (Qle_bool s s0)
                end in
              if better then n_steepest_loop c pe rest (Some ((q, e), s)) else n_steepest_loop c pe rest best
          | _, _ => n_steepest_loop c pe rest best
          end
    end.
  Definition n_steepestNeighbor (c : xy) : res (option npt) :=
    let* r := n_steepest_loop c (n_read c c) (n_iterateFull c) None in
    Ok (fst <$> r).

  (** equalheight.py:66-83; [c] is the member whose neighbours are read. *)
  Definition n_blob_visit (c : xy) (master : Z) (n : xy * fnum) (s : nblob_state) : nblob_state :=
    let q := n.1 in
    let v := n.2 in
    if n_eq v nodata then s
    else if n_eq v (Num master) && negb (bool_decide (q ∈ nb_explored s)) then
      NB ({[q]} ∪ nb_explored s) (nb_members s ++ [q]) (nb_hash s) (nb_perim s)
         (q :: nb_stack s) (nb_map_edge s)
         (if is_map_edge m q.1 q.2 then nb_mp_edges s ++ [(q, v)] else nb_mp_edges s)
         (nb_edge s)
    else if negb (n_eq v (Num master)) then
      match nb_hash s !! q with
      | Some _ => s
      | None =>
          NB (nb_explored s) (nb_members s)
             (match v with Num z => if master <? z then <[q := (q, z)]> (nb_hash s) else nb_hash s | NaN _ => nb_hash s end)
             (match v with Num z => if master <? z then nb_perim s ++ [(q, z)] else nb_perim s | NaN _ => nb_perim s end)
             (nb_stack s)
             (if is_map_edge m q.1 q.2 then n_set_add (q, v) (nb_map_edge s) else nb_map_edge s)
             (nb_mp_edges s) (nb_edge s)
      end
    else s.

  (** equalheight.py:58-83 *)
  Fixpoint n_blob_loop (fuel : nat) (master : Z) (s : nblob_state) : res nblob_state :=
    match fuel with
    | O => Err OutOfFuel
    | S fuel =>
        match nb_stack s with
        | [] => Ok s
        | g :: st =>
            let s1 := NB (nb_explored s) (nb_members s) (nb_hash s) (nb_perim s) st (nb_map_edge s)
                         (nb_mp_edges s) (nb_edge s || is_map_edge m g.1 g.2) in
            n_blob_loop fuel master (foldl (fun s n => n_blob_visit g master n s) s1 (n_iterateFull g))
        end
    end.

  (** equalheight.py:24-97 *)
  Definition n_equalHeightBlob (q : xy) (elevation : Z) : res nblob :=
    let start := NB {[q]} [q] ∅ [] [q] []
                    (if is_map_edge m q.1 q.2 then [(q, Num elevation)] else []) false in
    let* s := n_blob_loop (blob_fuel m) elevation start in
    Ok (NBlob (nb_members s) (nb_perim s) (nb_edge s) (nb_map_edge s) (nb_mp_edges s)).

  (** The order in which line 33 of contiguous_neighbors.py iterates the set of
      border cells grouped while the scan is at [c]. *)
  Variable enum : xy -> list npt -> list npt.
  (** [set.pop], as in [Analyze_model]. *)
  Variable orc : xy -> nat -> nat -> nat.
  (** feature_discovery.py:325-434 for a border area at elevation [z] with higher
      cells: what the code does once the lower groups of border cells are known.
      It is left open. *)
  Variable border_rest : xy -> xy -> Z -> list (list npt) -> list mpoint -> list npt -> list (list pte) -> res (list nfeature).

  (** feature_discovery.py:214-323: without higher cells there is a summit, on the
      border also a runoff; off the border there is a saddle if the higher cells
      are in two pieces.  [cell] is the cell the scan is at. *)
  Definition n_consolidatedFeatureLogic (cell pos : xy) (elevation : fnum) (perimeter : list pte)
      (map_edge_points : list npt) (multi : list mpoint) (edge : bool) (edge_points : list npt) :
      res (list nfeature) :=
    let* hp := contiguous_neighbors (orc cell 0%nat)
                 (filter (fun p => n_lt elevation (Num (pt_e p)) = true) perimeter) in
    match hp, elevation with
    | [], _ =>
        Ok (NFeat KSummit pos elevation multi edge edge_points [] ::
            if edge then [NFeat KRunoff pos elevation multi true edge_points []] else [])
    | _ :: _, e =>
        if edge then
          let* groups := nc_groups (orc cell 1%nat) (enum cell map_edge_points) in
          let* lower := n_lower_groups e groups in
          match e with
          | Num z => border_rest cell pos z lower multi edge_points hp
          | NaN _ => Err OtherError (* not reached: nothing is higher than NaN *)
          end
        else Ok (if Nat.ltb 1 (length hp) then [NFeat KSaddle pos e multi false edge_points hp] else [])
    end.

  (** feature_discovery.py:188-205 *)
  Fixpoint n_scan_neighbors (elevation : fnum) (ns : list (xy * fnum)) (perim : list pte) (medge : list npt) :
      (xy * Z) + (list pte * list npt) :=
    match ns with
    | [] => inr (perim, medge)
    | (q, v) :: ns =>
        if n_eq v nodata then n_scan_neighbors elevation ns perim medge
        else
          match v, n_eq v elevation with
          | Num z, true => inl (q, z)
          | _, _ =>
              n_scan_neighbors elevation ns
                (match v with Num z => if n_lt elevation v then perim ++ [(q, z)] else perim | NaN _ => perim end)
                (if is_map_edge m q.1 q.2 then n_set_add (q, v) medge else medge)
          end
    end.

  (** feature_discovery.py:135-212 *)
  Definition n_summit_and_saddle (visited : gset xy) (elevation : fnum) (c : xy) :
      res (list nfeature * gset xy) :=
    if decide (c ∈ visited) then Ok ([], visited)
    else
      let edge := is_map_edge m c.1 c.2 in
      let edge_points := if edge then [(c, elevation)] else [] in
      match n_scan_neighbors elevation (n_iterateFull c) [] [] with
      | inl (q, z) =>
          let* b := n_equalHeightBlob q z in
          let* r := n_consolidatedFeatureLogic c q elevation (nbl_perimeter b) (nbl_map_edge_points b)
                      (map (fun p => (p, None)) (nbl_points b)) (nbl_map_edge b) (nbl_edge_points b) in
          Ok (r, list_to_set (nbl_points b) ∪ visited)
      | inr (perim, medge) =>
          let* r := n_consolidatedFeatureLogic c c elevation perim medge [] edge edge_points in
          Ok (r, visited)
      end.

  (** feature_discovery.py:104-129, one step of the scan. *)
  Definition n_analyze_cell (c : xy) (s : list nfeature * gset xy) : res (list nfeature * gset xy) :=
    let elevation := n_read c c in
    if n_eq elevation nodata then Ok s
    else
      let* (r, visited) := n_summit_and_saddle s.2 elevation c in
      Ok (s.1 ++ r, visited).

  (** feature_discovery.py:87-133: all results in discovery order. *)
  Definition n_analyze_all : res (list nfeature) :=
    let* s := foldM n_analyze_cell (nditer_cells m) ([], ∅) in
    Ok s.1.
End nan.
