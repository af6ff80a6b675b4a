(** Model of /repo/pyprom/feature_discovery.py and of
    /repo/pyprom/lib/logic/shortest_path_by_points.py:21-66. *)
From Verif Require Export Blob_model.

(** The class of a discovered object (locations/summit.py, saddle.py,
    runoff.py). *)
Inductive kind := KSummit | KSaddle | KRunoff.
Global Instance kind_eq_dec : EqDecision kind.
Proof. solve_decision. Defined.

(** A member of a MultiPoint's [points] list.  Flat cells are 2-tuples
    ([None]); high_perimeter_neighborhood_shortest_path also puts 3-tuples with
    an elevation ([Some e]) into the same list. *)
Notation mpoint := (xy * option Z)%type.

(** Constructor arguments of Summit/Saddle/Runoff used by feature discovery.
    The constructors receive the latitude/longitude of [ft_pos]
    ([ft_latlon] below).  [ft_multi] is [multipoint.points], [] when the
    feature is a single cell.  Ids and the perimeter kept by a MultiPoint are
    not represented. *)
Record feature := Feat {
  ft_kind : kind;
  ft_pos : xy;
  ft_ele : Z;
  ft_multi : list mpoint;
  ft_edge : bool;
  ft_edgepts : list pte;
  ft_hpn : list (list pte) }.

Definition ft_latlon (m : datamap) (f : feature) : Q * Q :=
  xy_to_latlon m (ft_pos f).1 (ft_pos f).2.

Section analyze.
  (** [fp m pts a b] is the total cost of dijkstar's shortest path from [a] to
      [b] in the graph that joins touching cells of [pts] with the map
      distance; [None] is NoPathError.  Costs are only compared, and finitely
      many reals embed in [Q] with their order. *)
  Variable fp : datamap -> list xy -> xy -> xy -> option Q.
  (** [orc p k i] decides the i-th [set.pop] of the k-th grouping made while
      the scan is at cell [p]. *)
  Variable orc : xy -> nat -> nat -> nat.
  Variable m : datamap.

  (** shortest_path_by_points.py:54-63, the search loop; [best] is
      [shortest_length] (end node and cost). *)
  Fixpoint hp_search (pts : list xy) (start : xy) (ths : list pte)
      (best : option (pte * Q)) : res (option (pte * Q)) :=
    match ths with
    | [] => Ok best
    | t :: ths =>
        match fp m pts start (pt_xy t) with
        | None => Err NoPathError
        | Some c =>
            let best' :=
              match best with
              | None => Some (t, c)
              | Some (b, c0) => if Qle_bool c0 c then Some (b, c0) else Some (t, c)
              end in
            hp_search pts start ths best'
        end
    end.

  (** shortest_path_by_points.py:21-66.  The list argument is extended in
      place, so the new list is returned too.  The loop variable [point] of
      line 45 shadows the parameter, so the search starts at the last element of
      the extended list. *)
  Definition high_perimeter_neighborhood_shortest_path (point : pte)
      (flat_area_points : list mpoint) (hpn : list (list pte)) :
      res (pte * list mpoint) :=
    let pts := flat_area_points ++ map (fun z : pte => (pt_xy z, Some (pt_e z))) (concat hpn) in
    let start := match last pts with Some p => p.1 | None => pt_xy point end in
    let* best := hp_search (map fst pts) start (concat hpn) None in
    match best with
    | None => Err AttributeError
    | Some (z, _) => Ok (z, pts)
    end.

  (** [list.remove] *)
  Fixpoint py_remove (a : pte) (l : list pte) : res (list pte) :=
    match l with
    | [] => Err ValueError
    | b :: l => if decide (b = a) then Ok l else let* l' := py_remove a l in Ok (b :: l')
    end.

  (** Locals of the runoff loop, feature_discovery.py:366-402. *)
  Record edge_state := ES {
    es_feats : list feature;
    es_multi : list mpoint;
    es_remaining : list pte;
    es_runoff_nbhds : nat }.

  (** feature_discovery.py:370-402, one entry of [touching.items()]. *)
  Definition runoff_step (elevation : Z) (edge_nbhds hp : list (list pte))
      (kv : Z * list Z) (s : edge_state) : res edge_state :=
    if Z.of_nat (length edge_nbhds) - 1 <? kv.1 then Ok s
    else if negb (Nat.eqb (length kv.2) 2) then Ok s
    else
      match edge_nbhds !! Z.to_nat kv.1 with
      | None => Err IndexError
      | Some nb =>
          match nb !! (length nb `div` 2)%nat with
          | None => Err IndexError
          | Some mid =>
              let* (hs, multi) :=
                (if decide (es_multi s = []) then Ok (hp, es_multi s)
                 else
                   let* (z, multi) :=
                     high_perimeter_neighborhood_shortest_path mid (es_multi s) hp in
                   Ok ([[z]], multi)) in
              let r := Feat KRunoff (pt_xy mid) elevation [] true nb hs in
              let* remaining := foldM py_remove nb (es_remaining s) in
              Ok (ES (es_feats s ++ [r]) multi remaining (S (es_runoff_nbhds s)))
          end
      end.

  (** feature_discovery.py:320-323: the groups all of whose points are lower. *)
  Fixpoint lower_groups (elevation : Z) (gs : list (list pte)) : res (list (list pte)) :=
    match gs with
    | [] => Ok []
    | g :: gs =>
        let* h := highest g in
        match h with
        | [] => Err IndexError
        | p :: _ =>
            let* rest := lower_groups elevation gs in
            Ok (if pt_e p <? elevation then g :: rest else rest)
        end
    end.

  (** feature_discovery.py:274-434.  [cell] is the cell the scan is at. *)
  Definition edge_feature_analysis (cell : xy) (x y elevation : Z) (map_edge_points : list pte)
      (multi : list mpoint) (edge : bool) (edge_points : list pte) (hp : list (list pte)) :
      res (list feature) :=
    if negb edge then Ok []
    else
      match hp with
      | [] => Ok [Feat KRunoff (x, y) elevation multi true edge_points hp]
      | _ :: _ =>
          let* map_edge_nbhds := contiguous_neighbors (orc cell 1%nat) map_edge_points in
          let* lower := lower_groups elevation map_edge_nbhds in
          if Nat.leb (length lower) 1 then
            Ok (if Nat.ltb 1 (length hp)
                then [Feat KSaddle (x, y) elevation multi edge edge_points hp] else [])
          else
            let* edge_nbhds := contiguous_neighbors (orc cell 2%nat) edge_points in
            let* touching := touching_neighborhoods m (edge_nbhds ++ lower) in
            let* s := foldM (runoff_step elevation edge_nbhds hp) touching
                        (ES [] multi edge_points 0%nat) in
            Ok (es_feats s ++
                if Nat.leb 2 (length hp) then
                  if Nat.eqb (es_runoff_nbhds s) (length edge_nbhds)
                  then [Feat KSaddle (x, y) elevation (es_multi s) false [] hp]
                  else [Feat KSaddle (x, y) elevation (es_multi s) edge (es_remaining s) hp]
                else [])
      end.

  (** containers/perimeter.py:116-128 *)
  Definition findHighPerimeter (points : list pte) (elevation : Z) : list pte :=
    filter (fun p => elevation < pt_e p) points.

  (** feature_discovery.py:214-270 with containers/perimeter.py:103-114. *)
  Definition consolidatedFeatureLogic (cell : xy) (x y elevation : Z)
      (perimeter map_edge_points : list pte) (multi : list mpoint) (edge : bool)
      (edge_points : list pte) : res (list feature) :=
    let* hp := contiguous_neighbors (orc cell 0%nat) (findHighPerimeter perimeter elevation) in
    let first :=
      match hp with
      | [] => [Feat KSummit (x, y) elevation multi edge edge_points []]
      | _ :: _ =>
          if Nat.ltb 1 (length hp) && negb edge
          then [Feat KSaddle (x, y) elevation multi edge edge_points hp] else []
      end in
    if edge then
      let* more := edge_feature_analysis cell x y elevation map_edge_points multi edge
                     edge_points hp in
      Ok (first ++ more)
    else Ok first.

  (** feature_discovery.py:135-156; also returns the cells marked visited. *)
  Definition analyze_multipoint (cell : xy) (x y elevation : Z) :
      res (list feature * list xy) :=
    let* b := equalHeightBlob m x y elevation in
    let* r := consolidatedFeatureLogic cell x y (bl_elevation b) (bl_perimeter b)
                (bl_map_edge_points b) (map (fun p => (p, None)) (bl_points b))
                (bl_map_edge b) (bl_edge_points b) in
    Ok (r, bl_points b).

  (** feature_discovery.py:188-205, the neighbour loop: stops at the first
      neighbour of equal elevation. *)
  Fixpoint scan_neighbors (elevation : Z) (ns : list (xy * option Z)) (perim medge : list pte) :
      (xy * Z) + (list pte * list pte) :=
    match ns with
    | [] => inr (perim, medge)
    | (q, v) :: ns =>
        if decide (v = dm_nodata m) then scan_neighbors elevation ns perim medge
        else
          match v with
          | None => scan_neighbors elevation ns perim medge
          | Some e =>
              if e =? elevation then inl (q, e)
              else
                scan_neighbors elevation ns
                  (if elevation <? e then perim ++ [(q, e)] else perim)
                  (if is_map_edge m q.1 q.2 then set_add (q, e) medge else medge)
          end
    end.

  (** feature_discovery.py:158-212 *)
  Definition summit_and_saddle (visited : gset xy) (elevation x y : Z) :
      res (list feature * gset xy) :=
    if decide ((x, y) ∈ visited) then Ok ([], visited)
    else
      let edge := is_map_edge m x y in
      let edge_points := if edge then [((x, y), elevation)] else [] in
      let* ns := iterateFull m x y in
      match scan_neighbors elevation ns [] [] with
      | inl (q, e) =>
          let* (r, pts) := analyze_multipoint (x, y) q.1 q.2 e in
          Ok (r, list_to_set pts ∪ visited)
      | inr (perim, medge) =>
          let* r := consolidatedFeatureLogic (x, y) x y elevation perim medge [] edge edge_points in
          Ok (r, visited)
      end.

  (** feature_discovery.py:104-129, one step of the scan. *)
  Definition analyze_cell (c : xy) (s : list feature * gset xy) :
      res (list feature * gset xy) :=
    let* elevation := np_read m c.1 c.2 in
    if decide (dm_nodata m = Some elevation) then Ok s
    else
      let* (r, visited) := summit_and_saddle s.2 elevation c.1 c.2 in
      Ok (s.1 ++ r, visited).

  (** numpy.nditer on a C-ordered array: row-major order. *)
  Definition nditer_cells : list xy :=
    x ← seqZ 0 (dm_max_x m + 1); y ← seqZ 0 (dm_max_y m + 1); [(x, y)].

  (** feature_discovery.py:87-133: all results in discovery order. *)
  Definition analyze_all : res (list feature) :=
    let* s := foldM analyze_cell nditer_cells ([], ∅) in
    Ok s.1.

  (** feature_discovery.py:118-126: the three containers. *)
  Definition analyze : res (list feature * list feature * list feature) :=
    let* l := analyze_all in
    Ok (filter (fun f => ft_kind f = KSummit) l,
        filter (fun f => ft_kind f = KSaddle) l,
        filter (fun f => ft_kind f = KRunoff) l).

  (** feature_discovery.py:436-460 *)
  Definition make_corner_runoff (x y : Z) : res feature :=
    let* e := dm_get m x y in
    Ok (Feat KRunoff (x, y) e [] true [((x, y), e)] []).
  Definition make_corner_runoffs : res (list feature) :=
    let* rll := make_corner_runoff (dm_max_x m) 0 in
    let* rlr := make_corner_runoff (dm_max_x m) (dm_max_y m) in
    let* rul := make_corner_runoff 0 0 in
    let* rur := make_corner_runoff 0 (dm_max_y m) in
    Ok [rll; rlr; rul; rur].

  (** feature_discovery.py:63-85 with [rebuildSaddles=False]. *)
  Definition run_no_rebuild : res (list feature * list feature * list feature) :=
    let* (summits, saddles, runoffs) := analyze in
    let* corners := make_corner_runoffs in
    Ok (summits, saddles, runoffs ++ corners).
End analyze.
