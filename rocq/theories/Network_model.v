(** Model of /repo/pyprom/lib/logic/internal_saddle_network.py, of
    /repo/pyprom/lib/containers/feature_verticies.py and of
    /repo/pyprom/lib/containers/saddles.py:42-115. *)
From Verif Require Export Closest_model.

(** locations/vertex_link.py with [remote_container] given by its index. *)
Record vlink := VL {
  vl_local : option pte;
  vl_remote : option pte;
  vl_d2 : Q;
  vl_to : nat }.

(** feature_verticies.py:44-66; [ignored] is the set of keys with a true value. *)
Definition shortest_link (ignored : gset nat) (links : list vlink) : option vlink :=
  (foldl (fun (s : option vlink * Q) l =>
     if decide (vl_to l ∈ ignored) then s
     else if Qlt_bool (vl_d2 l) s.2 then (Some l, vl_d2 l) else s)
   (None, maxsize2) links).1.

Section network.
  Variable near : searches.
  Variable m : datamap.

  (** internal_saddle_network.py:263-268 and 271-277: the link stored at node [i]
      towards node [j].  For i < j the call is
      [find_closest_points(hpn[j], hpn[i])] and its first component becomes the
      local end at [i]; at [j] the two ends are exchanged. *)
  Definition make_link (hpn : list (list pte)) (i j : nat) : res vlink :=
    match hpn !! i, hpn !! j with
    | Some gi, Some gj =>
        if Nat.ltb i j then
          let* c := s_pair near m gj gi in
          Ok (VL (cp_mine c) (cp_theirs c) (cp_d2 c) j)
        else
          let* c := s_pair near m gi gj in
          Ok (VL (cp_theirs c) (cp_mine c) (cp_d2 c) j)
    | _, _ => Err IndexError
    end.

  Fixpoint mapM_res {A B} (f : A -> res B) (l : list A) : res (list B) :=
    match l with
    | [] => Ok []
    | a :: l => let* b := f a in let* bs := mapM_res f l in Ok (b :: bs)
    end.

  (** internal_saddle_network.py:234-277.  Both dict levels are filled in
      increasing key order, so the links of node [i] go to 0, 1, ... in order.
      With fewer than two groups no dict entry exists and the lists are empty. *)
  Definition find_shortest_paths (hpn : list (list pte)) : res (list (list vlink)) :=
    mapM_res (fun i =>
      mapM_res (make_link hpn i) (filter (fun j => j <> i) (seq 0 (length hpn))))
      (seq 0 (length hpn)).

  (** Locals of treeExploration / build_internal_tree. *)
  Record tree_state := TS {
    ts_queue : list nat;
    ts_planned : gset nat;
    ts_explored : gset nat;
    ts_links : list vlink;
    ts_first : bool }.

  (** internal_saddle_network.py:83-102, one link of the explored node; the
      boolean is [gotOne]. *)
  Definition explore_link (nodes : list (list vlink)) (node : nat) (l : vlink)
      (sg : tree_state * bool) : tree_state * bool :=
    let s := sg.1 in
    if decide (vl_to l ∈ ts_explored s \/ vl_to l ∈ ts_planned s) then sg
    else
      match shortest_link (ts_explored s) (default [] (nodes !! vl_to l)) with
      | Some r =>
          if Nat.eqb (vl_to r) node
          then (TS (ts_queue s ++ [vl_to l]) ({[vl_to l]} ∪ ts_planned s) (ts_explored s)
                   (ts_links s ++ [l]) (ts_first s), true)
          else sg
      | None => sg
      end.

  (** internal_saddle_network.py:77-112, one iteration for the popped [node]. *)
  Definition explore_node (nodes : list (list vlink)) (node : nat) (rest : list nat)
      (s : tree_state) : res tree_state :=
    let s0 := TS rest (ts_planned s ∖ {[node]}) (ts_explored s) (ts_links s) (ts_first s) in
    let links := default [] (nodes !! node) in
    let sg := foldl (fun sg l => explore_link nodes node l sg) (s0, false) links in
    let s1 := sg.1 in
    let* s2 :=
      (if negb sg.2 && ts_first s1 then
         match shortest_link (ts_explored s1) links with
         | None => Err AttributeError
         | Some l => Ok (TS (ts_queue s1 ++ [vl_to l]) ({[vl_to l]} ∪ ts_planned s1)
                            (ts_explored s1) (ts_links s1 ++ [l]) (ts_first s1))
         end
       else Ok s1) in
    Ok (TS (ts_queue s2) (ts_planned s2) ({[node]} ∪ ts_explored s2) (ts_links s2) false).

  (** internal_saddle_network.py:51-113 *)
  Fixpoint treeExploration (fuel : nat) (nodes : list (list vlink)) (s : tree_state) : res tree_state :=
    match fuel with
    | O => Err OutOfFuel
    | S fuel =>
        match ts_queue s with
        | [] => Ok s
        | node :: rest =>
            let* s' := explore_node nodes node rest s in
            treeExploration fuel nodes s'
        end
    end.

  (** internal_saddle_network.py:162-171: the shortest link from an unexplored
      node to an explored one.  A missing link is an AttributeError. *)
  Definition bridge (nodes : list (list vlink)) (unexplored : list nat) :
      res (option (vlink * nat)) :=
    let* r := foldM (fun i (s : option (vlink * nat) * Q) =>
      match shortest_link (list_to_set unexplored) (default [] (nodes !! i)) with
      | None => Err AttributeError
      | Some l => Ok (if Qlt_bool (vl_d2 l) s.2 then (Some (l, i), vl_d2 l) else s)
      end) unexplored (None, maxsize2) in
    Ok r.1.

  (** internal_saddle_network.py:132-176 *)
  Fixpoint tree_loop (fuel : nat) (nodes : list (list vlink)) (s : tree_state) : res (list vlink) :=
    match fuel with
    | O => Err OutOfFuel
    | S fuel =>
        let* s := treeExploration (S (length nodes)) nodes s in
        if Nat.ltb (size (ts_explored s)) (length nodes) then
          let unexplored := filter (fun i => i ∉ ts_explored s) (seq 0 (length nodes)) in
          let* b := bridge nodes unexplored in
          match b with
          | None => Err AttributeError
          | Some (l, i) =>
              tree_loop fuel nodes
                (TS (ts_queue s ++ [i]) (ts_planned s) (ts_explored s) (ts_links s ++ [l]) (ts_first s))
          end
        else Ok (ts_links s)
    end.

  (** internal_saddle_network.py:115-176 *)
  Definition build_internal_tree (hpn : list (list pte)) : res (list vlink) :=
    let* nodes := find_shortest_paths hpn in
    match nodes with
    | [] => Err IndexError
    | _ => tree_loop (S (length nodes)) nodes (TS [0%nat] ∅ ∅ [] true)
    end.

  (** An element of the list returned by rebuildSaddles: an original saddle
      with its disqualified flag, or a new saddle; the boolean says whether it
      was entered as child of the original (and the original as its parent). *)
  Inductive rsaddle :=
    | Kept (f : feature) (disqualified : bool)
    | New (pos : xy) (ele : Z) (hpn : list (list pte)) (child_of : option feature).

  (** internal_saddle_network.py:207-231, one child saddle.
      [int(a + b) / 2] keeps halves. *)
  Definition child_saddle (f : feature) (l : vlink) : res rsaddle :=
    match vl_local l, vl_remote l with
    | Some a, Some b =>
        let mx := (inject_Z (pt_x a + pt_x b) / 2)%Q in
        let my := (inject_Z (pt_y a + pt_y b) / 2)%Q in
        let* pos := (if decide (ft_multi f = []) then Ok (ft_pos f)
                     else s_member near mx my (ft_multi f)) in
        Ok (New pos (ft_ele f) [[a]; [b]] (if ft_edge f then Some f else None))
    | _, _ => Err TypeError
    end.

  (** internal_saddle_network.py:178-232 *)
  Definition generate_child_saddles (f : feature) : res (list rsaddle) :=
    let* links := build_internal_tree (ft_hpn f) in
    mapM_res (child_saddle f) links.

  (** [int(x / 2)] for an integer [x]: truncation towards zero. *)
  Definition int_half (z : Z) : Z := Z.quot z 2.

  (** saddles.py:57-113, one saddle. *)
  Definition rebuild_one (f : feature) : res (list rsaddle) :=
    match ft_hpn f with
    | [] | [_] => Ok [Kept f false]
    | [g0; g1] =>
        let* h0 := highest g0 in
        let* h1 := highest g1 in
        let* pos :=
          (if decide (ft_multi f = []) then Ok (ft_pos f)
           else
             let* c := s_pair near m g0 g1 in
             match cp_mine c, cp_theirs c with
             | Some a, Some b =>
                 s_member near (inject_Z (int_half (pt_x a + pt_x b)))
                              (inject_Z (int_half (pt_y a + pt_y b))) (ft_multi f)
             | _, _ => Err TypeError
             end) in
        Ok (New pos (ft_ele f) [h0; h1] (if ft_edge f then Some f else None) ::
            if ft_edge f then [Kept f true] else [])
    | _ =>
        let* cs := generate_child_saddles f in
        Ok (cs ++ if ft_edge f then [Kept f true] else [])
    end.

  (** saddles.py:42-115 *)
  Definition rebuildSaddles (fs : list feature) : res (list rsaddle) :=
    let* l := mapM_res rebuild_one fs in
    Ok (concat l).
End network.

(** feature_discovery.py:63-85 with [rebuildSaddles=True]. *)
Definition run_rebuild (fp : datamap -> list xy -> xy -> xy -> option Q) (orc : xy -> nat -> nat -> nat)
    (near : searches) (m : datamap) :
    res (list feature * list rsaddle * list feature) :=
  let* (summits, saddles, runoffs) := run_no_rebuild fp orc m in
  let* rebuilt := rebuildSaddles near m saddles in
  Ok (summits, rebuilt, runoffs).
