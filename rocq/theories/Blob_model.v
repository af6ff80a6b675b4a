(** Model of /repo/pyprom/lib/logic/equalheight.py. *)
From Verif Require Export Contig_model.

(** Local variables of equalHeightBlob (equalheight.py:41-57).  [bs_stack] is
    [toBeAnalyzed] with its top first; [bs_map_edge] is the set
    [perimeterMapEdge] enumerated in insertion order. *)
Record blob_state := BS {
  bs_explored : gset xy;
  bs_members : list xy;
  bs_hash : gmap xy pte;
  bs_perim : list pte;
  bs_stack : list pte;
  bs_map_edge : list pte;
  bs_mp_edges : list pte;
  bs_edge : bool }.

(** [set.add] on an enumerated set. *)
Definition set_add {A} `{EqDecision A} (a : A) (l : list A) : list A :=
  if decide (a ∈ l) then l else l ++ [a].

(** equalheight.py:66-83, one neighbour. *)
Definition blob_visit (m : datamap) (master : Z) (n : xy * option Z) (s : blob_state) :
    blob_state :=
  let q := n.1 in
  match n.2 with
  | None => s
  | Some e =>
      if decide (dm_nodata m = Some e) then s
      else if (e =? master) && negb (bool_decide (q ∈ bs_explored s)) then
        BS ({[q]} ∪ bs_explored s) (bs_members s ++ [q]) (bs_hash s) (bs_perim s)
           ((q, e) :: bs_stack s) (bs_map_edge s)
           (if is_map_edge m q.1 q.2 then bs_mp_edges s ++ [(q, e)] else bs_mp_edges s)
           (bs_edge s)
      else if negb (e =? master) then
        match bs_hash s !! q with
        | Some _ => s
        | None =>
            let higher := master <? e in
            BS (bs_explored s) (bs_members s)
               (if higher then <[q := (q, e)]> (bs_hash s) else bs_hash s)
               (if higher then bs_perim s ++ [(q, e)] else bs_perim s)
               (bs_stack s)
               (if is_map_edge m q.1 q.2 then set_add (q, e) (bs_map_edge s)
                else bs_map_edge s)
               (bs_mp_edges s) (bs_edge s)
        end
      else s
  end.

(** equalheight.py:58-83, [while toBeAnalyzed]. *)
Fixpoint blob_loop (fuel : nat) (m : datamap) (master : Z) (s : blob_state) :
    res blob_state :=
  match fuel with
  | O => Err OutOfFuel
  | S fuel =>
      match bs_stack s with
      | [] => Ok s
      | g :: st =>
          let* ns := iterateFull m (pt_x g) (pt_y g) in
          let s1 := BS (bs_explored s) (bs_members s) (bs_hash s) (bs_perim s) st
                       (bs_map_edge s) (bs_mp_edges s)
                       (bs_edge s || is_map_edge m (pt_x g) (pt_y g)) in
          blob_loop fuel m master (foldl (fun s n => blob_visit m master n s) s1 ns)
      end
  end.

(** The returned MultiPoint with its Perimeter, and the edge points
    (equalheight.py:84-97). *)
Record blob := Blob {
  bl_points : list xy;
  bl_elevation : Z;
  bl_perimeter : list pte;
  bl_map_edge : bool;
  bl_map_edge_points : list pte;
  bl_edge_points : list pte }.

Definition blob_fuel (m : datamap) : nat :=
  S (Z.to_nat ((dm_max_x m + 1) * (dm_max_y m + 1))).

(** equalheight.py:24-97 *)
Definition equalHeightBlob (m : datamap) (x y elevation : Z) : res blob :=
  let start := BS {[(x, y)]} [(x, y)] ∅ [] [((x, y), elevation)] []
                  (if is_map_edge m x y then [((x, y), elevation)] else []) false in
  let* s := blob_loop (blob_fuel m) m elevation start in
  Ok (Blob (bs_members s) elevation (bs_perim s) (bs_edge s) (bs_map_edge s)
           (bs_mp_edges s)).
