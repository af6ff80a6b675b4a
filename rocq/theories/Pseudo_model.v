(** Model of the search for pseudo-summits in a container of grid points:
    /repo/pyprom/lib/containers/gridpoint.py:107-233.  A grid point is a triple
    (x, y, elevation). *)
From Verif Require Export Graph_model.
Local Open Scope Z_scope.

(** gridpoint.py:107-114 [genFastLookup]: a later point replaces an earlier one
    at the same place. *)
Definition gp_index (l : list pte) : gmap xy pte := foldl (fun t p => <[p.1 := p]> t) ∅ l.

(** gridpoint.py:128-129 *)
Definition gp_shifts : list xy := [(-1,0); (-1,1); (0,1); (1,1); (1,0); (1,-1); (0,-1); (-1,-1)].
(** gridpoint.py:116-136 [iterNeighborFull].  The index is never empty when it is
    called with a member. *)
Definition gp_neighbors (t : gmap xy pte) (p : pte) : list pte :=
  omap (fun s : xy => t !! (p.1.1 + s.1, p.1.2 + s.2)) gp_shifts.

(** gridpoint.py:195-206, the neighbour loop of [equalHeightBlob]: the new stack
    (top first), or [None] for [return None]. *)
Fixpoint blob_neighbors (e : Z) (explored : gset xy) (ns : list pte) (stack : list pte) : option (list pte) :=
  match ns with
  | [] => Some stack
  | n :: ns' =>
      if decide (n.1 ∈ explored) then blob_neighbors e explored ns' stack
      else
        let stack' := if n.2 =? e then n :: stack else stack in
        if e <? n.2 then None else blob_neighbors e explored ns' stack'
  end.

(** gridpoint.py:178-208 [equalHeightBlob]; the set of explored places is updated
    also when the result is None. *)
Fixpoint blob (t : gmap xy pte) (fuel : nat) (stack analyzed : list pte) (explored : gset xy)
    : res (option (list pte) * gset xy) :=
  match fuel with
  | O => Err OutOfFuel
  | S fuel =>
      match stack with
      | [] => Ok (Some analyzed, explored)
      | g :: stack =>
          let explored := {[g.1]} ∪ explored in
          let analyzed := analyzed ++ [g] in
          match blob_neighbors g.2 explored (gp_neighbors t g) stack with
          | None => Ok (None, explored)
          | Some stack => blob t fuel stack analyzed explored
          end
      end
  end.
(** The number of steps of [blob] for a container of [n] points. *)
Definition blob_fuel (n : nat) : nat := 17 * n + 2.

(** gridpoint.py:218-229, the neighbour loop for one point [p]: the value of
    [skip], the new pseudo-summits and the explored places. *)
Fixpoint main_neighbors (t : gmap xy pte) (fuel : nat) (p : pte) (ns : list pte) (found : list pte) (explored : gset xy)
    : res (bool * list pte * gset xy) :=
  match ns with
  | [] => Ok (false, found, explored)
  | n :: ns' =>
      if n.2 =? p.2 then
        let* r := blob t fuel [p] [] explored in
        match r.1 with
        | Some (x :: l) => Ok (true, found ++ x :: l, r.2)
        | _ => main_neighbors t fuel p ns' found r.2
        end
      else if p.2 <? n.2 then Ok (true, found, explored)
      else main_neighbors t fuel p ns' found explored
  end.

(** gridpoint.py:210-232, the main loop *)
Fixpoint pseudo_loop (t : gmap xy pte) (fuel : nat) (l : list pte) (found : list pte) (explored : gset xy) : res (list pte) :=
  match l with
  | [] => Ok found
  | p :: l' =>
      if decide (p.1 ∈ explored) then pseudo_loop t fuel l' found explored
      else
        let* r := main_neighbors t fuel p (gp_neighbors t p) found ({[p.1]} ∪ explored) in
        let found := if r.1.1 then r.1.2 else r.1.2 ++ [p] in
        pseudo_loop t fuel l' found r.2
  end.
(** gridpoint.py:159-233 [findPseudoSummits] *)
Definition find_pseudo_summits (l : list pte) : res (list pte) :=
  pseudo_loop (gp_index l) (blob_fuel (length l)) l [] ∅.
