(** Independent vocabulary for list-like point collections. *)
From Verif Require Import Base_model Raster_model Points_model.
Local Open Scope Z_scope.

(** [q] is the last of the members at its place. *)
Definition last_member (l : list gpoint) (q : gpoint) : Prop :=
  exists l1 l2, l = l1 ++ q :: l2 /\ forall r, r ∈ l2 -> r.1 <> q.1.

(** [l'] is [l] with [v] at the position that Python calls [idx]: counted from
    the end if negative. *)
Definition replaced {A} (l : list A) (idx : Z) (v : A) (l' : list A) : Prop :=
  let n := Z.of_nat (length l) in
  - n <= idx < n /\ length l' = length l /\
  forall j : nat, l' !! j = if decide (Z.of_nat j = idx mod n) then Some v else l !! j.

(** The number pair or triple that a value stands for. *)
Definition a_pair (v : value) (t : list Z) : Prop :=
  exists x y, t = [x; y] /\ (v = VBase (x, y) \/ v = VTuple [x; y]).
Definition a_triple (v : value) (t : list Z) : Prop :=
  exists x y e, t = [x; y; e] /\ (v = VGrid ((x, y), e) \/ v = VTuple [x; y; e]).

(** What a history of appends puts at the end of the list. *)
Definition grid_points (l : list value) : list gpoint :=
  omap (fun v => match v with VGrid p => Some (p.1, Some p.2) | _ => None end) l.
