(** Independent description of pseudo-summits. *)
From Verif Require Import Pseudo_model.
Local Open Scope Z_scope.

(** Two different places of the grid that touch, also at a corner. *)
Definition touching (a b : xy) : Prop := a <> b /\ Z.abs (a.1 - b.1) <= 1 /\ Z.abs (a.2 - b.2) <= 1.

(** [q] can be reached from [p] through touching members of equal elevation. *)
Inductive same_flat (l : list pte) (p : pte) : pte -> Prop :=
  | flat_here : p ∈ l -> same_flat l p p
  | flat_step q r : same_flat l p q -> r ∈ l -> touching q.1 r.1 -> r.2 = p.2 -> same_flat l p r.

(** No member that touches [p] is higher. *)
Definition no_higher (l : list pte) (p : pte) : Prop :=
  forall q, q ∈ l -> touching p.1 q.1 -> q.2 <= p.2.
(** [p] is on a flat area of the container without higher surroundings. *)
Definition pseudo_summit (l : list pte) (p : pte) : Prop :=
  p ∈ l /\ forall q, same_flat l p q -> no_higher l q.
