(** Spanning trees of the complete graph on the nodes 0 .. n-1, independent of
    the code. *)
From stdpp Require Import prelude.
From Coq Require Import QArith.

(** Two nodes are joined by a chain of edges, in either direction. *)
Definition joined {A} (es : list (A * A)) : A -> A -> Prop := rtsc (fun a b => (a, b) ∈ es).

(** A connected graph on n nodes with n - 1 edges. *)
Definition spanning_tree (n : nat) (es : list (nat * nat)) : Prop :=
  S (length es) = n /\
  (forall a b, (a, b) ∈ es -> (a < n)%nat /\ (b < n)%nat) /\
  (forall a b, (a < n)%nat -> (b < n)%nat -> joined es a b).

(** After a suitable matching every member of [xs] is at most its partner in [ys]. *)
Definition dominated {A B} (le : A -> B -> Prop) (xs : list A) (ys : list B) : Prop :=
  exists ys', ys ≡ₚ ys' /\ Forall2 le xs ys'.
