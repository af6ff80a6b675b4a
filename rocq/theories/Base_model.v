(** Shared vocabulary of the model: Python exceptions as values, the error
    monad, raster coordinates and the two Python container primitives whose
    behaviour is not determined by the source text ([set.pop]). *)
From stdpp Require Export prelude list gmap.
From Coq Require Export ZArith QArith Qround Lia.
Global Open Scope Z_scope.

(** Exceptions that the modelled code can raise.  [OutOfFuel] is not a Python
    exception: it marks a loop model that used up its fuel. *)
Inductive exn :=
  | KeyError | IndexError | AttributeError | TypeError | ValueError
  | ZeroDivisionError | NoPathError | OtherError | OutOfFuel.
Global Instance exn_eq_dec : EqDecision exn.
Proof. solve_decision. Defined.

(** Result of a Python call: a value or a raised exception. *)
Inductive res (A : Type) :=
  | Ok (a : A)
  | Err (e : exn).
Global Arguments Ok {A} _.
Global Arguments Err {A} _.

Definition rbind {A B} (r : res A) (k : A -> res B) : res B :=
  match r with Ok a => k a | Err e => Err e end.
Notation "'let*' x ':=' e 'in' k" := (rbind e (fun x => k))
  (at level 200, x pattern, e at level 100, k at level 200, right associativity).

(** A Python [for] loop whose body may raise. *)
Fixpoint foldM {A S} (f : A -> S -> res S) (l : list A) (s : S) : res S :=
  match l with
  | [] => Ok s
  | a :: l => let* s' := f a s in foldM f l s'
  end.

(** [(x, y)] tuples: numpy row and column. *)
Notation xy := (Z * Z)%type.
(** [(x, y, elevation)] tuples. *)
Notation pte := (Z * Z * Z)%type.
Definition pt_xy (p : pte) : xy := p.1.
Definition pt_x (p : pte) : Z := p.1.1.
Definition pt_y (p : pte) : Z := p.1.2.
Definition pt_e (p : pte) : Z := p.2.

(** [set.pop()] on a set enumerated as a duplicate-free list: an arbitrary
    element is removed.  Which one is decided by the number [k] supplied by an
    oracle; every choice is reachable since [k] is reduced modulo the length. *)
Definition pop_any {A} (k : nat) (l : list A) : option (A * list A) :=
  let i := (k mod length l)%nat in
  match l !! i with
  | Some a => Some (a, delete i l)
  | None => None
  end.
