(** Independent description of the utilities. *)
From Verif Require Import Util_model.
Local Open Scope Z_scope.

(** The number a degrees/minutes/seconds triple stands for, for non-negative
    degrees. *)
Definition dms_value (d m : Z) (s : Q) : Q := (inject_Z d + inject_Z m * (1 # 60) + s * (1 # 3600))%Q.

(** No two neighbouring characters are equal. *)
Fixpoint no_repeats (l : list ascii) : Prop :=
  match l with
  | a :: (b :: _) as l' => a <> b /\ no_repeats l'
  | _ => True
  end.
(** [k] is [l] with some repetitions of a character left out. *)
Inductive squeezed : list ascii -> list ascii -> Prop :=
  | sq_nil : squeezed [] []
  | sq_keep a l k : squeezed l k -> squeezed (a :: l) (a :: k)
  | sq_drop a l k : squeezed (a :: l) k -> squeezed (a :: a :: l) k.

(** What the last write to a place leaves there: [None] if there is no write. *)
Section writes.
  Context {K V : Type}.
  Definition writes (o : flop K V) : option (K * K * option V) :=
    match o with
    | FSet x y v => Some (x, y, v)
    | FRemove x y => Some (x, y, None)
    | FGet _ _ => None
    end.
  (** [v] is the last value written to (x, y). *)
  Definition last_write (x y : K) (ws : list (K * K * option V)) (v : option V) : Prop :=
    exists ws1 ws2, ws = ws1 ++ (x, y, v) :: ws2 /\ Forall (fun w => w.1 <> (x, y)) ws2.
  (** The first coordinates that have been mentioned. *)
  Definition first_coord (o : flop K V) : K := match o with FSet x _ _ | FGet x _ | FRemove x _ => x end.
End writes.
