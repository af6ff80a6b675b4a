(** Names for examples of saved maps. *)
From Verif Require Import Base_model Persist_model Store_model Store_spec.
From Coq Require Import String Ascii.
Local Open Scope nat_scope.

(** A letter followed by strokes. *)
Fixpoint strokes (n : nat) : string :=
  match n with
  | O => ""
  | S n => "i" ++ strokes n
  end%string.
Definition name_with (a : ascii) (n : nat) : string := String a (strokes n).
Lemma strokes_inj n : forall k, strokes n = strokes k -> n = k.
Proof. induction n as [|n IH]; intros [|k]; try done. cbn. intros [= E]. f_equal. by apply IH. Qed.
Lemma name_with_good a : naming (name_with a).
Proof. split; [|done]. intros i j [= E]. by apply strokes_inj. Qed.

(** A perimeter without points. *)
Definition no_rim (f : feature) : perimeter * bool * list pte := (Perimeter [] None, false, []).
Definition store_as (m : datamap) := store m (name_with "a") (name_with "s") (name_with "k") no_rim.
