(** Independent description of what a loaded map has in common with the analysis. *)
From Verif Require Import Base_model Graph_model Graph_spec Basin_spec.

(** No two listed saddles at the same place lead to the same summit. *)
Definition ends_apart (m : datamap) (w : world) (saddles : list nat) : Prop :=
  forall i j x, i ∈ saddles -> j ∈ saddles -> x ∈ summits_of w i -> x ∈ summits_of w j ->
    saddle_same m w i j = true -> i = j.
