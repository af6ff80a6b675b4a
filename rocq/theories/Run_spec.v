(** Independent description of the whole analysis. *)
From Verif Require Import Base_model Graph_model Graph_spec Basin_spec.

(** Of two listed saddles at the same place that lead to the same summit,
    neither is a child of a border saddle. *)
Definition border_apart (m : datamap) (w : world) (saddles : list nat) : Prop :=
  forall i j x, i ∈ saddles -> j ∈ saddles -> is_Some (parent_of w i) ->
    x ∈ summits_of w i -> x ∈ summits_of w j -> saddle_same m w i j = true -> i = j.
