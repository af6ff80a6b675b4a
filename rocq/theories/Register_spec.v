(** Independent description of registering a link at its ends. *)
From Verif Require Import Graph_model Region_spec.

(** Two links whose ends count as equal. *)
Definition link_alike (m : datamap) (w : world) (k j : nat) : Prop :=
  exists a b, w_links w !! k = Some a /\ w_links w !! j = Some b /\
    summit_alike m w (ln_summit a) (ln_summit b) /\ saddle_alike m w (ln_saddle a) (ln_saddle b).
(** The list [new] is the list [old] of links after [k] was registered: [k] is
    last, unless copies are ignored and there was one. *)
Definition registered (m : datamap) (w : world) (ignore : bool) (k : nat) (old new : list nat) : Prop :=
  let copy := exists j, j ∈ old /\ link_alike m w k j in
  (ignore = true /\ copy -> new = old) /\ (~ (ignore = true /\ copy) -> new = old ++ [k]).
