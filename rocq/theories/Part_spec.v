(** What a walk from chosen saddles leaves alone. *)
From Verif Require Import Walk_model.
Local Open Scope nat_scope.

(** The saddles of [w] that are not in the list [given] are the same in [w'],
    objects are only added, and the summits are where they were. *)
Definition others_kept (given : list nat) (w w' : world) : Prop :=
  (forall j, j < length (w_saddles w) -> j ∉ given -> w_saddles w' !! j = w_saddles w !! j) /\
  length (w_saddles w) <= length (w_saddles w') /\
  (forall a, su_feat <$> (w_summits w' !! a) = su_feat <$> (w_summits w !! a)).
