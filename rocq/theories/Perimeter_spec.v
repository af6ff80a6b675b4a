(** Independent vocabulary for point collections. *)
From Verif Require Import Raster_model.

(** [q] is the last of the points at its position. *)
Definition last_at (points : list pte) (q : pte) : Prop :=
  exists l1 l2, points = l1 ++ q :: l2 /\ Forall (fun r => pt_xy r <> pt_xy q) l2.
