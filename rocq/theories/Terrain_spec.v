(** Independent description of connected ground. *)
From Verif Require Import Base_model Raster_model Raster_spec.
From Coq Require Import Qabs.
Local Open Scope Z_scope.

(** A data cell that is at least [e] high. *)
Definition high (m : datamap) (e : Z) (c : xy) : Prop := data_cell m c /\ e <= elev m c.
(** One can go from [a] to [b] over touching data cells without going below [e]. *)
Definition ground_joined (m : datamap) (e : Z) : xy -> xy -> Prop := linked adj8 (high m e).

(** Pixels are larger than a millionth of a degree, so that the centres of
    different cells are different after rounding to six digits. *)
Definition fine_grid (m : datamap) : Prop :=
  (1 # 1000000 < Qabs (gt1 (dm_gt m)))%Q /\ (1 # 1000000 < Qabs (gt5 (dm_gt m)))%Q.
