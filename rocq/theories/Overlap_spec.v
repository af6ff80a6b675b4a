(** Independent description of two tiles of one raster. *)
From Verif Require Import Base_model Raster_model Analyze_model Tile_spec Feature_spec.
Local Open Scope Z_scope.

(** The offset of the second tile from the first. *)
Definition offset (o1 o2 : xy) : xy := (o2.1 - o1.1, o2.2 - o1.2).

(** The feature of the first tile lies in the second tile too and does not touch
    its border. *)
Definition inside_other (o1 o2 : xy) (t2 : datamap) (f : feature) : Prop :=
  forall c, covers f c -> inner_cell t2 (shift (offset o2 o1) c).
