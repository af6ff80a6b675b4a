(** Independent description of climbing in a part of a raster. *)
From Verif Require Import Base_model Climb_model Raster_spec Tile_spec.
Local Open Scope Z_scope.

(** No touching cell has the same elevation. *)
Definition untied (m : datamap) (c : xy) : Prop :=
  forall q, adj8 c q -> in_map m q -> elev m q <> elev m c.

(** The records of a walk on the part [t] are those of a walk on the large
    raster, for the cells of [t]. *)
Definition same_records (o : xy) (t : datamap) (st sm : climb_state) : Prop :=
  forall c, in_map t c -> cs_table st !! c = cs_table sm !! shift o c.

(** The answer for a cell of the part, as an answer for the large raster. *)
Definition shift_answer (o : xy) (r : option pte) : option pte := shift_pt o <$> r.
