(** Independent description of climbing. *)
From Verif Require Import Base_model Climb_model Raster_spec Feature_spec.

(** One step to a touching cell that is not lower. *)
Definition not_down (m : datamap) (a b : xy) : Prop := adj8 a b /\ elev m a <= elev m b.
(** There is a path through touching data cells along which the elevation
    never decreases. *)
Definition uphill (m : datamap) (a b : xy) : Prop := linked (not_down m) (data_cell m) a b.

(** The nodata marker, if any, is smaller than every elevation. *)
Definition nodata_low (m : datamap) : Prop :=
  forall v c, dm_nodata m = Some v -> data_cell m c -> v < elev m c.
(** Moreover slopes can be computed, with whatever rounding. *)
Definition climbable (m : datamap) : Prop := nodata_low m /\ slopes_ok m.

(** All pixel distances are below [sys.maxsize]. *)
Definition pixels_in_reach (m : datamap) : Prop :=
  forall p q, in_map m p -> in_map m q -> (pixel2 p q < maxsize2)%Q.

(** The states of a walk: registering the given cell lists as domains 0, 1, ...
    and then climbing any number of times from data cells. *)
Inductive walked (near : searches) (m : datamap) (s0 : climb_state) : climb_state -> Prop :=
  | walked_start : walked near m s0 s0
  | walked_climb s p r s' : walked near m s0 s -> data_cell m p ->
      climb near m (p, elev m p) s = Ok (r, s') -> walked near m s0 s'.

(** The start of a walk: every cell of [doms !! d] is listed and recorded under
    [d], nothing else is. *)
Record registered (doms : list (list xy)) (s : climb_state) : Prop := {
  rg_table : forall c d, cs_table s !! c = Some d <-> exists cs, doms !! d = Some cs /\ c ∈ cs;
  rg_log : cs_log s = concat (imap (fun d cs => map (pair d) cs) doms) }.
