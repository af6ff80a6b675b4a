(** Independent description of the cell of a flat area at which its feature is placed. *)
From Verif Require Import Base_model Raster_model Analyze_model Feature_spec Raster_spec.
Local Open Scope Z_scope.

(** The neighbours of a cell that come later in row-major order: to the right,
    then below from right to left. *)
Definition later_cells (p : xy) : list xy :=
  [(p.1, p.2 + 1); (p.1 + 1, p.2 + 1); (p.1 + 1, p.2); (p.1 + 1, p.2 - 1)].

(** [p] is the first cell of its flat area.  An area of one cell is placed
    there, a larger one at the first of the later neighbours that belongs to it. *)
Definition place_of_flat (m : datamap) (p q : xy) : Prop :=
  first_of_flat m p /\
  (((forall c, same_flat m p c <-> c = p) /\ q = p) \/
   exists before after, later_cells p = before ++ q :: after /\ same_flat m p q /\
     forall c, c ∈ before -> ~ same_flat m p c).

(** Position and elevation of a feature. *)
Definition place_ele (f : feature) : xy * Z := (ft_pos f, ft_ele f).
