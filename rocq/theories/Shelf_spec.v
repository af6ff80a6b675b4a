(** Independent description of how a flat area is divided among domains. *)
From Verif Require Import Base_model Climb_model Feature_spec Raster_spec.

(** [t] is a higher data cell touching the flat area of [p], and none of those is
    nearer to [c] in pixels. *)
Definition nearest_rim (m : datamap) (p c t : xy) : Prop :=
  higher_rim m p t /\ forall t', higher_rim m p t' -> (pixel2 c t <= pixel2 c t')%Q.

(** The search assigns to each cell of the map a nearest one of the given cells. *)
Definition nearest_map (s : searches) (m : datamap) : Prop :=
  forall us them d, (forall p, p ∈ us -> in_map m (pt_xy p)) -> (forall t, t ∈ them -> in_map m (pt_xy t)) -> them <> [] ->
    s_map s us them = Ok d -> forall p t, d !! p = Some t -> p ∈ us /\ t ∈ them /\
      forall t', t' ∈ them -> (pixel2 (pt_xy p) (pt_xy t) <= pixel2 (pt_xy p) (pt_xy t'))%Q.
