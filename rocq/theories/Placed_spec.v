(** Independent description of where new saddles are placed. *)
From Verif Require Import Base_model Network_model Closest_spec Network_spec Raster_spec.
Local Open Scope Z_scope.

(** Squared pixel distance of a cell from a position between cells. *)
Definition away2 (tx ty : Q) (p : xy) : Q :=
  ((tx - inject_Z p.1) * (tx - inject_Z p.1) + (ty - inject_Z p.2) * (ty - inject_Z p.2))%Q.
(** No cell of the saddle is nearer to the position. *)
Definition nearest_own (f : feature) (tx ty : Q) (pos : xy) : Prop :=
  pos ∈ own_cells f /\ forall q, q ∈ own_cells f -> (away2 tx ty pos <= away2 tx ty q)%Q.

(** The middle of two coordinates, and the same rounded down. *)
Definition middle (a b : Z) : Q := (a + b) # 2.
Definition middle_down (a b : Z) : Q := inject_Z ((a + b) / 2).

(** Points of two groups that are closest to each other.  Nothing is said for
    large groups when pixels are not square (see C16). *)
Definition closest_in (m : datamap) (g h : list pte) (a b : pte) : Prop :=
  a ∈ g /\ b ∈ h /\
  ((length g + length h < 100)%nat \/ square_pixels m -> forall p q, p ∈ g -> q ∈ h ->
    (distance2 m (pt_xy a) (pt_xy b) <= distance2 m (pt_xy p) (pt_xy q))%Q).
(** The same up to a factor 1 + 2^-48 of the squares, exactly with square pixels. *)
Definition about_closest_in (m : datamap) (g h : list pte) (a b : pte) : Prop :=
  a ∈ g /\ b ∈ h /\
  ((length g + length h < 100)%nat \/ square_pixels m -> forall p q, p ∈ g -> q ∈ h ->
    (distance2 m (pt_xy a) (pt_xy b) <= (1 + (1 # 2 ^ 48)) * distance2 m (pt_xy p) (pt_xy q))%Q /\
    (square_pixels m -> (distance2 m (pt_xy a) (pt_xy b) <= distance2 m (pt_xy p) (pt_xy q))%Q)).

(** The highest points of a group. *)
Definition tops (g h : list pte) : Prop :=
  h <> [] /\ forall z, z ∈ h <-> z ∈ g /\ forall w, w ∈ g -> pt_e w <= pt_e z.

(** Every saddle made from [f].  If [f] has two groups, it keeps the highest points of
    each and is at a cell of [f] nearest to the middle, rounded down, of two closest
    points of the groups; if [f] has more, it keeps one point of each of two groups
    and is at a cell of [f] nearest to the middle of the two points. *)
Definition placed (close : list pte -> list pte -> pte -> pte -> Prop) (f : feature) (out : list rsaddle) : Prop :=
  forall pos e h c, New pos e h c ∈ out ->
    match ft_hpn f with
    | [g0; g1] =>
        (exists h0 h1, h = [h0; h1] /\ tops g0 h0 /\ tops g1 h1) /\
        ((ft_multi f = [] /\ pos = ft_pos f) \/
         exists a b, close g0 g1 a b /\
           nearest_own f (middle_down (pt_x a) (pt_x b)) (middle_down (pt_y a) (pt_y b)) pos)
    | _ => exists a b, h = [[a]; [b]] /\ nearest_own f (middle (pt_x a) (pt_x b)) (middle (pt_y a) (pt_y b)) pos
    end.
