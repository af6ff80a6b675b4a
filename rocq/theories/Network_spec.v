(** Independent description of the saddles made by splitting. *)
From Verif Require Import Tree_spec Base_model Network_model Raster_spec Feature_spec.

(** Every two points taken from the groups are closer than [sys.maxsize]. *)
Definition in_reach (m : datamap) (hpn : list (list pte)) : Prop :=
  forall g h p q, g ∈ hpn -> h ∈ hpn -> p ∈ g -> q ∈ h ->
    (distance2 m (pt_xy p) (pt_xy q) < maxsize2)%Q.
(** Every two cells of the raster are closer than [sys.maxsize]. *)
Definition map_in_reach (m : datamap) : Prop :=
  forall p q, in_map m p -> in_map m q -> (distance2 m p q < maxsize2)%Q.

(** The link joins a point of group [e.1] to a point of group [e.2] and has
    their distance. *)
Definition joins (m : datamap) (hpn : list (list pte)) (l : vlink) (e : nat * nat) : Prop :=
  e.1 <> e.2 /\ exists g h p q, hpn !! e.1 = Some g /\ hpn !! e.2 = Some h /\ p ∈ g /\ q ∈ h /\
    vl_remote l = Some p /\ vl_local l = Some q /\
    (vl_d2 l == distance2 m (pt_xy p) (pt_xy q))%Q.

(** The cells a saddle can be moved to: its list of cells, or its only cell. *)
Definition own_cells (f : feature) : list xy :=
  match ft_multi f with [] => [ft_pos f] | l => map fst l end.

(** [c] is a saddle at one of the cells of [f], at its elevation, with two
    groups of higher points taken from two different groups [e] of [f]; it
    remembers [f] exactly when [f] is on the border. *)
Definition split_saddle (f : feature) (c : rsaddle) (e : nat * nat) : Prop :=
  exists pos ga gb g h, c = New pos (ft_ele f) [ga; gb] (if ft_edge f then Some f else None) /\
    pos ∈ own_cells f /\ e.1 <> e.2 /\
    ft_hpn f !! e.1 = Some g /\ ft_hpn f !! e.2 = Some h /\
    ga <> [] /\ gb <> [] /\ (forall z, z ∈ ga -> z ∈ h) /\ (forall z, z ∈ gb -> z ∈ g).

(** The outcome of splitting [f]: new saddles forming a spanning tree of its
    groups, followed by [f] itself, disqualified, exactly when it is on the border. *)
Definition split_into (f : feature) (out : list rsaddle) : Prop :=
  exists news es, out = news ++ (if ft_edge f then [Kept f true] else []) /\
    spanning_tree (length (ft_hpn f)) es /\ Forall2 (split_saddle f) news es.

(** The list of cells of a feature starts with a plain cell, if any. *)
Definition plain_head (f : feature) : Prop :=
  match ft_multi f with [] => True | p :: _ => p.2 = None end.
