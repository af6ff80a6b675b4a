(** Independent description of the closest-point queries. *)
From Verif Require Import Base_model Raster_model Closest_model Raster_spec.

(** [f] is a nearest-neighbour query: the returned index is in range and no
    other point of the list is nearer in pixel distance. *)
Definition nearest_query (near : list xy -> xy -> nat) : Prop :=
  forall pts q, pts <> [] -> exists p, pts !! near pts q = Some p /\
    forall p', p' ∈ pts -> (pixel2 p q <= pixel2 p' q)%Q.

(** [a] is the first element of [l] with the least value of [d]. *)
Definition first_least {A} (d : A -> Q) (l : list A) (a : A) : Prop :=
  exists l1 l2, l = l1 ++ a :: l2 /\
    (forall b, b ∈ l1 -> (d a < d b)%Q) /\ (forall b, b ∈ l2 -> (d a <= d b)%Q).

(** Square pixels: both pixel sizes have the same non-zero magnitude. *)
Definition square_pixels (m : datamap) : Prop :=
  (gt1 (dm_gt m) * gt1 (dm_gt m) == gt5 (dm_gt m) * gt5 (dm_gt m))%Q /\
  (0 < gt1 (dm_gt m) * gt1 (dm_gt m))%Q.

(** The searches answer on the raster: points of the map are assigned to given
    points, two sets of points of the map (closer than [sys.maxsize]) have a pair
    with a distance below [sys.maxsize], and a list of cells has a member.
    Nothing is said about how near the points are. *)
Record sound_searches (s : searches) (m : datamap) : Prop := {
  ss_map : forall us them,
    (forall p, p ∈ us -> in_map m (pt_xy p)) -> (forall t, t ∈ them -> in_map m (pt_xy t)) -> them <> [] ->
    (forall p t, p ∈ us -> t ∈ them -> (pixel2 (pt_xy p) (pt_xy t) < maxsize2)%Q) ->
    exists d, s_map s us them = Ok d /\
      (forall p, p ∈ us -> exists t, d !! p = Some t /\ t ∈ them) /\ (forall p, p ∉ us -> d !! p = None);
  ss_none : forall us, s_map s us [] = Ok ∅ \/ s_map s us [] = Err ValueError;
  ss_pair : forall us them,
    (forall p, p ∈ us -> in_map m (pt_xy p)) -> (forall t, t ∈ them -> in_map m (pt_xy t)) -> us <> [] -> them <> [] ->
    (forall p t, p ∈ us -> t ∈ them -> (distance2 m (pt_xy p) (pt_xy t) < maxsize2)%Q) ->
    exists p t d2, s_pair s m us them = Ok (CP (Some p) (Some t) d2) /\ p ∈ us /\ t ∈ them /\ (d2 < maxsize2)%Q;
  ss_member : forall tx ty p0 pts, p0.2 = None -> (forall p, p ∈ p0 :: pts -> in_map m p.1) ->
    exists c, s_member s tx ty (p0 :: pts) = Ok c /\ c ∈ map fst (p0 :: pts) }.
