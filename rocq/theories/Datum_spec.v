(** Analyses of two rasters with the same relief and the same slopes. *)
From Verif Require Import Base_model Raster_model Analyze_model Closest_model Climb_spec Graph_model Walk_model
  Basin_model Basin_spec Relief_spec Heights_spec Raster_spec.
Local Open Scope Z_scope.

(** The slope computed for the step from [p] up to [q]. *)
Definition slope_up (m : datamap) (p q : xy) : res Q := dm_slope m (p.1 - q.1) (p.2 - q.2) (elev m p) (elev m q).
(** The same position on the ground and, of two steps up from a cell to cells
    with data, the same one is steeper. *)
Record same_slopes (m1 m2 : datamap) : Prop := {
  ss_gt : dm_gt m1 = dm_gt m2;
  ss_slope : forall p q, data_cell m1 p -> data_cell m1 q -> elev m1 p <= elev m1 q ->
    match slope_up m1 p q, slope_up m2 p q with
    | Ok s, Ok s' => (0 <= s)%Q <-> (0 <= s')%Q
    | Err e, Err e' => e = e'
    | _, _ => False
    end;
  ss_steeper : forall p q r s t s' t', data_cell m1 p -> data_cell m1 q -> data_cell m1 r ->
    elev m1 p <= elev m1 q -> elev m1 p <= elev m1 r ->
    slope_up m1 p q = Ok s -> slope_up m1 p r = Ok t -> slope_up m2 p q = Ok s' -> slope_up m2 p r = Ok t' ->
    ((s <= t)%Q <-> (s' <= t')%Q) }.

(** A cell with data and its elevation; a node of a flat area or its rim. *)
Definition true_pt (m : datamap) (z : pte) : Prop := data_cell m (pt_xy z) /\ pt_e z = elev m (pt_xy z).
Definition true_node (m : datamap) (z : mpoint) : Prop :=
  match z.2 with Some e => true_pt m (z.1, e) | None => True end.
Definition mlevel (m : datamap) (z : mpoint) : mpoint :=
  (z.1, match z.2 with Some _ => Some (elev m z.1) | None => None end).

(** The searches and the shortest paths do not look at elevations: for the same
    points with the elevations of the other raster they give the same answer. *)
Record blind_searches (near : searches) (m1 m2 : datamap) : Prop := {
  bl_map : forall us them, Forall (true_pt m1) us -> Forall (true_pt m1) them ->
    match s_map near us them, s_map near (map (releveled m2) us) (map (releveled m2) them) with
    | Ok d, Ok d' => (forall p, p ∈ us -> d' !! releveled m2 p = releveled m2 <$> d !! p) /\
        (forall p, p ∉ us -> d !! p = None) /\ (forall p, p ∉ map (releveled m2) us -> d' !! p = None) /\
        (forall p t, d !! p = Some t -> t ∈ them)
    | Err e, Err e' => e = e'
    | _, _ => False
    end;
  bl_pair : forall us them, Forall (true_pt m1) us -> Forall (true_pt m1) them ->
    match s_pair near m1 us them, s_pair near m2 (map (releveled m2) us) (map (releveled m2) them) with
    | Ok c, Ok c' => c' = CP (releveled m2 <$> cp_mine c) (releveled m2 <$> cp_theirs c) (cp_d2 c) /\
        (forall p, cp_mine c = Some p -> p ∈ us) /\ (forall p, cp_theirs c = Some p -> p ∈ them)
    | Err e, Err e' => e = e'
    | _, _ => False
    end;
  bl_member : forall tx ty l, Forall (true_node m1) l -> s_member near tx ty (map (mlevel m2) l) = s_member near tx ty l }.
Definition blind_paths (fpath : datamap -> list mpoint -> mpoint -> mpoint -> option pathinfo) (m1 m2 : datamap) : Prop :=
  forall pts a b, Forall (true_node m1) pts -> a ∈ pts -> b ∈ pts ->
    fpath m2 (map (mlevel m2) pts) (mlevel m2 a) (mlevel m2 b) = (fun p => (map (mlevel m2) p.1, p.2)) <$> fpath m1 pts a b /\
    forall p, fpath m1 pts a b = Some p -> forall z, z ∈ p.1 -> z ∈ pts.

(** The same feature, with elevations of the other raster. *)
Record like_feature (m1 m2 : datamap) (f f' : feature) : Prop := {
  lf_kind : ft_kind f' = ft_kind f;
  lf_pos : ft_pos f' = ft_pos f;
  lf_edge : ft_edge f' = ft_edge f;
  lf_ele : exists c, in_map m1 c /\ ft_ele f = elev m1 c /\ ft_ele f' = elev m2 c;
  lf_multi : ft_multi f' = map (mlevel m2) (ft_multi f);
  lf_hpn : ft_hpn f' = map (map (releveled m2)) (ft_hpn f) }.

(** The same objects, related in the same way, with elevations of the other
    raster. *)
Record same_result (m1 m2 : datamap) (d d' : dmap) : Prop := {
  rs_graph : same_heights (mp_world d) (mp_world d');
  rs_saddles : Forall2 (like_feature m1 m2) (map sa_feat (w_saddles (mp_world d))) (map sa_feat (w_saddles (mp_world d')));
  rs_summits : Forall2 (like_feature m1 m2) (map su_feat (w_summits (mp_world d))) (map su_feat (w_summits (mp_world d')));
  rs_domains : map su_domain (w_summits (mp_world d)) = map su_domain (w_summits (mp_world d'));
  rs_lists : (mp_summits d, mp_saddles d, mp_runoffs d, mp_linkers d) = (mp_summits d', mp_saddles d', mp_runoffs d', mp_linkers d') }.
