(** Independent description of what feature discovery should report. *)
From Verif Require Import Base_model Raster_model Raster_spec Analyze_model.

(** [groups] is the partition of the point set [S] into connected components. *)
Record components (S : pte -> Prop) (groups : list (list pte)) : Prop := {
  comp_once : NoDup (concat groups);
  comp_all : forall z, z ∈ concat groups <-> S z;
  comp_nonempty : forall g, g ∈ groups -> g <> [];
  comp_linked : forall i j g h a b,
    groups !! i = Some g -> groups !! j = Some h -> a ∈ g -> b ∈ h ->
    (i = j <-> linked (fun a b => adj8 (pt_xy a) (pt_xy b)) S a b) }.

(** The cells higher than and touching the flat area of [p], with elevations. *)
Definition rim (m : datamap) (p : xy) (z : pte) : Prop :=
  higher_rim m p (pt_xy z) /\ pt_e z = elev m (pt_xy z).
(** The cells of the flat area that lie on the border. *)
Definition border_members (m : datamap) (p : xy) (z : pte) : Prop :=
  same_flat m p (pt_xy z) /\ on_border m (pt_xy z) /\ pt_e z = elev m p.
(** The border cells of different elevation touching the flat area. *)
Definition border_ring (m : datamap) (p : xy) (z : pte) : Prop :=
  data_cell m (pt_xy z) /\ on_border m (pt_xy z) /\ elev m (pt_xy z) <> elev m p /\
  pt_e z = elev m (pt_xy z) /\ exists c, same_flat m p c /\ adj8 c (pt_xy z).

(** The list enumerates the set, each element once. *)
Definition enumerates {A} (S : A -> Prop) (l : list A) : Prop :=
  NoDup l /\ forall a, a ∈ l <-> S a.

(** All points of the group are lower than [e]. *)
Definition all_lower (e : Z) (g : list pte) : Prop := forall z, z ∈ g -> pt_e z < e.

(** Two groups contain touching points. *)
Definition groups_touch (g h : list pte) : Prop :=
  Exists (fun a => Exists (fun b => adj8 (pt_xy a) (pt_xy b)) h) g.
Global Instance groups_touch_dec g h : Decision (groups_touch g h).
Proof. unfold groups_touch. apply _. Defined.
(** Exactly two of the groups [ls] touch [g]. *)
Definition touches_two (ls : list (list pte)) (g : list pte) : Prop :=
  length (filter (groups_touch g) ls) = 2%nat.
Global Instance touches_two_dec ls g : Decision (touches_two ls g).
Proof. unfold touches_two. apply _. Defined.

(** How a feature describes the flat area of [p]: either the area is one cell
    and no cell list is stored, or the list enumerates its cells. *)
Definition area_cells (m : datamap) (p : xy) (multi : list mpoint) : Prop :=
  (multi = [] /\ forall c, same_flat m p c <-> c = p) \/
  (enumerates (fun z : mpoint => z.2 = None /\ same_flat m p z.1) multi /\
   exists c, same_flat m p c /\ c <> p).

(** The lists [bits] are those of [groups] that satisfy [P], in some order. *)
Definition selected {A} (P : A -> Prop) (groups bits : list A) : Prop :=
  exists sel, bits ≡ₚ sel /\ sublist sel groups /\ forall g, g ∈ groups -> (g ∈ sel <-> P g).

(** A runoff made from the group [g] of border cells. *)
Definition runoff_of (m : datamap) (p : xy) (multi : list mpoint) (hp : list (list pte))
    (g : list pte) (f : feature) : Prop :=
  exists mid, mid ∈ g /\
    ft_kind f = KRunoff /\ ft_pos f = pt_xy mid /\ ft_ele f = elev m p /\ ft_multi f = [] /\
    ft_edge f = true /\ ft_edgepts f = g /\
    (multi = [] -> ft_hpn f = hp) /\
    (multi <> [] -> exists z, rim m p z /\ ft_hpn f = [[z]]).

(** What discovery reports for the flat area of [p]. *)
Inductive area_result (m : datamap) (p : xy) : list feature -> Prop :=
  | area_summit_interior pos multi :
      same_flat m p pos -> area_cells m p multi ->
      (forall z, ~ rim m p z) -> (forall z, ~ border_members m p z) ->
      area_result m p [Feat KSummit pos (elev m p) multi false [] []]
  | area_summit_border pos multi epts :
      same_flat m p pos -> area_cells m p multi ->
      (forall z, ~ rim m p z) -> (exists z, border_members m p z) ->
      enumerates (border_members m p) epts ->
      area_result m p [Feat KSummit pos (elev m p) multi true epts [];
                       Feat KRunoff pos (elev m p) multi true epts []]
  | area_interior pos multi hp :
      same_flat m p pos -> area_cells m p multi ->
      components (rim m p) hp -> hp <> [] -> (forall z, ~ border_members m p z) ->
      area_result m p
        (if decide (2 <= length hp)%nat
         then [Feat KSaddle pos (elev m p) multi false [] hp] else [])
  | area_border_plain pos multi epts hp ring lower :
      same_flat m p pos -> area_cells m p multi ->
      components (rim m p) hp -> hp <> [] -> (exists z, border_members m p z) ->
      enumerates (border_members m p) epts ->
      components (border_ring m p) ring -> selected (all_lower (elev m p)) ring lower ->
      (length lower <= 1)%nat ->
      area_result m p
        (if decide (2 <= length hp)%nat
         then [Feat KSaddle pos (elev m p) multi true epts hp] else [])
  | area_border_runoffs pos multi hp ring lower borders drained runoffs multi' rest :
      same_flat m p pos -> area_cells m p multi ->
      components (rim m p) hp -> hp <> [] -> (exists z, border_members m p z) ->
      components (border_ring m p) ring -> selected (all_lower (elev m p)) ring lower ->
      (2 <= length lower)%nat ->
      components (border_members m p) borders ->
      selected (touches_two lower) borders drained ->
      Forall2 (runoff_of m p multi hp) drained runoffs ->
      (* the saddle keeps the flat cells; higher cells may have been added *)
      (exists extra, multi' = multi ++ extra /\ (multi = [] -> extra = []) /\
         forall z, z ∈ extra -> exists q, rim m p q /\ z = (pt_xy q, Some (pt_e q))) ->
      enumerates (fun z => border_members m p z /\ z ∉ concat drained) rest ->
      area_result m p
        (runoffs ++
         if decide (2 <= length hp)%nat
         then [if decide (length drained = length borders)
               then Feat KSaddle pos (elev m p) multi' false [] hp
               else Feat KSaddle pos (elev m p) multi' true rest hp]
         else []).

(** Row-major order of cells. *)
Definition rm_lt (p q : xy) : Prop := p.1 < q.1 \/ (p.1 = q.1 /\ p.2 < q.2).

(** [p] is the first cell of its flat area in row-major order. *)
Definition first_of_flat (m : datamap) (p : xy) : Prop :=
  data_cell m p /\ forall q, same_flat m p q -> ~ rm_lt q p.

(** The shortest-path library finds a path between any two cells that are
    linked by touching cells of the graph. *)
Definition paths_found (fp : datamap -> list xy -> xy -> xy -> option Q) (m : datamap) : Prop :=
  forall pts a b, linked adj8 (fun q => q ∈ pts) a b -> exists c, fp m pts a b = Some c.

(** The cells a feature stands for. *)
Definition covers (f : feature) (c : xy) : Prop :=
  (ft_multi f = [] /\ c = ft_pos f) \/ (c, None) ∈ ft_multi f.

(** The flat area of [p] reaches the border of the map. *)
Definition on_edge (m : datamap) (p : xy) : Prop := exists c, same_flat m p c /\ on_border m c.

(** No data cell touching the flat area of [p] is higher. *)
Definition peak (m : datamap) (p : xy) : Prop :=
  data_cell m p /\ forall q, ~ higher_rim m p q.

(** The higher ground around the flat area of [p] is in at least two pieces. *)
Definition two_sided (m : datamap) (p : xy) : Prop :=
  exists a b, higher_rim m p a /\ higher_rim m p b /\ ~ linked adj8 (higher_rim m p) a b.

(** The feature stands for the flat area of [p], at one of its cells and at its
    elevation. *)
Record stands_for (m : datamap) (p : xy) (f : feature) : Prop := {
  sf_cells : forall c, covers f c <-> same_flat m p c;
  sf_pos : same_flat m p (ft_pos f);
  sf_ele : ft_ele f = elev m p }.

(** The feature lists exactly the flat cells, once each, knows whether the area
    is on the border and lists its border cells. *)
Record exact_for (m : datamap) (p : xy) (f : feature) : Prop := {
  ex_stands : stands_for m p f;
  ex_once : NoDup (ft_multi f);
  ex_plain : forall z, z ∈ ft_multi f -> z.2 = None;
  ex_edge : ft_edge f = true <-> on_edge m p;
  ex_epts : enumerates (border_members m p) (ft_edgepts f) }.

(** Exactly one position of the list satisfies [P]. *)
Definition exactly_one {A} (P : A -> Prop) (l : list A) : Prop :=
  exists i a, l !! i = Some a /\ P a /\ forall j b, l !! j = Some b -> P b -> j = i.

(** The runoffs that belong to the flat area of [p]: none inside the map; one
    for a border peak; otherwise one for every connected group of its border
    cells that touches exactly two of the lower groups of border cells around
    the area, provided there are at least two such groups. *)
Definition area_runoffs (m : datamap) (p : xy) (fs : list feature) : Prop :=
  (~ on_edge m p -> fs = []) /\
  (on_edge m p -> peak m p -> exists f, fs = [f] /\ exact_for m p f /\ ft_hpn f = []) /\
  (on_edge m p -> ~ peak m p -> exists hp ring lower,
     components (rim m p) hp /\
     components (border_ring m p) ring /\ selected (all_lower (elev m p)) ring lower /\
     ((length lower <= 1)%nat -> fs = []) /\
     ((2 <= length lower)%nat -> exists borders drained multi,
        components (border_members m p) borders /\
        selected (touches_two lower) borders drained /\
        area_cells m p multi /\
        Forall2 (runoff_of m p multi hp) drained fs)).

(** The two rasters have the same shape, the same data cells and the same
    values there; their nodata markers may differ. *)
Record same_data (m1 m2 : datamap) : Prop := {
  sd_x : dm_max_x m1 = dm_max_x m2;
  sd_y : dm_max_y m1 = dm_max_y m2;
  sd_data : forall p, data_cell m1 p <-> data_cell m2 p;
  sd_elev : forall p, data_cell m1 p -> elev m1 p = elev m2 p }.

(** The features of one kind. *)
Definition of_kind (k : kind) (l : list feature) : list feature := filter (fun f => ft_kind f = k) l.

(** Border information of the saddle at a border flat area.  With fewer than
    two lower border groups it lists all border cells.  Otherwise it keeps the
    border cells of the groups that did not become runoffs, and it loses the
    flag exactly when all of them did. *)
Definition border_saddle_edge (m : datamap) (p : xy) (f : feature) : Prop :=
  exists ring lower,
    components (border_ring m p) ring /\ selected (all_lower (elev m p)) ring lower /\
    ((length lower <= 1)%nat ->
       ft_edge f = true /\ enumerates (border_members m p) (ft_edgepts f)) /\
    ((2 <= length lower)%nat -> exists borders drained,
       components (border_members m p) borders /\ selected (touches_two lower) borders drained /\
       (ft_edge f = false <-> forall g, g ∈ borders -> touches_two lower g) /\
       enumerates (fun z => border_members m p z /\ z ∉ concat drained) (ft_edgepts f)).
