(** Independent description of a walk. *)
From Verif Require Import Tree_spec Base_model Walk_model Raster_spec Feature_spec Network_spec Climb_spec
  Graph_spec.

(** The path library finds a path between any two nodes that are linked by
    touching nodes; the path starts and ends there and visits only nodes. *)
Definition mpaths_found (fpath : datamap -> list mpoint -> mpoint -> mpoint -> option (list mpoint * Q))
    (m : datamap) : Prop :=
  forall pts a b, linked (fun a b : mpoint => adj8 a.1 b.1) (fun z => z ∈ pts) a b ->
    exists ns c, fpath m pts a b = Some (ns, c) /\ head ns = Some a /\ last ns = Some b /\
      forall z, z ∈ ns -> z ∈ pts.

(** The first, last and middle node of a path. *)
Definition ends_of (ns : list mpoint) (r : mpoint * mpoint * mpoint) : Prop :=
  head ns = Some r.1.1 /\ last ns = Some r.1.2 /\ ns !! (length ns `div` 2)%nat = Some r.2.

(** What the walk needs of a saddle or runoff: its groups are non-empty and
    consist of higher data cells, its own cells and the points of its two groups
    are connected, and without groups its elevation is that of its cell. *)
Record walkable (m : datamap) (f : feature) : Prop := {
  wk_groups : forall g, g ∈ ft_hpn f -> g <> [];
  wk_higher : forall g z, g ∈ ft_hpn f -> z ∈ g ->
    data_cell m (pt_xy z) /\ pt_e z = elev m (pt_xy z) /\ ft_ele f < pt_e z;
  wk_plain : plain_head f;
  wk_path : forall g0 g1 a b, ft_hpn f = [g0; g1] -> ft_multi f <> [] -> a ∈ g0 -> b ∈ g1 ->
    linked (fun a b : mpoint => adj8 a.1 b.1)
      (fun z => z ∈ ft_multi f ++ map (fun q => (pt_xy q, Some (pt_e q))) (concat (ft_hpn f)))
      (pt_xy a, Some (pt_e a)) (pt_xy b, Some (pt_e b));
  wk_cells : forall z, z ∈ ft_multi f -> in_map m z.1;
  wk_own : ft_hpn f = [] -> data_cell m (ft_pos f) -> ft_ele f = elev m (ft_pos f) }.

(** The cells of the summits that a walk over [summits] registers: those that
    have no domain yet. *)
Definition summit_cell (w : world) (summits : list nat) (d : nat) (t : xy) : Prop :=
  d ∈ summits /\ exists su, w_summits w !! d = Some su /\ su_domain su = None /\ t ∈ own_cells (su_feat su).

(** The feature leads to summit [d]: from a point of one of its groups, or from
    its own cell if it has none, a cell of the summit is reached without
    descending. *)
Definition leads (m : datamap) (dom : nat -> xy -> Prop) (f : feature) (d : nat) : Prop :=
  (exists g z t, g ∈ ft_hpn f /\ z ∈ g /\ dom d t /\ uphill m (pt_xy z) t) \/
  (ft_hpn f = [] /\ exists t, dom d t /\ uphill m (ft_pos f) t).

(** Two links at the same places: equal as the program compares them. *)
Definition equal_links (m : datamap) (w : world) (k k' : nat) : Prop := link_same m w k k' = true.

(** The object with number [p] is a new saddle made from the groups [e] of [f]:
    at the elevation of [f], at one of its cells or, when it stands for an inner
    path, possibly at a higher point, with two groups. *)
Definition split_piece (w : world) (f : feature) (p : nat) (e : nat * nat) : Prop :=
  exists o pos ga gb g h, w_saddles w !! p = Some o /\
    sa_feat o = Feat KSaddle pos (ft_ele f) [] false [] [ga; gb] /\
    (length (ft_hpn f) <> 2%nat \/ ft_multi f = [] -> pos ∈ own_cells f) /\
    (pos ∈ own_cells f \/ exists z, z ∈ concat (ft_hpn f) /\ pos = pt_xy z) /\
    e.1 <> e.2 /\ ft_hpn f !! e.1 = Some g /\ ft_hpn f !! e.2 = Some h /\
    ga <> [] /\ gb <> [] /\ (forall z, z ∈ ga -> z ∈ h) /\ (forall z, z ∈ gb -> z ∈ g).

(** The pieces of saddle [i] with constructor arguments [f]: itself if it has
    fewer than two groups or is a border runoff, otherwise new objects (numbers
    at least [n]) forming a spanning tree of its groups. *)
Definition pieces_of (w : world) (n i : nat) (f : feature) (ps : list nat) : Prop :=
  (ps = [i] /\ ((length (ft_hpn f) < 2)%nat \/ (ft_edge f = true /\ ft_kind f = KRunoff))) \/
  ((2 <= length (ft_hpn f))%nat /\ ~ (ft_edge f = true /\ ft_kind f = KRunoff) /\
   NoDup ps /\ (forall p, p ∈ ps -> (n <= p)%nat) /\
   exists es, spanning_tree (length (ft_hpn f)) es /\ Forall2 (split_piece w f) ps es).

(** What saddle [i] contributes to the output of a walk, given its pieces [ps].
    An interior saddle contributes its pieces, which have no parent if they are
    new.  A border feature contributes its pieces, entered as its children,
    followed by itself, disqualified; the exception is a runoff without groups
    whose cell was not reached, which contributes itself only and has no link
    with number [n0] or more. *)
Definition contributes (w : world) (n n0 i : nat) (f : feature) (ps seg : list nat) : Prop :=
  pieces_of w n i f ps /\
  (ft_edge f = false -> seg = ps /\ forall p, p ∈ ps -> p <> i -> parent_of w p = None) /\
  (ft_edge f = true ->
    (seg = ps ++ [i] /\ (exists o, w_saddles w !! i = Some o /\ sa_over o = Some true) /\
     forall p, p ∈ ps -> parent_of w p = Some i /\ p ∈ children_of w i) \/
    (seg = [i] /\ ft_kind f = KRunoff /\ ft_hpn f = [] /\
     exists o, w_saddles w !! i = Some o /\ forall k, k ∈ sa_links o -> (k < n0)%nat)).

(** Each group of saddle [p] has a link with number at least [n] from [p] to a
    summit reached from that group. *)
Definition all_sides_linked (m : datamap) (dom : nat -> xy -> Prop) (w : world) (n p : nat) : Prop :=
  forall o g, w_saddles w !! p = Some o -> g ∈ ft_hpn (sa_feat o) ->
    exists k l z t, (n <= k)%nat /\ w_links w !! k = Some l /\ ln_saddle l = p /\ z ∈ g /\
      dom (ln_summit l) t /\ uphill m (pt_xy z) t.

(** The constructor arguments of all saddles. *)
Definition feats_of (w : world) : list feature := map sa_feat (w_saddles w).
(** A state that can be walked: the listed summits exist, those without a domain
    have disjoint lists of data cells at their elevation, and the listed features
    exist; all saddles are fit for the walk; links already made are in the table. *)
Record walk_input (m : datamap) (w : world) (summits feats : list nat) : Prop := {
  in_sumnd : NoDup summits;
  in_sum : forall i, i ∈ summits -> is_Some (w_summits w !! i);
  in_cells : forall d t, summit_cell w summits d t -> data_cell m t;
  in_apart : forall d e t, summit_cell w summits d t -> summit_cell w summits e t -> d = e;
  in_once : forall i su, i ∈ summits -> w_summits w !! i = Some su -> su_domain su = None ->
    NoDup (own_cells (su_feat su));
  in_level : forall d t su, summit_cell w summits d t -> w_summits w !! d = Some su ->
    ft_ele (su_feat su) = elev m t;
  in_featnd : NoDup feats;
  in_feats : forall i, i ∈ feats -> is_Some (w_saddles w !! i);
  in_walk : forall f, f ∈ feats_of w -> walkable m f;
  in_links : forall i o k, w_saddles w !! i = Some o -> k ∈ sa_links o -> (k < length (w_links w))%nat;
  in_sulinks : forall i o k, w_summits w !! i = Some o -> k ∈ su_links o -> (k < length (w_links w))%nat }.

(** Every peak of the raster is registered. *)
Definition all_peaks (m : datamap) (w : world) (summits : list nat) : Prop :=
  forall t, peak m t -> exists d, summit_cell w summits d t.

(** The link with number [k] is proper: its ends exist, it leads uphill, the
    saddle is in the output and in the domain of the summit, and the link or an
    equal one is in the lists of both ends; it is there itself if the saddle has
    no parent.  The summit is higher unless the saddle has no groups. *)
Definition proper_link (m : datamap) (dom : nat -> xy -> Prop) (w : world) (out : list nat) (k : nat) (l : link) : Prop :=
  exists o su ds, w_saddles w !! ln_saddle l = Some o /\ w_summits w !! ln_summit l = Some su /\
    ln_disq l = false /\ ln_saddle l ∈ out /\
    leads m dom (sa_feat o) (ln_summit l) /\
    (ft_hpn (sa_feat o) <> [] -> ft_ele (sa_feat o) < ft_ele (su_feat su)) /\
    ft_ele (sa_feat o) <= ft_ele (su_feat su) /\
    su_domain su = Some ds /\ ln_saddle l ∈ ds /\
    (exists k', k' ∈ sa_links o /\ (k' = k \/ equal_links m w k k')) /\
    (exists k', k' ∈ su_links su /\ (k' = k \/ equal_links m w k k')) /\
    (sa_parent o = None -> k ∈ sa_links o /\ k ∈ su_links su).

(** What a walk leaves behind when [n] links existed before it and [old] is the
    relation between domains and saddles before it: the returned links are the
    new ones, they are proper, and the lists of the saddles, of the summits and
    of the domains mention nothing else that is new. *)
Record walk_links (m : datamap) (dom : nat -> xy -> Prop) (old : nat -> list nat) (n : nat) (w : world)
    (out linkers : list nat) : Prop := {
  wl_linkers : linkers = seq n (length (w_links w) - n);
  wl_link : forall k l, w_links w !! k = Some l -> (n <= k)%nat -> proper_link m dom w out k l;
  wl_saddle : forall i o k, w_saddles w !! i = Some o -> k ∈ sa_links o -> (n <= k)%nat ->
    exists l, w_links w !! k = Some l /\ ln_saddle l = i;
  wl_summit : forall d su k, w_summits w !! d = Some su -> k ∈ su_links su -> (n <= k)%nat ->
    exists l, w_links w !! k = Some l /\ ln_summit l = d;
  wl_domain : forall d x, x ∈ domain_saddles w d -> x ∈ old d \/
    exists k l, (n <= k)%nat /\ w_links w !! k = Some l /\ ln_summit l = d /\ ln_saddle l = x }.

(** Saddle by saddle: what each of the walked features [feats] of the state [w]
    contributes to the list [out] of a state [w']. *)
Definition walk_output (w w' : world) (feats out : list nat) : Prop :=
  exists segs, out = concat segs /\ length segs = length feats /\
    forall x i o, feats !! x = Some i -> w_saddles w !! i = Some o -> exists ps seg, segs !! x = Some seg /\
      contributes w' (length (w_saddles w)) (length (w_links w)) i (sa_feat o) ps seg.
(** Each group of each piece is linked. *)
Definition all_linked (m : datamap) (dom : nat -> xy -> Prop) (w w' : world) (feats out : list nat) : Prop :=
  forall i o, i ∈ feats -> w_saddles w !! i = Some o -> exists ps,
    pieces_of w' (length (w_saddles w)) i (sa_feat o) ps /\
    forall p, p ∈ ps -> p ∈ out /\ all_sides_linked m dom w' (length (w_links w)) p.

(** All summits of the list have a domain. *)
Definition all_have_domain (w : world) (summits : list nat) : Prop :=
  forall i su, i ∈ summits -> w_summits w !! i = Some su -> is_Some (su_domain su).
(** The lists of links of the saddles of [w] are those of [w0]; new saddles
    have none. *)
Definition same_lists (w0 w : world) : Prop :=
  forall i o, w_saddles w !! i = Some o -> sa_links o = match w_saddles w0 !! i with Some x => sa_links x | None => [] end.
