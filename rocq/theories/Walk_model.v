(** Model of /repo/pyprom/lib/logic/summit_domain_walk.py:48-66 and 153-319, of
    /repo/pyprom/lib/locations/saddle.py:187-239 and of
    /repo/pyprom/domain_map.py:91-131 and 320-342. *)
From Verif Require Export Graph_model.

(** A dijkstar PathInfo: the visited nodes and [total_cost]. *)
Notation pathinfo := (list mpoint * Q)%type.

Section walk.
  (** [fpath m pts a b] is dijkstar's [find_path] from [a] to [b] in the graph
      whose nodes are [pts], with edges between touching cells weighted by the
      map distance; [None] is NoPathError.  Costs are only compared. *)
  Variable fpath : datamap -> list mpoint -> mpoint -> mpoint -> option pathinfo.
  Variable near : searches.
  Variable m : datamap.

  Definition as_mpoint (z : pte) : mpoint := (pt_xy z, Some (pt_e z)).

  (** saddle.py:205-212, the nodes of the graph.  [multi] is [multipoint.points],
      [] without a multipoint. *)
  Definition hpath_nodes (f : feature) : res (list mpoint) :=
    let* own := (match ft_multi f with
                 | [] => let* c := latlong_to_xy m (ft_latlon m f).1 (ft_latlon m f).2 in
                         Ok [(c, None)]
                 | l => Ok l
                 end) in
    Ok (own ++ map as_mpoint (concat (ft_hpn f))).

  (** saddle.py:220-229, the inner loop: the first shortest path to [them], and
      the last path computed ([path]). *)
  Fixpoint shortest_to (nodes : list mpoint) (us : pte) (them : list pte)
      (best last : option pathinfo) : res (option pathinfo * option pathinfo) :=
    match them with
    | [] => Ok (best, last)
    | t :: them =>
        match fpath m nodes (as_mpoint us) (as_mpoint t) with
        | None => Err NoPathError
        | Some p =>
            let best' := match best with
                         | None => Some p
                         | Some b => if Qlt_bool p.2 b.2 then Some p else Some b
                         end in
            shortest_to nodes us them best' (Some p)
        end
    end.

  (** saddle.py:218-229, the outer loop. *)
  Fixpoint all_shortest (nodes : list mpoint) (us them : list pte) (last : option pathinfo) :
      res (list (option pathinfo) * option pathinfo) :=
    match us with
    | [] => Ok ([], last)
    | u :: us =>
        let* (b, last) := shortest_to nodes u them None last in
        let* (bs, last) := all_shortest nodes us them last in
        Ok (b :: bs, last)
    end.

  (** saddle.py:231-239, one link; [path] is the variable left over from the
      search loops. *)
  Definition overall_step (path : option pathinfo) (link best : option pathinfo) :
      res (option pathinfo) :=
    match best with
    | None => match path with None => Err OtherError | Some p => Ok (Some p) end
    | Some b =>
        match link with
        | None => Err AttributeError
        | Some l => Ok (if Qlt_bool l.2 b.2 then Some l else Some b)
        end
    end.

  (** saddle.py:187-239.  The three results are nodes of the path; a 2-tuple
      ([None]) as an end is kept as it is. *)
  Definition hpn_shortest_path (f : feature) : res (mpoint * mpoint * mpoint) :=
    match ft_hpn f with
    | g0 :: g1 :: _ =>
        let* nodes := hpath_nodes f in
        let* (bests, path) := all_shortest nodes g0 g1 None in
        let* r := foldM (overall_step path) bests None in
        match r with
        | None => Err AttributeError
        | Some (ns, _) =>
            match head ns, last ns, ns !! (length ns `div` 2)%nat with
            | Some a, Some b, Some c => Ok (a, b, c)
            | _, _, _ => Err IndexError
            end
        end
    | _ => Err IndexError
    end.

  (** [climb] and [climb_points] index the third component of a point. *)
  Definition as_pte (z : mpoint) : res pte :=
    match z.2 with Some e => Ok (z.1, e) | None => Err IndexError end.

  (** Allocation of a new Saddle. *)
  Definition alloc_saddle (s : saddle) (w : world) : world * nat :=
    (World (w_saddles w ++ [s]) (w_summits w) (w_links w), length (w_saddles w)).

  Definition piece (f : feature) (pos : xy) (hpn : list (list pte)) : feature :=
    Feat KSaddle pos (ft_ele f) [] false [] hpn.

  (** internal_saddle_network.py:207-231: storing the children made from saddle
      [i]. *)
  Fixpoint alloc_children (i : nat) (f : feature) (rs : list rsaddle) (w : world) : world * list nat :=
    match rs with
    | [] => (w, [])
    | New pos _ hpn child :: rs =>
        let (w, j) := alloc_saddle (new_saddle (piece f pos hpn)) w in
        let w := match child with
                 | Some _ => upd_saddle i (fun s => set_children (sa_children s ++ [j]) s)
                               (upd_saddle j (set_parent (Some i)) w)
                 | None => w
                 end in
        let (w, js) := alloc_children i f rs w in
        (w, j :: js)
    | Kept _ _ :: rs => alloc_children i f rs w
    end.

  (** summit_domain_walk.py:282-319.  Simplification: the points at the ends of
      an internal shortest path are converted to 3-tuples here; a 2-tuple would
      raise IndexError as soon as it is climbed from. *)
  Definition generate_synthetic_saddles (i : nat) (w : world) : res (world * list nat) :=
    match w_saddles w !! i with
    | None => Err IndexError
    | Some s =>
        let f := sa_feat s in
        match ft_hpn f with
        | [] | [_] => Ok (w, [i])
        | [g0; g1] =>
            match ft_multi f with
            | _ :: _ =>
                let* (a, b, mid) := hpn_shortest_path f in
                let* a := as_pte a in
                let* b := as_pte b in
                let (w, j) := alloc_saddle (new_saddle (piece f mid.1 [[a]; [b]])) w in
                Ok (w, [j])
            | [] =>
                let* h0 := highest g0 in
                let* h1 := highest g1 in
                let (w, j) := alloc_saddle (new_saddle (piece f (ft_pos f) [h0; h1])) w in
                Ok (w, [j])
            end
        | _ =>
            let* rs := generate_child_saddles near m f in
            Ok (alloc_children i f rs w)
        end
    end.

  (** Locals of climb_from_saddles. *)
  Record walk_state := WS {
    ws_world : world;
    ws_climb : climb_state;
    ws_feats : list nat;
    ws_linkers : list nat;
    ws_doms : list nat }.

  (** summit_domain_walk.py:225-230, 242-247 and 266-271: linking saddle [k] to
      the summit of domain [d]. *)
  Definition link_saddle (ignoreDuplicates : bool) (d k : nat) (s : walk_state) : walk_state :=
    let w := ws_world s in
    let w := upd_summit d (fun su =>
      Summit (su_feat su) (su_links su) ((fun l => l ++ [k]) <$> su_domain su)) w in
    let n := length (w_links w) in
    let w := World (w_saddles w) (w_summits w) (w_links w ++ [Link d k false]) in
    let w := add_to_remote m ignoreDuplicates n w in
    WS w (ws_climb s) (ws_feats s) (ws_linkers s ++ [n]) (set_add d (ws_doms s)).

  (** summit_domain_walk.py:233-247 and 259-271, one high edge. *)
  Definition link_edge (ignoreDuplicates : bool) (k : nat) (g : list pte) (s : walk_state) : res walk_state :=
    match g with
    | [] => Err IndexError
    | h0 :: _ =>
        match cs_table (ws_climb s) !! pt_xy h0 with
        | None => Ok s
        | Some d => Ok (link_saddle ignoreDuplicates d k s)
        end
    end.

  Definition set_world (w : world) (s : walk_state) : walk_state :=
    WS w (ws_climb s) (ws_feats s) (ws_linkers s) (ws_doms s).
  Definition add_feat (k : nat) (s : walk_state) : walk_state :=
    WS (ws_world s) (ws_climb s) (ws_feats s ++ [k]) (ws_linkers s) (ws_doms s).

  Definition hpn_of (k : nat) (s : walk_state) : res (list (list pte)) :=
    match w_saddles (ws_world s) !! k with
    | Some o => Ok (ft_hpn (sa_feat o))
    | None => Err IndexError
    end.

  (** summit_domain_walk.py:190-199: climbing from all high edges of saddle [k]. *)
  Definition climb_edges (k : nat) (s : walk_state) : res walk_state :=
    let* hs := hpn_of k s in
    let* c := foldM (fun g c => let* r := climb_points near m g c in Ok r.2) hs (ws_climb s) in
    Ok (WS (ws_world s) c (ws_feats s) (ws_linkers s) (ws_doms s)).

  (** summit_domain_walk.py:233-256, one edge saddle [k] of saddle [j]. *)
  Definition edge_saddle (j : nat) (k : nat) (s : walk_state) : res walk_state :=
    let* hs := hpn_of k s in
    let* s := foldM (link_edge true k) hs s in
    let w := ws_world s in
    let w := upd_saddle k (set_parent (Some j)) w in
    let w := upd_saddle j (fun o => set_children (sa_children o ++ [k]) o) w in
    let w := upd_saddle j (set_over (Some true)) w in
    Ok (add_feat k (set_world w s)).

  (** summit_domain_walk.py:183-256 for a feature [i] on the border. *)
  Definition walk_border (i : nat) (s : walk_state) : res walk_state :=
    let* s := climb_edges i s in
    match w_saddles (ws_world s) !! i with
    | None => Err IndexError
    | Some o =>
        let f := sa_feat o in
        let finish (edges : list nat) (s : walk_state) :=
          let* s := foldM (edge_saddle i) edges s in
          let s := set_world (upd_saddle i (set_over (Some true)) (ws_world s)) s in
          Ok (add_feat i s) in
        let synth (s : walk_state) :=
          let* (w, ks) := generate_synthetic_saddles i (ws_world s) in
          finish ks (set_world w s) in
        if decide (ft_kind f = KRunoff) then
          if decide (ft_hpn f = []) then
            let* c := latlong_to_xy m (ft_latlon m f).1 (ft_latlon m f).2 in
            match cs_table (ws_climb s) !! c with
            | None => Ok (add_feat i s)
            | Some d => synth (link_saddle true d i s)
            end
          else finish [i] s
        else synth s
    end.

  (** summit_domain_walk.py:183-199 and 257-272, one synthetic saddle [k]. *)
  Definition walk_synthetic (k : nat) (s : walk_state) : res walk_state :=
    let* s := climb_edges k s in
    let* hs := hpn_of k s in
    let* s := foldM (link_edge false k) hs s in
    Ok (add_feat k s).

  (** summit_domain_walk.py:166-272, one saddle. *)
  Definition walk_one (i : nat) (s : walk_state) : res walk_state :=
    match w_saddles (ws_world s) !! i with
    | None => Err IndexError
    | Some o =>
        if ft_edge (sa_feat o) then walk_border i s
        else
          let* (w, ks) := generate_synthetic_saddles i (ws_world s) in
          foldM walk_synthetic ks (set_world w s)
    end.

  (** summit_domain_walk.py:55-66: registering the summits without a domain. *)
  Definition walk_init (w : world) (summits : list nat) : res walk_state :=
    foldM (fun i s =>
      match w_summits (ws_world s) !! i with
      | None => Err IndexError
      | Some su =>
          match su_domain su with
          | Some _ => Ok s
          | None =>
              let* cells := summit_cells m (su_feat su) in
              Ok (WS (upd_summit i (fun su => Summit (su_feat su) (su_links su) (Some [])) (ws_world s))
                     (sd_extend i cells (ws_climb s)) (ws_feats s) (ws_linkers s) (ws_doms s))
          end
      end) summits (WS w (CS ∅ []) [] [] []).

  (** summit_domain_walk.py:153-280 on a new Walk, given the list of features to
      walk from (saddles followed by runoffs). *)
  Definition climb_from_saddles (w : world) (summits feats : list nat) : res walk_state :=
    let* s := walk_init w summits in
    foldM walk_one feats s.

  Definition is_runoff (w : world) (i : nat) : bool :=
    match w_saddles w !! i with
    | Some o => bool_decide (ft_kind (sa_feat o) = KRunoff)
    | None => false
    end.

  (** domain_map.py:320-336 without argument. *)
  Definition dm_walk (d : dmap) : res (dmap * walk_state) :=
    let* s := climb_from_saddles (mp_world d) (mp_summits d) (mp_saddles d ++ mp_runoffs d) in
    let w := ws_world s in
    Ok (DMap w (mp_summits d) (filter (fun i => is_runoff w i = false) (ws_feats s))
          (filter (fun i => is_runoff w i = true) (ws_feats s)) (ws_linkers s), s).
End walk.

(** The containers made by discovery, as in domain_map.py:113-114: new objects,
    numbered in order, saddles before runoffs. *)
Definition dm_start (su sa ru : list feature) : dmap :=
  DMap (World (map new_saddle (sa ++ ru)) (map new_summit su) [])
    (seq 0 (length su)) (seq 0 (length sa)) (seq (length sa) (length ru)) [].

(** domain_map.py:91-131 with [sparse=True]: discovery and walk. *)
Definition dm_run_sparse fpath fp orc near (m : datamap) : res (dmap * walk_state) :=
  let* (su, sa, ru) := run_no_rebuild fp orc m in
  dm_walk fpath near m (dm_start su sa ru).
