(** Model of /repo/pyprom/lib/logic/summit_domain_walk.py:48-151 and of
    /repo/pyprom/lib/containers/summit_domain.py:72-99. *)
From Verif Require Export Network_model.

(** The part of a Walk's state that climbing changes.  Summit domains are
    named by numbers.  [cs_table] is [summit_domain_points] flattened;
    [cs_log] lists the calls [append(point)] in order, so the [points] list of
    domain [d] consists of the cells logged with [d] ([domain_points]).
    Simplification: the elevation that some of these tuples carry is dropped. *)
Record climb_state := CS {
  cs_table : gmap xy nat;
  cs_log : list (nat * xy) }.

(** The list [points] of a SummitDomain. *)
Definition domain_points (s : climb_state) (d : nat) : list xy :=
  map snd (filter (fun e => e.1 = d) (cs_log s)).

(** summit_domain.py:72-85 *)
Definition sd_append (d : nat) (c : xy) (s : climb_state) : climb_state :=
  CS (<[c := d]> (cs_table s)) (cs_log s ++ [(d, c)]).
(** summit_domain.py:87-99 *)
Definition sd_extend (d : nat) (cs : list xy) (s : climb_state) : climb_state :=
  foldl (fun s c => sd_append d c s) s cs.

(** summit_domain_walk.py:55-66 for the summits without a domain: one new
    domain per summit, named by the index of the summit. *)
Definition summit_cells (m : datamap) (f : feature) : res (list xy) :=
  match ft_multi f with
  | [] =>
      let* c := latlong_to_xy m (ft_latlon m f).1 (ft_latlon m f).2 in
      Ok [c]
  | l => Ok (map fst l)
  end.
Definition prepopulate (m : datamap) (summits : list feature) : res climb_state :=
  foldM (fun (i_f : nat * feature) s =>
    let* cells := summit_cells m i_f.2 in
    Ok (sd_extend i_f.1 cells s)) (imap pair summits) (CS ∅ []).

Section climb.
  Variable near : searches.
  Variable m : datamap.

  (** summit_domain_walk.py:144-147, assigning the members of a flat area. *)
  Definition assign_flat (closest : gmap pte pte) (s : climb_state) : res climb_state :=
    foldM (fun (kv : pte * pte) s =>
      match cs_table s !! pt_xy kv.2 with
      | None => Err KeyError
      | Some d => Ok (CS (<[pt_xy kv.1 := d]> (cs_table s)) (cs_log s))
      end) (map_to_list closest) s.

  (** summit_domain_walk.py:83-107, the [while True] loop of [climb] with
      [climb_points([], sn)] (lines 128-148) inlined; the recursive calls of
      [climb] made there start with the test of lines 86-87. *)
  Fixpoint climb_loop (fuel : nat) (current : pte) (climbed : list xy) (s : climb_state) :
      res (option nat * climb_state) :=
    match fuel with
    | O => Err OutOfFuel
    | S fuel =>
        let* r := steepestNeighbor m (pt_x current) (pt_y current) in
        match r with
        | None => Ok (None, s)
        | Some sn =>
            match cs_table s !! pt_xy sn with
            | Some d => Ok (Some d, sd_extend d climbed s)
            | None =>
                if pt_e sn =? pt_e current then
                  let* b := equalHeightBlob m (pt_x sn) (pt_y sn) (pt_e sn) in
                  let* s1 :=
                    foldM (fun p s =>
                      match cs_table s !! pt_xy p with
                      | Some _ => Ok s
                      | None => let* r := climb_loop fuel p [pt_xy p] s in Ok r.2
                      end) (findHighPerimeter (bl_perimeter b) (pt_e sn)) s in
                  let* closest :=
                    s_map near
                      (map (fun c => (c, bl_elevation b)) (bl_points b))
                      (findHighPerimeter (bl_perimeter b) (bl_elevation b)) in
                  let* s2 := assign_flat closest s1 in
                  match cs_table s2 !! pt_xy sn with
                  | None => Err KeyError
                  | Some d => Ok (Some d, sd_extend d climbed s2)
                  end
                else climb_loop fuel sn (climbed ++ [pt_xy sn]) s
            end
        end
    end.

  (** Fuel that is always enough (shown in Climb_proof.v). *)
  Definition climb_fuel : nat := S (Z.to_nat ((dm_max_x m + 1) * (dm_max_y m + 1))).

  (** summit_domain_walk.py:69-107 *)
  Definition climb (p : pte) (s : climb_state) : res (option nat * climb_state) :=
    match cs_table s !! pt_xy p with
    | Some d => Ok (Some d, s)
    | None => climb_loop climb_fuel p [pt_xy p] s
    end.

  (** summit_domain_walk.py:109-151 without [entryPoint]: the set of domains
      found, enumerated in order of first occurrence. *)
  Definition climb_points (ps : list pte) (s : climb_state) : res (list nat * climb_state) :=
    foldM (fun p (ds : list nat * climb_state) =>
      let* r := climb p ds.2 in
      Ok (match r.1 with Some d => set_add d ds.1 | None => ds.1 end, r.2)) ps ([], s).
End climb.
