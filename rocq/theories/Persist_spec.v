(** Independent description of what saving and loading keeps. *)
From Verif Require Import Persist_model Container_spec.
Local Open Scope Z_scope.

(** ** Points *)

(** [p] is the last of the points at its place. *)
Definition last_at (l : list pte) (p : pte) : Prop :=
  exists l1 l2, l = l1 ++ p :: l2 /\ forall q, q ∈ l2 -> pt_xy q <> pt_xy p.
(** The reloaded perimeter: for each place the last point; its index finds
    exactly these. *)
Record kept_bounds (b b' : bounds) : Prop := KeptBounds {
  kb_points : forall p, p ∈ per_points (b_per b') <-> last_at (per_points (b_per b)) p;
  kb_nodup : NoDup (map pt_xy (per_points (b_per b')));
  kb_index : match per_index (b_per b') with
             | None => per_points (b_per b) = []
             | Some t => per_points (b_per b) <> [] /\
                 forall c p, t !! c = Some p <-> pt_xy p = c /\ last_at (per_points (b_per b)) p
             end;
  kb_edge : b_edge b' = b_edge b;
  kb_edgepts : b_edgepts b' = b_edgepts b }.
(** The reloaded flat area: its points lose a third component. *)
Definition kept_multi (o o' : option multi) : Prop :=
  match o with
  | None => o' = None
  | Some u =>
      if decide (mu_points u = []) then o' = None
      else exists b b', mu_per u = Some b /\ kept_bounds b b' /\
        o' = Some (Multi (map (fun p => (p.1, None)) (mu_points u)) (mu_ele u) (Some b'))
  end.
(** A flat area with points has a perimeter, and that a list of edge points. *)
Definition has_perimeter (o : option multi) : Prop :=
  forall u, o = Some u -> mu_points u <> [] -> mu_per u <> None.
Definition has_edge_list (o : option multi) : Prop :=
  forall u b, o = Some u -> mu_points u <> [] -> mu_per u = Some b -> b_edgepts b <> None.

(** ** Objects *)

(** What a summit or saddle is, without its links and relations. *)
Definition kept_summit (u u' : psummit) : Prop :=
  pu_at u' = pu_at u /\ pu_edge u' = pu_edge u /\ pu_edgepts u' = pu_edgepts u /\ kept_multi (pu_multi u) (pu_multi u').
(** An override "not disqualified" is lost; a runoff is always at the edge. *)
Definition kept_saddle (runoff : bool) (s s' : psaddle) : Prop :=
  pa_at s' = pa_at s /\ pa_edge s' = runoff || pa_edge s /\ pa_edgepts s' = pa_edgepts s /\
  kept_multi (pa_multi s) (pa_multi s') /\ pa_hpn s' = pa_hpn s /\
  pa_single s' = pa_single s /\ pa_basin s' = pa_basin s /\
  pa_over s' = match pa_over s with Some true => Some true | _ => None end.

(** Two positions are told apart after rounding to six digits; zero is only
    equal to zero. *)
Definition same_number (q r : Q) : Prop :=
  (q == 0)%Q /\ (r == 0)%Q \/ ~ (q == 0)%Q /\ ~ (r == 0)%Q /\ round6 q = round6 r.
Definition same_spot (a b : spot) : Prop :=
  same_number (sp_lat a) (sp_lat b) /\ same_number (sp_lon a) (sp_lon b) /\ sp_ele a = sp_ele b.

Definition summit_at (p : pmap) (i : string) (a : spot) : Prop := exists u, (i, u) ∈ pm_summits p /\ pu_at u = a.
Definition saddle_at (p : pmap) (i : string) (a : spot) : Prop :=
  exists s, (i, s) ∈ pm_saddles p ++ pm_runoffs p /\ pa_at s = a.
(** Two links with equal ends. *)
Definition twin (p : pmap) (k l : plink) : Prop :=
  (exists a b, summit_at p (pl_summit k) a /\ summit_at p (pl_summit l) b /\ same_spot a b) /\
  (exists a b, saddle_at p (pl_saddle k) a /\ saddle_at p (pl_saddle l) b /\ same_spot a b).

(** [l'] is [l] without the members that are like an earlier one. *)
Inductive firsts {A} (like : A -> A -> Prop) : list A -> list A -> Prop :=
  | firsts_nil : firsts like [] []
  | firsts_keep l l' a : firsts like l l' -> (forall b, b ∈ l' -> ~ like a b) -> firsts like (l ++ [a]) (l' ++ [a])
  | firsts_drop l l' a b : firsts like l l' -> b ∈ l' -> like a b -> firsts like (l ++ [a]) l'.

(** All references lead to objects of the map; family relations of saddles stay
    among the saddles. *)
Record closed (p : pmap) : Prop := Closed {
  cl_family : forall i s, (i, s) ∈ pm_saddles p -> forall j, j ∈ pa_children s \/ pa_parent s = Some j \/ j ∈ pa_alts s ->
    j ∈ map fst (pm_saddles p);
  cl_links : forall k l, (k, l) ∈ pm_linkers p ->
    pl_summit l ∈ map fst (pm_summits p) /\ pl_saddle l ∈ map fst (pm_saddles p ++ pm_runoffs p);
  cl_domains : forall d, d ∈ pm_domains p ->
    pd_summit d ∈ map fst (pm_summits p) /\ forall j, j ∈ pd_saddles d -> j ∈ map fst (pm_saddles p ++ pm_runoffs p) }.
(** Every object has an id of its own, and no id is empty.  A runoff may be listed
    more than once; what is listed under one id is at one position. *)
Record good_ids (p : pmap) : Prop := GoodIds {
  gi_summits : NoDup (map fst (pm_summits p));
  gi_saddles : NoDup (map fst (pm_saddles p));
  gi_apart : forall i, i ∈ map fst (pm_saddles p) -> i ∉ map fst (pm_runoffs p);
  gi_runoffs : forall i s t, (i, s) ∈ pm_runoffs p -> (i, t) ∈ pm_runoffs p -> pa_at s = pa_at t;
  gi_links : NoDup (map fst (pm_linkers p));
  gi_parent_names : forall i s, (i, s) ∈ pm_saddles p -> pa_parent s <> Some ""%string;
  gi_link_names : ""%string ∉ map fst (pm_linkers p) }.
Definition can_save (p : pmap) : Prop :=
  (forall i u, (i, u) ∈ pm_summits p -> has_perimeter (pu_multi u)) /\
  (forall i s, (i, s) ∈ pm_saddles p ++ pm_runoffs p -> has_perimeter (pa_multi s)).
Definition can_read (p : pmap) : Prop :=
  (forall i u, (i, u) ∈ pm_summits p -> has_edge_list (pu_multi u)) /\
  (forall i s, (i, s) ∈ pm_saddles p ++ pm_runoffs p -> has_edge_list (pa_multi s)).

(** Two domains that count as one: of equal summits, with the same points, and
    with saddles that match one by one among those of equal elevation. *)
Definition domain_twin (p : pmap) (d e : pdomain) : Prop :=
  (exists a b, summit_at p (pd_summit d) a /\ summit_at p (pd_summit e) b /\ same_spot a b) /\
  (exists l k, Forall2 (saddle_at p) (pd_saddles d) l /\ Forall2 (saddle_at p) (pd_saddles e) k /\
     level_by_level (fun a => inject_Z (sp_ele a)) same_spot l k) /\
  pd_points d ≡ₚ pd_points e.

(** The links of a map at a summit or saddle. *)
Definition at_end (f : plink -> string) (p : pmap) (i : string) : list (string * plink) :=
  filter (fun k => f k.2 = i) (pm_linkers p).

(** The links of the runoff at one place of the reloaded list: those of the last
    copy of a runoff; the earlier copies have none. *)
Definition runoff_links (p : pmap) (after : list string) (e : string * psaddle) : Prop :=
  if decide (e.1 ∈ after) then pa_links e.2 = []
  else exists l, firsts (fun a b => twin p a.2 b.2) (at_end pl_saddle p e.1) l /\ pa_links e.2 = map fst l.

(** The reloaded map. *)
Record reloaded (p p' : pmap) : Prop := Reloaded {
  rl_summits : Forall2 (fun e e' => e'.1 = e.1 /\ kept_summit e.2 e'.2 /\
      (exists l, firsts (fun a b => twin p a.2 b.2) (at_end pl_summit p e.1) l /\ pu_links e'.2 = map fst l) /\
      match pu_domain e'.2 with
      | None => forall d, d ∈ pm_domains p -> pd_summit d <> e.1
      | Some d => exists l1 l2, pm_domains p = l1 ++ d :: l2 /\ pd_summit d = e.1 /\ forall d', d' ∈ l2 -> pd_summit d' <> e.1
      end) (pm_summits p) (pm_summits p');
  rl_saddles : Forall2 (fun e e' => e'.1 = e.1 /\ kept_saddle false e.2 e'.2 /\
      (exists l, firsts (fun a b => twin p a.2 b.2) (at_end pl_saddle p e.1) l /\ pa_links e'.2 = map fst l) /\
      pa_parent e'.2 = pa_parent e.2 /\ pa_children e'.2 = pa_children e.2 /\ pa_alts e'.2 = pa_alts e.2)
    (pm_saddles p) (pm_saddles p');
  rl_runoffs : Forall2 (fun e e' => e'.1 = e.1 /\ kept_saddle true e.2 e'.2 /\
      pa_parent e'.2 = None /\ pa_children e'.2 = [] /\ pa_alts e'.2 = [])
    (pm_runoffs p) (pm_runoffs p');
  rl_copies : forall l1 e l2, pm_runoffs p' = l1 ++ e :: l2 -> runoff_links p (map fst l2) e;
  rl_linkers : pm_linkers p' = pm_linkers p;
  rl_domains : firsts (domain_twin p) (pm_domains p) (pm_domains p') }.

(** The saved object [v] has the list [l] of ids under [k]. *)
Definition names_in (v : val) (k : string) (l : list string) : Prop := dget v k = Ok (VSeq (map VStr l)).
