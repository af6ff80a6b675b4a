(** Model of the object graph: /repo/pyprom/lib/locations/saddle.py,
    /repo/pyprom/lib/locations/summit.py, /repo/pyprom/lib/containers/linker.py,
    /repo/pyprom/lib/containers/summit_domain.py and
    /repo/pyprom/domain_map.py:267-318. *)
From Verif Require Export Climb_model.

(** ** Comparing locations *)

(** A SpotElevation as the comparison methods see it. *)
Record spot := Spot { sp_lat : Q; sp_lon : Q; sp_ele : Z }.

(** [round(q, 6)], given by the rounded number of millionths.  The conversion
    of the result back to a float is injective on coordinates and is left out. *)
Definition round6 (q : Q) : Z := py_round (q * (1000000 # 1)).

(** locations/spot_elevation.py:155-163: [None] for a zero coordinate. *)
Definition eq_key (q : Q) : option Z := if Qeq_bool q 0 then None else Some (round6 q).

(** locations/spot_elevation.py:147-166 [__eq__] *)
Definition spot_eq (a b : spot) : bool :=
  bool_decide (eq_key (sp_lat a) = eq_key (sp_lat b)) &&
  bool_decide (eq_key (sp_lon a) = eq_key (sp_lon b)) && (sp_ele a =? sp_ele b).

(** locations/spot_elevation.py:168-180 [__ne__] *)
Definition spot_ne (a b : spot) : bool :=
  negb ((round6 (sp_lat a) =? round6 (sp_lat b)) && (round6 (sp_lon a) =? round6 (sp_lon b)) &&
        (sp_ele a =? sp_ele b)).

(** ** Objects *)

(** A Saddle or Runoff object (saddle.py:63-120).  References to other objects
    are numbers.  [sa_feat] holds the constructor arguments; [sa_links] is
    [summits], the list of linkers; [sa_over] is [_disqualified]. *)
Record saddle := Saddle {
  sa_feat : feature;
  sa_links : list nat;
  sa_parent : option nat;
  sa_children : list nat;
  sa_single : bool;
  sa_basin : bool;
  sa_alts : list nat;
  sa_over : option bool }.

(** A Summit object (summit.py:50-81).  [su_links] is [saddles], the list of
    linkers.  [su_domain] is the [saddles] list of its SummitDomain, if it has
    one; a domain is named by the number of its summit, and its [points] are
    kept in the climb state. *)
Record summit := Summit {
  su_feat : feature;
  su_links : list nat;
  su_domain : option (list nat) }.

(** A Linker object (linker.py:30-50). *)
Record link := Link { ln_summit : nat; ln_saddle : nat; ln_disq : bool }.

(** All objects.  Ids ([randomString]) are identified with the position, i.e.
    taken to be unique. *)
Record world := World {
  w_saddles : list saddle;
  w_summits : list summit;
  w_links : list link }.

Definition upd_saddle (i : nat) (f : saddle -> saddle) (w : world) : world :=
  World (alter f i (w_saddles w)) (w_summits w) (w_links w).
Definition upd_summit (i : nat) (f : summit -> summit) (w : world) : world :=
  World (w_saddles w) (alter f i (w_summits w)) (w_links w).
Definition upd_link (i : nat) (f : link -> link) (w : world) : world :=
  World (w_saddles w) (w_summits w) (alter f i (w_links w)).

Definition set_links (l : list nat) (s : saddle) : saddle :=
  Saddle (sa_feat s) l (sa_parent s) (sa_children s) (sa_single s) (sa_basin s) (sa_alts s) (sa_over s).
Definition set_parent (p : option nat) (s : saddle) : saddle :=
  Saddle (sa_feat s) (sa_links s) p (sa_children s) (sa_single s) (sa_basin s) (sa_alts s) (sa_over s).
Definition set_children (l : list nat) (s : saddle) : saddle :=
  Saddle (sa_feat s) (sa_links s) (sa_parent s) l (sa_single s) (sa_basin s) (sa_alts s) (sa_over s).
Definition set_single (b : bool) (s : saddle) : saddle :=
  Saddle (sa_feat s) (sa_links s) (sa_parent s) (sa_children s) b (sa_basin s) (sa_alts s) (sa_over s).
Definition set_basin (b : bool) (s : saddle) : saddle :=
  Saddle (sa_feat s) (sa_links s) (sa_parent s) (sa_children s) (sa_single s) b (sa_alts s) (sa_over s).
Definition set_alts (l : list nat) (s : saddle) : saddle :=
  Saddle (sa_feat s) (sa_links s) (sa_parent s) (sa_children s) (sa_single s) (sa_basin s) l (sa_over s).
Definition set_over (o : option bool) (s : saddle) : saddle :=
  Saddle (sa_feat s) (sa_links s) (sa_parent s) (sa_children s) (sa_single s) (sa_basin s) (sa_alts s) o.

(** A newly constructed Saddle or Summit. *)
Definition new_saddle (f : feature) : saddle := Saddle f [] None [] false false [] None.
Definition new_summit (f : feature) : summit := Summit f [] None.

(** ** Saddle methods *)

(** saddle.py:249-260, the getter. *)
Definition disqualified (s : saddle) : bool :=
  match sa_over s with
  | Some b => b
  | None => sa_single s || sa_basin s
  end.

(** saddle.py:269-287 *)
Definition disqualify_self_and_linkers (basin single : bool) (i : nat) (w : world) : world :=
  let w := if basin then upd_saddle i (set_basin true) w else w in
  let w := if single then upd_saddle i (set_single true) w else w in
  let w := if basin || single then w else upd_saddle i (set_over (Some true)) w in
  match w_saddles w !! i with
  | None => w
  | Some s => foldl (fun w l => upd_link l (fun k => Link (ln_summit k) (ln_saddle k) true) w)
                    w (sa_links s)
  end.

Section methods.
  Variable m : datamap.

  (** The SpotElevation view of an object: its position is the latitude and
      longitude of its cell. *)
  Definition ft_spot (f : feature) : spot :=
    Spot (ft_latlon m f).1 (ft_latlon m f).2 (ft_ele f).
  Definition saddle_spot (w : world) (i : nat) : option spot :=
    (fun s => ft_spot (sa_feat s)) <$> w_saddles w !! i.

  (** [x != self] for two saddles. *)
  Definition saddle_ne (w : world) (i j : nat) : bool :=
    match saddle_spot w i, saddle_spot w j with
    | Some a, Some b => spot_ne a b
    | _, _ => true
    end.
  (** [x == y] inside a container: identity or [__eq__]. *)
  Definition saddle_same (w : world) (i j : nat) : bool :=
    Nat.eqb i j ||
    match saddle_spot w i, saddle_spot w j with
    | Some a, Some b => spot_eq a b
    | _, _ => false
    end.

  (** saddle.py:289-296 *)
  Definition emancipate (i : nat) (w : world) : world :=
    match w_saddles w !! i with
    | Some s =>
        match sa_parent s with
        | Some p =>
            upd_saddle i (set_parent None)
              (upd_saddle p (fun ps =>
                 set_children (filter (fun x => saddle_ne w x i = true) (sa_children ps)) ps) w)
        | None => w
        end
    | None => w
    end.

  (** saddle.py:298-305.  The loop runs over the list as it was at its start. *)
  Definition disown_children (i : nat) (w : world) : world :=
    match w_saddles w !! i with
    | Some s => upd_saddle i (set_children []) (foldl (fun w c => emancipate c w) w (sa_children s))
    | None => w
    end.

  (** saddle.py:307-321 *)
  Definition soft_delete (i : nat) (w : world) : world :=
    match w_saddles w !! i with
    | None => w
    | Some s0 =>
        let w := if decide (sa_children s0 = []) then w else disown_children i w in
        let w := emancipate i w in
        match w_saddles w !! i with
        | None => w
        | Some s =>
            let w := foldl (fun w b =>
                       upd_saddle b (fun bs =>
                         set_alts (filter (fun x => saddle_ne w x i = true) (sa_alts bs)) bs) w)
                     w (sa_alts s) in
            disqualify_self_and_linkers false false i (upd_saddle i (set_alts []) w)
        end
    end.

  (** ** Linker methods *)

  (** linker.py:179-195.  [self not in list] compares linkers by
      [[summit, saddle] == [summit, saddle]] (linker.py:253-264). *)
  Definition summit_spot (w : world) (i : nat) : option spot :=
    (fun s => ft_spot (su_feat s)) <$> w_summits w !! i.
  Definition summit_same (w : world) (i j : nat) : bool :=
    Nat.eqb i j ||
    match summit_spot w i, summit_spot w j with
    | Some a, Some b => spot_eq a b
    | _, _ => false
    end.
  Definition link_same (w : world) (k l : nat) : bool :=
    match w_links w !! k, w_links w !! l with
    | Some a, Some b => summit_same w (ln_summit a) (ln_summit b) &&
                        saddle_same w (ln_saddle a) (ln_saddle b)
    | _, _ => false
    end.
  Definition add_to_remote (ignoreDuplicates : bool) (k : nat) (w : world) : world :=
    match w_links w !! k with
    | None => w
    | Some l =>
        let add_su (w : world) := upd_summit (ln_summit l)
          (fun s => Summit (su_feat s) (su_links s ++ [k]) (su_domain s)) w in
        let add_sa (w : world) := upd_saddle (ln_saddle l) (fun s => set_links (sa_links s ++ [k]) s) w in
        let known_su := match w_summits w !! ln_summit l with
                        | Some s => existsb (link_same w k) (su_links s) | None => false end in
        let known_sa := match w_saddles w !! ln_saddle l with
                        | Some s => existsb (link_same w k) (sa_links s) | None => false end in
        let w := if ignoreDuplicates && known_su then w else add_su w in
        if ignoreDuplicates && known_sa then w else add_sa w
    end.
End methods.

(** linker.py:52-60 *)
Definition prom (w : world) (k : nat) : option Z :=
  match w_links w !! k with
  | Some l =>
      match w_summits w !! ln_summit l, w_saddles w !! ln_saddle l with
      | Some su, Some sa => Some (ft_ele (su_feat su) - ft_ele (sa_feat sa))
      | _, _ => None
      end
  | None => None
  end.

(** linker.py:302-325; [exempt k] is the truth value of [exemptLinkers.get(k)]. *)
Definition linker_ok (w : world) (skip : bool) (exempt : nat -> bool) (k : nat) : bool :=
  let d := match w_links w !! k with Some l => ln_disq l | None => false end in
  if skip then if d || exempt k then false else true
  else if exempt k then false else true.

(** The linkers at the two ends of a linker. *)
Definition summit_links (w : world) (k : nat) : list nat :=
  match w_links w !! k with
  | Some l => match w_summits w !! ln_summit l with Some s => su_links s | None => [] end
  | None => []
  end.
Definition saddle_links (w : world) (k : nat) : list nat :=
  match w_links w !! k with
  | Some l => match w_saddles w !! ln_saddle l with Some s => sa_links s | None => [] end
  | None => []
  end.

(** linker.py:72-97 *)
Definition saddles_connected_via_summit (w : world) (skip : bool) (exempt : nat -> bool) (k : nat) :
    list nat :=
  match w_links w !! k with
  | None => []
  | Some l =>
      if skip && ln_disq l then []
      else if exempt k then []
      else omap (fun j => ln_saddle <$> w_links w !! j)
             (filter (fun j => linker_ok w skip exempt j = true) (summit_links w k))
  end.
(** linker.py:99-124 *)
Definition summits_connected_via_saddle (w : world) (skip : bool) (exempt : nat -> bool) (k : nat) :
    list nat :=
  match w_links w !! k with
  | None => []
  | Some l =>
      if skip && ln_disq l then []
      else if exempt k then []
      else omap (fun j => ln_summit <$> w_links w !! j)
             (filter (fun j => linker_ok w skip exempt j = true) (saddle_links w k))
  end.
(** linker.py:126-141; ids are equal exactly for the same linker. *)
Definition help_exclude_self (k j : nat) (excludeSelf : bool) : bool :=
  if excludeSelf then if Nat.eqb k j then false else true else true.
(** linker.py:143-159 *)
Definition linkers_to_saddles_connected_via_summit (w : world) (excludeSelf skip : bool) (k : nat) :
    list nat :=
  filter (fun j => linker_ok w skip (fun _ => false) j && help_exclude_self k j excludeSelf = true)
    (summit_links w k).
(** linker.py:161-177 *)
Definition linkers_to_summits_connected_via_saddle (w : world) (excludeSelf skip : bool) (k : nat) :
    list nat :=
  filter (fun j => linker_ok w skip (fun _ => false) j && help_exclude_self k j excludeSelf = true)
    (saddle_links w k).

(** saddle.py:166-185 and summit.py:117-136 *)
Definition saddle_all_neighbors (w : world) (filterDisqualified : bool) (i : nat) : list nat :=
  match w_saddles w !! i with
  | None => []
  | Some s =>
      if filterDisqualified then
        concat (map (saddles_connected_via_summit w true (fun _ => false))
          (filter (fun k => (ln_disq <$> w_links w !! k) = Some false)
             (sa_links s)))
      else concat (map (saddles_connected_via_summit w false (fun _ => false)) (sa_links s))
  end.
Definition summit_all_neighbors (w : world) (filterDisqualified : bool) (i : nat) : list nat :=
  match w_summits w !! i with
  | None => []
  | Some s =>
      if filterDisqualified then
        concat (map (summits_connected_via_saddle w true (fun _ => false))
          (filter (fun k => (ln_disq <$> w_links w !! k) = Some false)
             (su_links s)))
      else concat (map (summits_connected_via_saddle w false (fun _ => false)) (su_links s))
  end.

(** ** Purging, domain_map.py:267-318 *)

(** The attributes of a DomainMap: its containers as lists of objects. *)
Record dmap := DMap {
  mp_world : world;
  mp_summits : list nat;
  mp_saddles : list nat;
  mp_runoffs : list nat;
  mp_linkers : list nat }.

(** domain_map.py:287-302: whether a saddle is removed. *)
Definition purge_one (singleSummit basinSaddle allBasinSaddles : bool) (s : saddle) : bool :=
  if sa_basin s && (basinSaddle || allBasinSaddles) then
    if allBasinSaddles then true
    else if decide (sa_alts s = []) then true
    else sa_single s && singleSummit
  else sa_single s && singleSummit.

(** domain_map.py:284-304, the loop: saddles to remove, saddles to keep,
    linkers to keep. *)
Definition purge_split (singleSummit basinSaddle allBasinSaddles : bool) (w : world) (l : list nat) :
    list nat * list nat * list nat :=
  foldl (fun (a : list nat * list nat * list nat) i =>
    match w_saddles w !! i with
    | None => a
    | Some s =>
        if purge_one singleSummit basinSaddle allBasinSaddles s
        then (a.1.1 ++ [i], a.1.2, a.2)
        else (a.1.1, a.1.2 ++ [i], a.2 ++ sa_links s)
    end) ([], [], []) l.

(** saddle.py:142-147 [domains] and summit_domain.py:101-107 [remove_saddle]. *)
Definition remove_from_domains (m : datamap) (i : nat) (w : world) : world :=
  match w_saddles w !! i with
  | None => w
  | Some s =>
      foldl (fun w k =>
        match w_links w !! k with
        | None => w
        | Some l => upd_summit (ln_summit l) (fun su =>
            Summit (su_feat su) (su_links su)
              (filter (fun x => saddle_ne m w x i = true) <$> su_domain su)) w
        end) w (sa_links s)
  end.

(** domain_map.py:267-318 *)
Definition purge_saddles (m : datamap) (singleSummit basinSaddle allBasinSaddles : bool) (d : dmap) : dmap :=
  let '(rm, keep, links) :=
    purge_split singleSummit basinSaddle allBasinSaddles (mp_world d) (mp_saddles d) in
  let w := foldl (fun w i => remove_from_domains m i (soft_delete m i w)) (mp_world d) rm in
  DMap w (mp_summits d) keep (mp_runoffs d) links.
