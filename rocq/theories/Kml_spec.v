(** Independent description of what ends up in the folders of the map export. *)
From Verif Require Import Kml_model.

(** Every single feature passed in, in the order of the calls; domain maps
    give their links, saddles, summits, runoffs and domains. *)
Fixpoint leaves (f : kfeature) : list kfeature :=
  match f with
  | KContainer fs => concat (map leaves fs)
  | KMap a b c d e => concat (map leaves a) ++ concat (map leaves b) ++ concat (map leaves c) ++
      concat (map leaves d) ++ concat (map leaves e)
  | _ => [f]
  end.
Definition all_leaves (fs : list kfeature) : list kfeature := concat (map leaves fs).

(** [k] holds, for every key that occurs in [l], the first element with it, in
    the order of first occurrence. *)
Inductive firsts {A B} (key : A -> B) : list A -> list A -> Prop :=
  | firsts_nil : firsts key [] []
  | firsts_new l k x : firsts key l k -> key x ∉ map key l -> firsts key (l ++ [x]) (k ++ [x])
  | firsts_old l k x : firsts key l k -> key x ∈ map key l -> firsts key (l ++ [x]) k.

(** The features of one kind, as (style, geometry, name). *)
Definition saddles_of (f : kfeature) : option placemark :=
  match f with
  | KLoc (KSaddle true) g n => Some (Pm "#basinsaddle" g n)
  | KLoc (KSaddle false) g n => Some (Pm "#saddle" g n)
  | _ => None
  end.
Definition summits_of (f : kfeature) : option placemark :=
  match f with KLoc KSummit g n => Some (Pm "#summit" g n) | _ => None end.
Definition runoffs_of (f : kfeature) : option placemark :=
  match f with KLoc KRunoff g n => Some (Pm "#runoff" g n) | _ => None end.
Definition spots_of (f : kfeature) : option placemark :=
  match f with KLoc KSpot g n => Some (Pm "#spotelevation" g n) | _ => None end.
Definition linkers_of (f : kfeature) : option placemark :=
  match f with KLinker g => Some (Pm "" g "") | _ => None end.
Definition domains_of (f : kfeature) : option placemark :=
  match f with KDomain g n => Some (Pm "" g n) | _ => None end.
(** The kind (told apart by the style) and the geometry. *)
Definition kind_and_place (p : placemark) : string * string := (pm_style p, pm_wkt p).

(** The folders of the exported document and the features that belong in each. *)
Definition folders : list (string * (kfeature -> option placemark)) :=
  [("Saddles", saddles_of); ("Summits", summits_of); ("SpotElevations", spots_of); ("Runoffs", runoffs_of);
   ("Linkers", linkers_of); ("SummitDomains", domains_of)]%string.
