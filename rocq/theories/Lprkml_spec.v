(** Independent description of what a region shows on a map. *)
From Verif Require Import Base_model Graph_model Divide_model Divide_spec Kml_model.

(** Link [k] between summit [a] and saddle [i] lies on a reported path. *)
Definition on_path (w : world) (paths : list (list nat * nat)) (k a i : nat) : Prop :=
  exists q s, (q, s) ∈ paths /\ k ∈ q /\ joins w k a i.

(** The placemarks [ps] are those of the things [x] with [P x], whose texts are
    [text x] and whose style is [style]: every placemark is that of such a thing,
    every such thing has a placemark of its place, and there is one for a place. *)
Definition shows {A} (P : A -> Prop) (text : A -> string * string) (style : string) (ps : list placemark) : Prop :=
  (forall p, p ∈ ps -> exists x, P x /\ p = Pm style (text x).1 (text x).2) /\
  (forall x, P x -> exists p, p ∈ ps /\ pm_style p = style /\ pm_wkt p = (text x).1) /\
  NoDup (map pm_wkt ps).
