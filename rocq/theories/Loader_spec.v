(** Independent description of unit detection. *)
From Verif Require Import Loader_model Container_spec.
Local Open Scope Z_scope.

(** The name is one of the known names, in any mixture of upper and lower case. *)
Definition named (names : list string) (u : string) : Prop := exists n, n ∈ names /\ same_word u n.
Definition metre_names : list string := ["m"; "meter"; "metre"; "meters"; "metres"]%string.
Definition foot_names : list string := ["ft"; "feet"; "foot"; "us_survey_foot"; "us-ft"; "us survey foot"]%string.

(** The dataset has a projected coordinate system whose unit is within [eps] of
    [f] metres. *)
Definition unit_near (d : dataset) (f eps : Q) : Prop :=
  exists u, ds_srs d = Some (false, u) /\ (f - eps < u < f + eps)%Q.
(** More than 8900 between low and high values. *)
Definition too_tall (d : dataset) : Prop := exists r, ds_range d = Some (Some r) /\ (8900#1 < r)%Q.

(** The order of confidence. *)
Definition rank (c : confidence) : nat := match c with HIGH => 2 | MEDIUM => 1 | LOW => 0 end.

(** The rules in their order of priority. *)
Inductive detected (d : dataset) : vunit -> confidence -> Prop :=
  | by_band_m : named metre_names (ds_unit d) -> detected d METERS HIGH
  | by_band_ft : ~ named metre_names (ds_unit d) -> named foot_names (ds_unit d) -> detected d FEET HIGH
  | by_unit_m : ~ named (metre_names ++ foot_names) (ds_unit d) -> unit_near d 1 (1#1000000000) -> detected d METERS MEDIUM
  | by_unit_ft : ~ named (metre_names ++ foot_names) (ds_unit d) -> ~ unit_near d 1 (1#1000000000) ->
      unit_near d (3048#10000) (1#1000000) -> detected d FEET MEDIUM
  | by_height : ~ named (metre_names ++ foot_names) (ds_unit d) -> ~ unit_near d 1 (1#1000000000) ->
      ~ unit_near d (3048#10000) (1#1000000) -> too_tall d -> detected d FEET MEDIUM
  | by_nothing : ~ named (metre_names ++ foot_names) (ds_unit d) -> ~ unit_near d 1 (1#1000000000) ->
      ~ unit_near d (3048#10000) (1#1000000) -> ds_range d = None -> detected d UNKNOWN LOW
  | by_default : ~ named (metre_names ++ foot_names) (ds_unit d) -> ~ unit_near d 1 (1#1000000000) ->
      ~ unit_near d (3048#10000) (1#1000000) -> ~ too_tall d -> ds_range d <> None -> detected d METERS LOW.

(** The units the loader goes by: the forced ones, else the detected ones if
    they are known and detected with enough confidence. *)
Definition settled (force : option vunit) (min_conf : confidence) (d : dataset) (u : vunit) : Prop :=
  match force with
  | Some f => u = f
  | None => exists c, detected d u c /\ (rank min_conf <= rank c)%nat /\ u <> UNKNOWN
  end.
