(** Model of /repo/pyprom/lib/loaders/gdal_loader.py,
    /repo/pyprom/lib/loaders/util/detect_vertical_units.py and
    /repo/pyprom/lib/loaders/util/metricate_vertical_dataset.py. *)
From Verif Require Export Container_model.
From Coq Require Export Qabs.
Local Open Scope Z_scope.

(** constants.py:23-31.  [Confidence] is a [str] Enum: its members are the
    strings "2", "1" and "0" and are compared as strings. *)
Inductive vunit := METERS | FEET | UNKNOWN.
Global Instance vunit_dec : EqDecision vunit. Proof. solve_decision. Defined.
Inductive confidence := HIGH | MEDIUM | LOW.
Definition conf_str (c : confidence) : string := match c with HIGH => "2" | MEDIUM => "1" | LOW => "0" end.
(** [<] on strings. *)
Definition str_lt (a b : string) : bool := match String.compare a b with Lt => true | _ => false end.
Definition conf_lt (a b : confidence) : bool := str_lt (conf_str a) (conf_str b).

(** constants.py:34-35 *)
Definition GDAL_METERS : list string := ["m"; "meter"; "metre"; "meters"; "metres"]%string.
Definition GDAL_FEET : list string :=
  ["ft"; "feet"; "foot"; "us_survey_foot"; "us-ft"; "us survey foot"; "US survey foot"]%string.
Definition METERS_PER_FOOT : Q := 3048 # 10000.

(** What the functions read from a dataset with one band.  [ds_srs] is [None]
    without a projection, else whether it is geographic and its linear unit in
    meters.  [ds_range] is the difference of the 99th and the 1st percentile of
    the sampled values that are not nodata: [None] if there are no such values,
    [Some None] if it is not a number.  Simplifications: the band index is
    valid; sampling and percentiles are not modelled; exact rationals. *)
Record dataset := Dataset {
  ds_unit : string;
  ds_srs : option (bool * Q);
  ds_range : option (option Q);
  ds_values : list Q }.

(** detect_vertical_units.py:54-86 *)
Definition heuristic (d : dataset) : vunit * confidence :=
  match ds_range d with
  | None => (UNKNOWN, LOW)
  | Some (Some r) => if Qle_bool r (8900 # 1) then (METERS, LOW) else (FEET, MEDIUM)
  | Some None => (METERS, LOW)
  end.
Definition Qlt_bool (a b : Q) : bool := negb (Qle_bool b a).
(** detect_vertical_units.py:36-52, then the heuristic *)
Definition detect_linear (d : dataset) : vunit * confidence :=
  match ds_srs d with
  | Some (false, unit_factor) =>
      if Qlt_bool (Qabs (unit_factor - 1)) (1 # 1000000000) then (METERS, MEDIUM)
      else if Qlt_bool (Qabs (unit_factor - METERS_PER_FOOT)) (1 # 1000000) then (FEET, MEDIUM)
      else heuristic d
  | _ => heuristic d
  end.
(** detect_vertical_units.py:16-86 [detect_vertical_unit] *)
Definition detect_vertical_unit (d : dataset) : vunit * confidence :=
  if decide (ds_unit d = ""%string) then detect_linear d
  else
    let band_unit := lower (ds_unit d) in
    if decide (band_unit ∈ GDAL_METERS) then (METERS, HIGH)
    else if decide (band_unit ∈ GDAL_FEET) then (FEET, HIGH)
    else detect_linear d.

(** metricate_vertical_dataset.py:11-46: the product with a number is a numpy
    array, which has no attribute [SetUnitType] (line 32). *)
Definition convert_feet_to_meters (d : dataset) : res dataset :=
  let raster_array_meters := map (fun v => v * METERS_PER_FOOT)%Q (ds_values d) in
  let* _ := (Err AttributeError : res unit) in
  Ok (Dataset "" (ds_srs d) (ds_range d) raster_array_meters).

(** gdal_loader.py:43-83 [GDALLoader.__init__] for a file that opens.  [warp] is
    [warp_to_geographic].  Both attributes of the object are given:
    [source_gdal_dataset] and [gdal_dataset]. *)
Section loader.
  Variable warp : dataset -> dataset.
  Definition gdal_load (force : option vunit) (min_conf : confidence) (source : dataset) : res (dataset * dataset) :=
    let* units :=
      match force with
      | Some u => Ok u
      | None =>
          let '(u, c) := detect_vertical_unit source in
          if conf_lt c min_conf || bool_decide (u = UNKNOWN) then Err OtherError else Ok u
      end in
    let* _ := if decide (units = METERS) then Ok source else convert_feet_to_meters source in
    Ok (source, warp source).
End loader.
