(** Model of the coordinate conversions in binary64 arithmetic.
    Sources: pyprom/lib/datamaps/datamap.py. *)
From Verif Require Import Base_model Raster_model.
From Flocq Require Import Core BinarySingleNaN.
Local Open Scope Z_scope.

(** Python [float]; NaN payloads are not kept apart. *)
Definition b64 := binary_float 53 1024.
Global Instance b64_prec : Prec_gt_0 53 := eq_refl.
Global Instance b64_emax : Prec_lt_emax 53 1024 := eq_refl.

Definition f_add (a b : b64) : b64 := Bplus mode_NE a b.
Definition f_sub (a b : b64) : b64 := Bminus mode_NE a b.
Definition f_mul (a b : b64) : b64 := Bmult mode_NE a b.
(** Python [a / b]: the exception instead of an infinity for a zero divisor. *)
Definition f_div (a b : b64) : res b64 :=
  match b with
  | B754_zero _ => Err ZeroDivisionError
  | _ => Ok (Bdiv mode_NE a b)
  end.
(** The conversion of an [int] operand to [float] ([OverflowError] if too large). *)
Definition f_int (z : Z) : res b64 :=
  let f := binary_normalize 53 1024 _ _ mode_NE z 0 false in
  if is_finite f then Ok f else Err OtherError.

(** [m * 2^e] *)
Definition dyadic (m e : Z) : Q :=
  match e with
  | Z0 => inject_Z m
  | Zpos p => inject_Z (m * 2 ^ Zpos p)
  | Zneg p => m # (2 ^ p)
  end.
(** [round] of a float: exact, ties to even; [ValueError] for NaN,
    [OverflowError] for infinities. *)
Definition f_round (f : b64) : res Z :=
  match f with
  | B754_nan => Err ValueError
  | B754_infinity _ => Err OtherError
  | B754_zero _ => Ok 0
  | B754_finite s m e _ => Ok (py_round (dyadic (cond_Zopp s (Zpos m)) e))
  end.

(** The six terms of [GetGeoTransform]. *)
Record f_geotransform := FGT { fgt0 : b64; fgt1 : b64; fgt2 : b64; fgt3 : b64; fgt4 : b64; fgt5 : b64 }.

(** datamap.py:76-84 [xy_to_latlon] *)
Definition f_xy_to_latlon (g : f_geotransform) (x y : Z) : res (b64 * b64) :=
  let* fy := f_int y in
  let* fx := f_int x in
  let lon := f_add (f_add (fgt0 g) (f_mul fy (fgt1 g))) (f_mul fx (fgt2 g)) in
  let lat := f_add (f_add (fgt3 g) (f_mul fy (fgt4 g))) (f_mul fx (fgt5 g)) in
  Ok (lat, lon).

(** datamap.py:86-94 [latlong_to_xy] *)
Definition f_latlong_to_xy (g : f_geotransform) (lat lon : b64) : res (Z * Z) :=
  let* qy := f_div (f_sub lon (fgt0 g)) (fgt1 g) in
  let* numpy_y := f_round qy in
  let* qx := f_div (f_sub lat (fgt3 g)) (fgt5 g) in
  let* numpy_x := f_round qx in
  Ok (numpy_x, numpy_y).

(** datamap.py:96-104 [elevation] *)
Definition f_elevation (m : datamap) (g : f_geotransform) (lat lon : b64) : res Z :=
  let* xy := f_latlong_to_xy g lat lon in
  dm_get m xy.1 xy.2.
