(** Model of the slope comparison in binary64 arithmetic.
    Source: pyprom/lib/datamaps/base_datamap.py. *)
From Verif Require Import Base_model Raster_model Float_model.
From Flocq Require Import Core BinarySingleNaN.
Local Open Scope Z_scope.

(** The elevation [z] as a [float]; rasters are read as float32
    (datamap.py:55-57), and finite float32 values are multiples of 2^-149. *)
Definition f_ele (z : Z) : b64 := binary_normalize 53 1024 _ _ mode_NE z (-149) false.

(** The value of a finite float; comparisons with infinities and NaN are not
    modelled and reported as an error. *)
Definition f_val (f : b64) : res Q :=
  match f with
  | B754_zero _ => Ok 0%Q
  | B754_finite s m e _ => Ok (dyadic (cond_Zopp s (Zpos m)) e)
  | _ => Err OtherError
  end.

Section slope.
  (** [math.hypot] *)
  Variable hyp : b64 -> b64 -> b64.
  (** base_datamap.py:121 for cells that are [dx] rows and [dy] columns apart;
      [g5] and [g1] are the sizes of a pixel. *)
  Definition f_slope (g5 g1 : b64) (dx dy : Z) (pe e : b64) : res Q :=
    let* fx := f_int dx in
    let* fy := f_int dy in
    let* s := f_div (f_sub e pe) (hyp (f_mul fx g5) (f_mul fy g1)) in
    f_val s.
End slope.
