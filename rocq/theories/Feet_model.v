(** Model of elevations in feet in binary64 arithmetic.
    Sources: pyprom/lib/constants.py, pyprom/lib/locations/spot_elevation.py,
    pyprom/lib/containers/linker.py, pyprom/dividetree.py. *)
From Verif Require Import Base_model Graph_model Raster_model Float_model Slope_model.
From Flocq Require Import Core BinarySingleNaN.
Local Open Scope Z_scope.

(** constants.py:13-14.  The literals 0.3048 and 0.3048006096 are the floats
    nearest to these numbers, which are the rounded quotients of integers. *)
Definition METERS_PER_FOOT_f : res b64 := let* a := f_int 3048 in let* b := f_int 10000 in f_div a b.
Definition METERS_PER_SURVEY_FOOT_f : res b64 := let* a := f_int 3048006096 in let* b := f_int 10000000000 in f_div a b.
(** constants.py:16-17; the second line divides by [METERS_PER_FOOT] as well. *)
Definition FEET_PER_METER_f : res b64 := let* one := f_int 1 in let* k := METERS_PER_FOOT_f in f_div one k.
Definition SURVEY_FEET_PER_METER_f : res b64 := let* one := f_int 1 in let* k := METERS_PER_FOOT_f in f_div one k.

(** spot_elevation.py:127-136 [feet]: [None] if the product raises, as for an
    elevation [None]. *)
Definition f_feet (elevation : option b64) : option b64 :=
  match elevation, FEET_PER_METER_f with
  | Some e, Ok k => Some (f_mul e k)
  | _, _ => None
  end.
(** linker.py:62-70 [prom_ft] and dividetree.py:187 [decline]: the difference of
    the feet of a summit and a saddle. *)
Definition f_feet_above (summit saddle : option b64) : res b64 :=
  match f_feet summit, f_feet saddle with
  | Some a, Some b => Ok (f_sub a b)
  | _, _ => Err TypeError
  end.

Section graph.
  Variable w : world.
  Definition summit_float (a : nat) : option b64 := (fun u => f_ele (ft_ele (su_feat u))) <$> w_summits w !! a.
  Definition saddle_float (s : nat) : option b64 := (fun u => f_ele (ft_ele (sa_feat u))) <$> w_saddles w !! s.
  (** linker.py:62-70 *)
  Definition prom_ft (k : nat) : res b64 :=
    match w_links w !! k with
    | None => Err AttributeError
    | Some l => f_feet_above (summit_float (ln_summit l)) (saddle_float (ln_saddle l))
    end.
  (** dividetree.py:180-187 [LPRpath]: [path[0].summit.feet - saddle.feet] *)
  Definition decline (path : list nat) (saddle : nat) : res b64 :=
    match path with
    | [] => Err IndexError
    | k :: _ =>
        match w_links w !! k with
        | None => Err AttributeError
        | Some l => f_feet_above (summit_float (ln_summit l)) (saddle_float saddle)
        end
    end.
End graph.
