(** The searches of the analysis in binary64 arithmetic, as values of the type
    [searches] that climbing, splitting and walking take.
    Sources: pyprom/lib/logic/shortest_path_by_points.py:172-215 and
    pyprom/lib/containers/multipoint.py:139-171, through Near_model. *)
From Verif Require Import Base_model Raster_model Analyze_model Closest_model Float_model Near_model.
From Flocq Require Import Core BinarySingleNaN.
Local Open Scope Z_scope.

(** The exact square of a computed distance.  The analysis only asks of distances
    which is less and whether one is less than [sys.maxsize]; the squares of
    numbers that are not negative answer the same.  Infinities and NaN are not
    less than [sys.maxsize]. *)
Definition f_square (d : b64) : Q :=
  match d with
  | B754_zero _ => 0%Q
  | B754_finite _ m e _ => (dyadic (Zpos m) e * dyadic (Zpos m) e)%Q
  | _ => maxsize2
  end.

(** The float of a position: the middle of two cells, half an integer
    (internal_saddle_network.py:208-209), or an integer (saddles.py:84-87). *)
Definition f_half (q : Q) : b64 :=
  binary_normalize 53 1024 _ _ mode_NE (Qfloor (2 * q)) (-1) false.

Definition float_searches (hyp : b64 -> b64 -> b64) (g1 g5 : b64) (kd : list xy -> xy -> nat * b64) : searches :=
  Searches
    (f_find_closest_point_by_distance_map hyp kd)
    (fun _ us them =>
       let* r := f_find_closest_points hyp g1 g5 kd us them in
       Ok (CP (option_map fst r.1) (option_map snd r.1)
              (match r.2 with Some d => f_square d | None => maxsize2 end)))
    (fun tx ty pts => f_closestPoint hyp (f_half tx) (f_half ty) pts).
