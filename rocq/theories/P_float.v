(** Property C02 in binary64 arithmetic. *)
From Verif Require Import Base_model Raster_model Raster_spec Example_maps Float_model Float_spec Float_proof.
From Flocq Require Import Core BinarySingleNaN.
From Coq Require Import Reals Lra.
Local Open Scope Z_scope.

(** C02.  In binary64 arithmetic too, pixel -> latitude/longitude -> pixel is
    the identity for indices up to 2^48, if the origin is at most 2^48 pixels
    from zero and the pixel sizes are between 2^-900 and 2^900. *)
Theorem C02_binary64 g x y :
  f_north_up g -> index_ok x -> index_ok y ->
  exists lat lon, f_xy_to_latlon g x y = Ok (lat, lon) /\ is_finite lat = true /\ is_finite lon = true /\
    f_latlong_to_xy g lat lon = Ok (x, y).
Proof. exact (f_round_trip g x y). Qed.
Print Assumptions C02_binary64.

(** C02.  The elevation at a cell's binary64 position is that cell's value. *)
Theorem C02_binary64_elevation m g x y :
  f_north_up g -> index_ok x -> index_ok y -> in_map m (x, y) ->
  exists lat lon, f_xy_to_latlon g x y = Ok (lat, lon) /\ f_elevation m g lat lon = Ok (elev m (x, y)).
Proof. exact (f_elevation_at m g x y). Qed.
Print Assumptions C02_binary64_elevation.

(** -71 and 44 degrees, pixels of (the number nearest to) 1/3600 degree. *)
Definition arcsecond (s : bool) : b64 := @B754_finite 53 1024 s 5124095576030431 (-64) eq_refl.
Definition f_gt0 : f_geotransform :=
  FGT (@B754_finite 53 1024 true 4996180836614144 (-46) eq_refl) (arcsecond false) (B754_zero false)
      (@B754_finite 53 1024 false 6192449487634432 (-47) eq_refl) (B754_zero true) (arcsecond true).
Example C02_binary64_case : f_north_up f_gt0 /\ index_ok 3599 /\ index_ok 1200.
Proof.
  assert (H : (bpow radix2 (-900) <= 5124095576030431 * / 18446744073709551616 <= bpow radix2 900)%R).
  { split.
    - apply Rle_trans with (bpow radix2 (-53)); [apply bpow_le; lia|]. rewrite n53. lra.
    - apply Rle_trans with (bpow radix2 48); [|apply bpow_le; lia]. rewrite p48. lra. }
  split; [|split; vm_compute; congruence].
  split; [done|]. split; [done|]. split; [done|]. split; [done|].
  split; (split; [done|]; split; [done|]); unfold B2R, F2R; rewrite p48; simpl;
    change (Z.pow_pos 2 64) with 18446744073709551616;
    try change (Z.pow_pos 2 46) with 70368744177664; try change (- (4996180836614144)) with (-4996180836614144);
    try change (Z.pow_pos 2 47) with 140737488355328; try change (- (5124095576030431)) with (-5124095576030431).
  - rewrite Rabs_pos_eq by lra. split; [exact H|]. rewrite Rabs_left by lra. lra.
  - rewrite Rabs_left by lra. split; [lra|]. rewrite Rabs_pos_eq by lra. lra.
Qed.

(** C02.  Without the bound the round trip fails: an origin of 2^60 with pixels of 1. *)
Theorem C02_binary64_refuted : exists g lat lon,
  is_finite (fgt0 g) = true /\ B2R (fgt1 g) = 1%R /\ B2R (fgt2 g) = 0%R /\
  f_xy_to_latlon g 0 1 = Ok (lat, lon) /\ f_latlong_to_xy g lat lon = Ok (0, 0).
Proof.
  exists (FGT (@B754_finite 53 1024 false 4503599627370496 8 eq_refl) (@B754_finite 53 1024 false 4503599627370496 (-52) eq_refl)
    (B754_zero false) (B754_zero false) (B754_zero false) (@B754_finite 53 1024 false 4503599627370496 (-52) eq_refl)).
  eexists _, _. split; [reflexivity|]. split; [|split; [reflexivity|split; [unfold f_xy_to_latlon; reflexivity|vm_compute; reflexivity]]].
  simpl. unfold F2R. simpl. lra.
Qed.
Print Assumptions C02_binary64_refuted.
