(** Property C63: elevations in feet. *)
From Verif Require Import Run_model Walk_model Raster_spec Closest_spec Feature_spec Network_spec Climb_spec Graph_spec
  Walk_spec Basin_model Basin_spec Terrain_spec Run_spec Rebuilt_spec Start_proof Terrain_proof Run_proof Rebuilt_proof
  Climb_facts Closest_proof Walk_example Run_example Divide_model Divide_spec Region_spec Divide_proof Region_proof Region_run_proof
  Divide_example Float_model Slope_model Slope_spec Feet_model Feet_spec Feet_proof Feet_run_proof.
From Flocq Require Import Core BinarySingleNaN.
From Coq Require Import Reals.
Local Open Scope Z_scope.

(** C63.  The feet of an elevation are within a relative error of 2^-51 of the
    exact value, and a higher elevation never has fewer feet. *)
Theorem C63_feet z : float_value z -> exists f, f_feet (Some (f_ele z)) = Some f /\
  close_to f (feet_of z) (bpow radix2 (-51) * Rabs (feet_of z)) /\
  forall z' f', float_value z' -> z <= z' -> f_feet (Some (f_ele z')) = Some f' -> (B2R f <= B2R f')%R.
Proof.
  intros H. destruct (feet_value z H) as (f & Ef & _). exists f. split; [exact Ef|]. split; [exact (feet_close z f H Ef)|].
  intros z' f' H' Hle Ef'. exact (feet_order z z' f f' H H' Ef Ef' Hle).
Qed.
Print Assumptions C63_feet.

(** C63.  For elevations with at most 24 significant bits, as float32 rasters have
    them, the height in feet of a summit above a saddle is positive, zero or
    negative exactly as the height itself is, and is close to the exact value. *)
Theorem C63_above z z' : float32_value z -> float32_value z' -> exists f, f_feet_above (Some (f_ele z')) (Some (f_ele z)) = Ok f /\
  close_to f (feet_of z' - feet_of z) (bpow radix2 (-50) * (Rabs (feet_of z) + Rabs (feet_of z'))) /\
  ((0 < B2R f)%R <-> z < z') /\ (B2R f = 0%R <-> z = z').
Proof. exact (above_close z z'). Qed.
Print Assumptions C63_above.

Example C63_above_case : float32_value (1914 * 2 ^ 149) /\ float32_value (1913 * 2 ^ 149 + 2 ^ 148) /\ float_value m_1900'.
Proof.
  split; [exists 1914, 149; by repeat split|]. split; [exists 3827, 148; by repeat split|]. by apply bits_float.
Qed.

(** C63.  For other elevations it is not negative if the summit is not lower. *)
Theorem C63_any z z' : float_value z -> float_value z' -> exists f, f_feet_above (Some (f_ele z')) (Some (f_ele z)) = Ok f /\
  is_finite f = true /\ (z <= z' -> (0 <= B2R f)%R).
Proof. exact (above_order z z'). Qed.
Print Assumptions C63_any.

(** C63.  But it can be zero for a higher summit: 1900 m and the next float. *)
Theorem C63_any_refuted : exists z z' f, float_value z /\ float_value z' /\ z < z' /\
  f_feet_above (Some (f_ele z')) (Some (f_ele z)) = Ok f /\ B2R f = 0%R.
Proof.
  destruct m_1900_zero as (f & H). exists m_1900, m_1900', f.
  split; [by apply bits_float|]. split; [by apply bits_float|]. split; [done|exact H].
Qed.
Print Assumptions C63_any_refuted.

(** C63.  An elevation that is missing has no feet and heights above it cannot be
    computed. *)
Theorem C63_missing e : f_feet None = None /\ f_feet_above None e = Err TypeError /\ f_feet_above e None = Err TypeError.
Proof. split; [done|]. split; [done|]. unfold f_feet_above. cbn [f_feet]. by destruct (f_feet e). Qed.
Print Assumptions C63_missing.

(** C63.  The factor for survey feet is the one for international feet: it differs
    from the inverse of the length of a survey foot by more than one millionth. *)
Theorem C63_survey_refuted : exists k s, SURVEY_FEET_PER_METER_f = Ok k /\ METERS_PER_SURVEY_FOOT_f = Ok s /\
  (1 + 1 / 1000000 < B2R k * B2R s)%R.
Proof. exact survey_value. Qed.
Print Assumptions C63_survey_refuted.

(** C63.  In a finished analysis of a float32 raster [prom_ft] of every link of a
    summit to a saddle that is not disqualified is positive and close to the
    exact height. *)
Theorem C63_prom fpath fp orc near fuel r m su sa ru d d' a k i :
  mpaths_found fpath m -> sound_searches near m -> map_ok m -> north_up m -> climbable m ->
  pixels_in_reach m -> map_in_reach m -> paths_found fp m -> fine_grid m ->
  (forall p, data_cell m p -> float32_value (elev m p)) ->
  run_no_rebuild fp orc m = Ok (su, sa, ru) ->
  dm_run_with fpath fp orc near fuel true false r m = Ok d -> border_apart m (mp_world d) (mp_saddles d) ->
  dm_run_with fpath fp orc near fuel false false r m = Ok d' ->
  at_summit (mp_world d') a k -> joins (mp_world d') k a i -> not_disq (mp_world d') i ->
  exists f, prom_ft (mp_world d') k = Ok f /\ (0 < B2R f)%R /\
    close_to f (feet_of (ele_at (mp_world d') (Sum a)) - feet_of (ele_at (mp_world d') (Sad i)))
      (bpow radix2 (-50) * (Rabs (feet_of (ele_at (mp_world d') (Sad i))) + Rabs (feet_of (ele_at (mp_world d') (Sum a))))).
Proof.
  intros H1 H2 H3 H4 H5 H6 H7 H8 H9 H32 Hrun Hd Hap Hd' Hk Hj Hnd.
  destruct (with_finish fpath fp orc near m fuel r su sa ru d d' H2 H3 H7 H8 Hrun Hd Hd') as (objs & s & Hs & Hw & Hdet).
  exact (finished_prom fpath fp orc near m H1 H2 H3 H4 H5 H6 H7 H8 H9 su sa ru objs d s fuel d' Hrun Hs Hw Hap Hdet H32 a k i Hk Hj Hnd).
Qed.
Print Assumptions C63_prom.

(** C63.  The same holds for the [decline] of every path that the divide tree
    reports: from the explored summit to the reported saddle. *)
Theorem C63_decline fpath fp orc near fuel r m su sa ru d d' t h out t' x p q i :
  mpaths_found fpath m -> sound_searches near m -> map_ok m -> north_up m -> climbable m ->
  pixels_in_reach m -> map_in_reach m -> paths_found fp m -> fine_grid m ->
  (forall p, data_cell m p -> float32_value (elev m p)) ->
  run_no_rebuild fp orc m = Ok (su, sa, ru) ->
  dm_run_with fpath fp orc near fuel true false r m = Ok d -> border_apart m (mp_world d) (mp_saddles d) ->
  dm_run_with fpath fp orc near fuel false false r m = Ok d' ->
  run_tree m (mp_world d') (mp_summits d') t = Ok (h, out, t') -> (x, p) ∈ out -> (q, i) ∈ lp_paths p ->
  exists f, decline (mp_world d') q i = Ok f /\ (0 < B2R f)%R /\
    close_to f (feet_of (ele_at (mp_world d') (Sum x)) - feet_of (ele_at (mp_world d') (Sad i)))
      (bpow radix2 (-50) * (Rabs (feet_of (ele_at (mp_world d') (Sad i))) + Rabs (feet_of (ele_at (mp_world d') (Sum x))))).
Proof.
  intros H1 H2 H3 H4 H5 H6 H7 H8 H9 H32 Hrun Hd Hap Hd' Ht Hin Hq.
  destruct (with_finish fpath fp orc near m fuel r su sa ru d d' H2 H3 H7 H8 Hrun Hd Hd') as (objs & s & Hs & Hw & Hdet).
  pose proof (finished_tree fpath fp orc near m H1 H2 H3 H4 H5 H6 H7 H8 H9 su sa ru objs d s fuel d' Hrun Hs Hw Hap Hdet) as G.
  pose proof (run_tree_spec m _ (tg_own _ G) (mp_summits d') t) as R. rewrite Ht in R. destruct R as (_ & _ & R).
  destruct (R x p Hin) as (t0 & -> & _).
  exact (finished_decline fpath fp orc near m H1 H2 H3 H4 H5 H6 H7 H8 H9 su sa ru objs d s fuel d' Hrun Hs Hw Hap Hdet H32 x t0 q i Hq).
Qed.
Print Assumptions C63_decline.

(** The map of C62_case, with elevations in units of 2^-149 m: there is one path,
    and it has a decline. *)
Example C63_case :
  mpaths_found fpath_ends loop_map /\ sound_searches search0 loop_map /\ map_ok loop_map /\ north_up loop_map /\
  climbable loop_map /\ pixels_in_reach loop_map /\ map_in_reach loop_map /\ paths_found fp_unit0 loop_map /\
  fine_grid loop_map /\ (forall p, data_cell loop_map p -> float32_value (elev loop_map p)) /\
  exists su sa ru d d' out t' p1, run_no_rebuild fp_unit0 orc_id loop_map = Ok (su, sa, ru) /\
    dm_run_with fpath_ends fp_unit0 orc_id search0 20 true false false loop_map = Ok d /\
    border_apart loop_map (mp_world d) (mp_saddles d) /\
    dm_run_with fpath_ends fp_unit0 orc_id search0 20 false false false loop_map = Ok d' /\
    run_tree loop_map (mp_world d') (mp_summits d') no_tree = Ok (0%nat, out, t') /\
    (1%nat, p1) ∈ out /\ lp_paths p1 = [([0], 6)]%nat /\
    at_summit (mp_world d') 1 0 /\ joins (mp_world d') 0 1 6 /\ not_disq (mp_world d') 6.
Proof.
  destruct loop_usable as (H1 & H2 & H3 & H4 & H5 & H6 & H7 & H8 & H9). do 9 (split; [assumption|]).
  split.
  { intros p [Hp _]. exists (elev loop_map p), 0. rewrite Z.mul_1_r. split; [done|]. split; [|lia].
    destruct p as [x y]. assert (0 <= x < 5 /\ 0 <= y < 5) as [Hx Hy] by (destruct Hp as [[? ?] [? ?]]; cbn in *; lia).
    assert (x = 0 \/ x = 1 \/ x = 2 \/ x = 3 \/ x = 4) as Ex by lia. assert (y = 0 \/ y = 1 \/ y = 2 \/ y = 3 \/ y = 4) as Ey by lia.
    clear Hp Hx Hy. destruct Ex as [->|[->|[->|[->| ->]]]], Ey as [->|[->|[->|[->| ->]]]]; reflexivity. }
  eexists _, _, _, _, _, _, _, _. split; [vm_compute; reflexivity|]. split; [vm_compute; reflexivity|].
  split.
  { intros i j x Hi Hj Hp. exfalso. revert Hp. apply elem_of_list_In in Hi. cbn in Hi.
    destruct Hi as [<-|[<-|[]]]; vm_compute; by intros [? ?]. }
  split; [vm_compute; reflexivity|]. split; [vm_compute; reflexivity|]. split; [right; left; reflexivity|]. split; [reflexivity|].
  split; [eexists; split; [reflexivity|left]|]. split; [eexists; split; [reflexivity|by repeat split]|].
  eexists. split; [reflexivity|done].
Qed.
