(** A whole analysis in binary64. *)
From Verif Require Import Base_model Raster_model Run_model Walk_model Closest_model Closest_spec Feature_spec Network_spec Network_model Climb_spec Walk_spec Terrain_spec
  Float_model Float_spec Float_proof Slope_model Slope_spec Slope_proof Slope_example Near_model Near_spec Near_proof Near_run_proof Near_example
  Fsearch_model Fsearch_spec Climb_facts Rebuild_facts Walk_example Run_example Raster_spec.
From Flocq Require Import Core BinarySingleNaN.
From Coq Require Import Reals Lra Qreals.
Local Open Scope Z_scope.

(** The raster [loop_map] with slopes in binary64. *)
Definition loop_rows : list (list Z) := [[0; 0; 0; 0; 0]; [0; 0; 5; 0; 0]; [0; 9; 0; 8; 0]; [0; 0; 4; 0; 0]; [0; 0; 0; 0; 0]].
Definition float_loop : datamap :=
  DM 4 4 (fun x y => metres (default 0 (default [] (loop_rows !! Z.to_nat x) !! Z.to_nat y))) (Some (metres (-99))) (GT 0 1 0 0 0 (-1))
     (fun dx dy pe e => f_slope plain_hypot (one true) (one false) dx dy (f_ele pe) (f_ele e)).

Lemma loop_cell x y : 0 <= default 0 (default [] (loop_rows !! x) !! y) <= 9.
Proof.
  assert (H : Forall (Forall (fun v => 0 <= v <= 9)) loop_rows) by (repeat constructor; lia).
  destruct (loop_rows !! x) as [r|] eqn:Er; simpl; [|lia].
  rewrite Forall_lookup in H. specialize (H x r Er). destruct (r !! y) as [v|] eqn:Ev; simpl; [|lia].
  rewrite Forall_lookup in H. exact (H y v Ev).
Qed.
Lemma loop_elev p : exists v, elev float_loop p = metres v /\ 0 <= v <= 9.
Proof. eexists. split; [reflexivity|]. apply loop_cell. Qed.

Lemma minus_one : Q2R (-1) = B2R (one true).
Proof. rewrite one_value. unfold Q2R. simpl. lra. Qed.
Lemma plus_one : Q2R 1 = B2R (one false).
Proof. rewrite one_value. unfold Q2R. simpl. lra. Qed.

Lemma loop_float : float_map plain_hypot (one true) (one false) float_loop.
Proof.
  split; [exact plain_hypot_good|apply one_size|apply one_size|exact minus_one|exact plus_one|done|].
  intros p e [[_ Hv]|[_ Hv]].
  2:{ injection Hv as ->. apply (metres_value (-99)). vm_compute. congruence. }
  destruct (loop_elev p) as (v & E & Hr). assert (e = metres v) as -> by congruence. apply metres_value. unfold index_ok. lia.
Qed.
Lemma loop_low : nodata_low float_loop.
Proof.
  intros v p Hv _. assert (v = metres (-99)) as -> by (unfold float_loop in Hv; cbn [dm_nodata] in Hv; congruence).
  destruct (loop_elev p) as (w & -> & Hw). unfold metres.
  apply Z.mul_lt_mono_pos_r; [reflexivity|lia].
Qed.
Lemma loop_north : north_up float_loop.
Proof. repeat split; by vm_compute. Qed.

Lemma minus_usual : usual_size (one true).
Proof.
  split; [done|]. rewrite one_value, Rabs_left by lra. replace (- (-1))%R with (bpow radix2 0) by (simpl; lra). split; apply bpow_le; lia.
Qed.
Lemma loop_raster : float_raster float_loop (one false) (one true).
Proof.
  split; [by vm_compute|by vm_compute|exact plus_one|exact minus_one|exact one_usual|exact minus_usual|].
  intros [a b] [c d] [[H1 H2] [H3 H4]] [[H5 H6] [H7 H8]]. cbn [fst snd dm_max_x dm_max_y float_loop] in *.
  unfold distance2, hypot2, float_loop. cbn [dm_gt gt1 gt5 fst snd].
  setoid_replace (inject_Z (a - c) * 1 * (inject_Z (a - c) * 1) + inject_Z (b - d) * -1 * (inject_Z (b - d) * -1))%Q
    with (inject_Z ((a - c) * (a - c) + (b - d) * (b - d))) by (rewrite inject_Z_plus, !inject_Z_mult; ring).
  rewrite <- Zlt_Qlt. apply Z.le_lt_trans with 32; [nia|reflexivity].
Qed.
Lemma plain_library : float_library plain_hypot plain_tree.
Proof. split; [exact plain_hypot_good|exact plain_zero|exact plain_tree_good]. Qed.
Lemma loop_ok : mpaths_found fpath_ends float_loop /\ map_ok float_loop /\ paths_found fp_unit0 float_loop /\ fine_grid float_loop.
Proof.
  split; [apply fpath_ends_ok|]. split; [by vm_compute|]. split; [intros pts a b _; by eexists|]. split; by vm_compute.
Qed.
