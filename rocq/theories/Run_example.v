(** Examples of the whole analysis. *)
From Verif Require Import Run_model Walk_model Raster_spec Closest_spec Feature_spec Network_spec Climb_spec Walk_spec
  Example_maps Climb_facts Closest_proof Rebuild_facts Walk_example Terrain_spec Divide_model.
From Verif Require Basin_spec Run_spec.
Local Open Scope Z_scope.

(** Two summits joined by a higher and a lower saddle. *)
Definition loop_map : datamap :=
  row_map [[0; 0; 0; 0; 0]; [0; 0; 5; 0; 0]; [0; 9; 0; 8; 0]; [0; 0; 4; 0; 0]; [0; 0; 0; 0; 0]] (Some (-99)) unit_gt.
(** A border saddle of two cells between two border summits and two others. *)
Definition lost_map : datamap :=
  row_map [[0; 6; 5; 6; 0]; [0; 0; 5; 0; 0]; [0; 9; 0; 8; 0]; [0; 0; 0; 0; 0]] (Some (-99)) unit_gt.

Lemma loop_usable :
  mpaths_found fpath_ends loop_map /\ sound_searches search0 loop_map /\ map_ok loop_map /\ north_up loop_map /\
  climbable loop_map /\ pixels_in_reach loop_map /\ map_in_reach loop_map /\ paths_found fp_unit0 loop_map /\
  fine_grid loop_map.
Proof.
  split; [apply fpath_ends_ok|]. split; [apply search0_ok|]. split; [by vm_compute|].
  split; [repeat split; by vm_compute|].
  split; [apply climbable_check; [repeat split; by vm_compute|apply row_map_exact|by vm_compute]|].
  split; [apply pixels_in_reach_check; by vm_compute|].
  split; [apply map_in_reach_check; by vm_compute|].
  split; [intros pts a b _; by eexists|]. split; by vm_compute.
Qed.
Lemma lost_usable :
  mpaths_found fpath_ends lost_map /\ sound_searches search0 lost_map /\ map_ok lost_map /\ north_up lost_map /\
  climbable lost_map /\ pixels_in_reach lost_map /\ map_in_reach lost_map /\ paths_found fp_unit0 lost_map /\
  fine_grid lost_map.
Proof.
  split; [apply fpath_ends_ok|]. split; [apply search0_ok|]. split; [by vm_compute|].
  split; [repeat split; by vm_compute|].
  split; [apply climbable_check; [repeat split; by vm_compute|apply row_map_exact|by vm_compute]|].
  split; [apply pixels_in_reach_check; by vm_compute|].
  split; [apply map_in_reach_check; by vm_compute|].
  split; [intros pts a b _; by eexists|]. split; by vm_compute.
Qed.

Definition no_boundaries : tree := Tree [] (fun _ => []) (fun _ => []).
Definition summit_ele_of (w : world) (a : nat) : Z := Basin_spec.ele_at w (inr a).
