(** A raster on which purging all basin saddles leaves a kept saddle with a removed alternative. *)
From Verif Require Import Run_model Walk_model Raster_spec Closest_spec Feature_spec Network_spec Climb_spec Walk_spec
  Example_maps Climb_facts Closest_proof Rebuild_facts Walk_example Terrain_spec.
Local Open Scope Z_scope.

(** Four saddles of one height on a cycle, three of them pieces of one saddle and so equal for [list.remove]. *)
Definition tie_map : datamap :=
  row_map [[0;0;0;0;0;0]; [0;0;8;0;8;0]; [0;5;0;5;0;0]; [0;0;7;0;10;0]; [0;30;0;0;7;0]; [0;0;10;20;0;0]; [0;0;0;0;0;0]]
    (Some (-99)) unit_gt.

Lemma tie_usable :
  mpaths_found fpath_ends tie_map /\ sound_searches search0 tie_map /\ map_ok tie_map /\ north_up tie_map /\
  climbable tie_map /\ pixels_in_reach tie_map /\ map_in_reach tie_map /\ paths_found fp_unit0 tie_map /\
  fine_grid tie_map.
Proof.
  split; [apply fpath_ends_ok|]. split; [apply search0_ok|]. split; [by vm_compute|].
  split; [repeat split; by vm_compute|].
  split; [apply climbable_check; [repeat split; by vm_compute|apply row_map_exact|by vm_compute]|].
  split; [apply pixels_in_reach_check; by vm_compute|].
  split; [apply map_in_reach_check; by vm_compute|].
  split; [intros pts a b _; by eexists|]. split; by vm_compute.
Qed.
