(** A raster on which purging loses the place of a kept saddle. *)
From Verif Require Import Run_model Walk_model Raster_spec Closest_spec Feature_spec Network_spec Climb_spec Walk_spec
  Example_maps Climb_facts Closest_proof Rebuild_facts Walk_example Terrain_spec.
Local Open Scope Z_scope.

(** Three climbs from one saddle: two of them lead to the same summit. *)
Definition fork_map : datamap :=
  row_map [[1; 1; 1; 1; 1]; [1; 1; 9; 1; 1]; [1; 6; 1; 6; 1]; [1; 1; 5; 1; 1]; [1; 1; 1; 8; 1]; [1; 1; 1; 1; 1]] (Some (-99)) unit_gt.

Lemma fork_usable :
  mpaths_found fpath_ends fork_map /\ sound_searches search0 fork_map /\ map_ok fork_map /\ north_up fork_map /\
  climbable fork_map /\ pixels_in_reach fork_map /\ map_in_reach fork_map /\ paths_found fp_unit0 fork_map /\
  fine_grid fork_map.
Proof.
  split; [apply fpath_ends_ok|]. split; [apply search0_ok|]. split; [by vm_compute|].
  split; [repeat split; by vm_compute|].
  split; [apply climbable_check; [repeat split; by vm_compute|apply row_map_exact|by vm_compute]|].
  split; [apply pixels_in_reach_check; by vm_compute|].
  split; [apply map_in_reach_check; by vm_compute|].
  split; [intros pts a b _; by eexists|]. split; by vm_compute.
Qed.
