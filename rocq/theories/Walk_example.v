(** Examples of walks. *)
From Verif Require Import Walk_model Raster_spec Closest_spec Feature_spec Network_spec Climb_spec Walk_spec
  Example_maps Climb_facts Closest_proof Rebuild_facts.
Local Open Scope Z_scope.

(** A path library that answers with the two ends. *)
Definition fpath_ends (m : datamap) (pts : list mpoint) (a b : mpoint) : option (list mpoint * Q) :=
  Some ([a; b], 1%Q).
Lemma fpath_ends_ok m : mpaths_found fpath_ends m.
Proof.
  intros pts a b H. exists [a; b], 1%Q. split; [done|]. split; [done|]. split; [done|].
  intros z [->|[->|Hz]%elem_of_cons]%elem_of_cons; [| |by apply elem_of_nil in Hz].
  - induction H; done.
  - destruct H; done.
Qed.

(** A border saddle both sides of which lead to the same summit. *)
Definition ring_map : datamap := row_map [[2; 1; 2]; [3; 0; 3]; [3; 4; 3]] (Some (-99)) unit_gt.
(** A saddle between a flat summit and another one. *)
Definition mesa_map : datamap :=
  row_map [[1; 1; 1; 1; 1; 1; 1]; [1; 9; 9; 5; 2; 7; 1]; [1; 1; 1; 3; 1; 1; 1]; [1; 1; 1; 1; 1; 1; 1]] (Some (-99)) unit_gt.

Lemma ring_walkable :
  mpaths_found fpath_ends ring_map /\ sound_searches search0 ring_map /\ map_ok ring_map /\ north_up ring_map /\
  climbable ring_map /\ pixels_in_reach ring_map /\ map_in_reach ring_map /\ paths_found fp_unit0 ring_map.
Proof.
  split; [apply fpath_ends_ok|]. split; [apply search0_ok|]. split; [by vm_compute|].
  split; [repeat split; by vm_compute|].
  split; [apply climbable_check; [repeat split; by vm_compute|apply row_map_exact|by vm_compute]|].
  split; [apply pixels_in_reach_check; by vm_compute|].
  split; [apply map_in_reach_check; by vm_compute|].
  intros pts a b _. by eexists.
Qed.

(** Two flat cells with one higher point on one side and two on the other. *)
Definition path_saddle : feature :=
  Feat KSaddle (1, 1) 1 [((1, 1), None); ((1, 2), None)] false [] [[((1, 0), 5)]; [((1, 3), 6); ((0, 3), 4)]].
Definition path_map : datamap := row_map [[0; 0; 0; 4]; [5; 1; 1; 6]; [0; 0; 0; 0]] (Some (-99)) unit_gt.
(** Shortest paths there; a diagonal step counts 7/5. *)
Definition fpath_case (m : datamap) (pts : list mpoint) (a b : mpoint) : option (list mpoint * Q) :=
  Some ([a; ((1, 1), None); ((1, 2), None); b], if decide (b.1 = (1, 3)) then 3%Q else (17 # 5)%Q).
