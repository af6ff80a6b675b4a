(** A map for property C74. *)
From Verif Require Import Example_maps Run_model Walk_model Raster_spec Closest_spec Feature_spec Network_spec Climb_spec Walk_spec Rebuild_facts
  Basin_model Terrain_spec Run_spec Climb_facts Closest_proof Walk_example Run_example Divide_model Divide_example
  Persist_model Store_model Store_example Revive_model.
Local Open Scope Z_scope.

(** Three summits around a saddle of one cell. *)
Definition star_map : datamap :=
  row_map [[0; 0; 0; 0; 0]; [0; 8; 0; 7; 0]; [0; 0; 4; 0; 0]; [0; 0; 9; 0; 0]; [0; 0; 0; 0; 0]] (Some (-99)) unit_gt.
Lemma star_usable :
  mpaths_found fpath_ends star_map /\ sound_searches search0 star_map /\ map_ok star_map /\ north_up star_map /\
  climbable star_map /\ pixels_in_reach star_map /\ map_in_reach star_map /\ paths_found fp_unit0 star_map /\
  fine_grid star_map.
Proof.
  split; [apply fpath_ends_ok|]. split; [apply search0_ok|]. split; [by vm_compute|].
  split; [repeat split; by vm_compute|].
  split; [apply climbable_check; [repeat split; by vm_compute|apply row_map_exact|by vm_compute]|].
  split; [apply pixels_in_reach_check; by vm_compute|].
  split; [apply map_in_reach_check; by vm_compute|].
  split; [intros pts a b _; by eexists|]. split; by vm_compute.
Qed.
(** What the tree of a map reports. *)
Definition reported (m : datamap) (d : dmap) : option (nat * list (nat * list (list nat * nat)) * list nat) :=
  match run_tree m (mp_world d) (mp_summits d) no_tree with
  | Ok (h, out, t) => Some (h, map (fun e => (e.1, lp_paths e.2)) out, tr_busted t)
  | Err _ => None
  end.
