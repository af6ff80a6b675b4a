(** Property theorems: units at load time (C47). *)
From Verif Require Import Loader_model Loader_spec Loader_proof Container_spec Container_proof.
Local Open Scope Z_scope.

Definition ds_plain : dataset := Dataset "" (Some (true, 1%Q)) (Some (Some (1200#1))) [100#1]%Q.
Definition ds_srtm : dataset := Dataset "Metre" (Some (true, 1%Q)) (Some (Some (1200#1))) [100#1]%Q.
Definition ds_state_plane : dataset := Dataset "" (Some (false, 3048006096 # 10000000000)) (Some (Some (3000#1))) [100#1]%Q.

(** C47.  Detection follows the rules in order: the name of the band's unit in
    any case, the unit of a projected coordinate system, the spread of the
    heights. *)
Theorem C47_detect d u c : detect_vertical_unit d = (u, c) <-> detected d u c.
Proof. exact (detect_spec d u c). Qed.
Print Assumptions C47_detect.

Example C47_detect_case : detected ds_srtm METERS HIGH /\ detected ds_state_plane FEET MEDIUM /\ detected ds_plain METERS LOW.
Proof. split; [|split]; by apply C47_detect; vm_compute. Qed.

(** C47.  A raster is loaded exactly if the units are settled as metres, and it
    is the source raster, reprojected.  Settled other units end in an
    AttributeError, and unsettled units in an exception. *)
Theorem C47_load warp force min_conf d :
  (forall r, gdal_load warp force min_conf d = Ok r <-> r = (d, warp d) /\ settled force min_conf d METERS) /\
  (gdal_load warp force min_conf d = Err AttributeError <-> exists u, settled force min_conf d u /\ u <> METERS) /\
  (gdal_load warp force min_conf d = Err OtherError <-> forall u, ~ settled force min_conf d u).
Proof. exact (load_spec warp force min_conf d). Qed.
Print Assumptions C47_load.

Example C47_load_case :
  gdal_load (fun d => d) None MEDIUM ds_srtm = Ok (ds_srtm, ds_srtm) /\
  gdal_load (fun d => d) None MEDIUM ds_state_plane = Err AttributeError /\
  gdal_load (fun d => d) (Some METERS) MEDIUM ds_state_plane = Ok (ds_state_plane, ds_state_plane) /\
  gdal_load (fun d => d) None MEDIUM ds_plain = Err OtherError /\
  gdal_load (fun d => d) None LOW ds_plain = Ok (ds_plain, ds_plain).
Proof. repeat split; by vm_compute. Qed.

(** C47.  A raster detected as being in feet, or declared to be in feet, never
    loads. *)
Theorem C47_feet warp force min_conf d r :
  (force = None /\ exists c, detected d FEET c) \/ force = Some FEET -> gdal_load warp force min_conf d <> Ok r.
Proof.
  intros H E. apply C47_load in E as [_ E]. destruct H as [[-> [c H]]| ->]; [|done].
  destruct E as (c' & E & _). by destruct (detected_fun _ _ _ _ _ H E).
Qed.
Print Assumptions C47_feet.

Example C47_feet_case : exists c, detected ds_state_plane FEET c.
Proof. exists MEDIUM. by apply C47_detect; vm_compute. Qed.

(** C47.  With the default threshold a raster in geographic coordinates whose
    band has no known unit name is never loaded. *)
Theorem C47_default warp d f r :
  ds_srs d = Some (true, f) -> ~ named (metre_names ++ foot_names) (ds_unit d) -> gdal_load warp None MEDIUM d <> Ok r.
Proof.
  intros Hs Hn E. apply C47_load in E as (_ & c & E & Hr & _). remember METERS as u.
  destruct E as [H|?|? H|?|?|?|?]; try discriminate; [apply Hn, named_app; by left| |cbn in Hr; lia].
  destruct H as (x & H & _). congruence.
Qed.
Print Assumptions C47_default.

Example C47_default_case : ds_srs ds_plain = Some (true, 1%Q) /\ ~ named (metre_names ++ foot_names) (ds_unit ds_plain).
Proof.
  split; [done|]. rewrite named_app, named_m, named_ft. cbn. unfold GDAL_METERS, GDAL_FEET.
  intros [H|H]; repeat (apply elem_of_cons in H as [H|H]; [discriminate|]); by apply elem_of_nil in H.
Qed.
