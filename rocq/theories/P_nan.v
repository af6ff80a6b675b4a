(** Property C64: rasters whose marker for missing cells is NaN. *)
From Verif Require Import Base_model Raster_model Analyze_model Nan_model Nan_spec Feature_spec Climb_spec Climb_facts Blob_proof Analyze_proof
  Nan_proof Nan_run_proof Nan_lower_proof Example_maps Raster_spec.
Local Open Scope Z_scope.

(** C64.  [m] is the raster with a number marking its missing cells, [nan] says
    which cells these are; in the raster itself they hold NaN and NaN is the
    declared marker.  [enum] gives some order to sets.  If discovery finishes it
    did, cell by cell, the same as on [m] for areas off the border and for peaks,
    and reported every NaN cell as a summit (on the border also as a runoff). *)
Theorem C64_discovery m nan fp orc enum rest gs : map_ok m -> paths_found fp m -> nan_marks nan m ->
  (forall c l, enum c l ≡ₚ remove_dups l) ->
  n_analyze_all m nan (NaN None) enum orc rest = Ok gs ->
  exists rows : list (xy * list nfeature * list feature),
    map (fun r => r.1.1) rows = nditer_cells m /\
    analyze_all fp orc m = Ok (concat (map snd rows)) /\
    gs = concat (map (fun r => r.1.2) rows) /\
    forall c gs fs, (c, gs, fs) ∈ rows -> same_but_nan m nan c gs fs.
Proof. intros Hok Hfp Hm Henum. exact (run_pair m nan Hok Hm fp orc enum rest Henum gs Hfp). Qed.
Print Assumptions C64_discovery.

(** With a NaN cell in the raster its summit is in the result, although no data
    cell is there. *)
Theorem C64_nan_is_summit m nan orc enum rest gs c : map_ok m -> nan_marks nan m ->
  (forall c l, enum c l ≡ₚ remove_dups l) ->
  n_analyze_all m nan (NaN None) enum orc rest = Ok gs -> in_map m c -> nan c = true ->
  exists edge edgepts, NFeat KSummit c (NaN (Some c)) [] edge edgepts [] ∈ gs /\ (edge = true <-> on_border m c).
Proof. intros Hok Hm Henum. exact (nan_found m nan Hok Hm orc enum rest Henum gs c). Qed.
Print Assumptions C64_nan_is_summit.

(** If the first cell scanned is a number and not a peak, discovery raises
    IndexError whatever the rest of the raster is. *)
Theorem C64_first_corner m nan orc enum rest : map_ok m -> nan_marks nan m ->
  (forall c l, enum c l ≡ₚ remove_dups l) ->
  data_cell m (0, 0) -> ~ peak m (0, 0) ->
  n_analyze_all m nan (NaN None) enum orc rest = Err IndexError.
Proof. intros Hok Hm Henum. exact (corner_first m nan Hok Hm orc enum rest Henum). Qed.
Print Assumptions C64_first_corner.

(** Nor does discovery finish if an area that reaches one of three corners is not
    a peak. *)
Theorem C64_corners m nan orc enum rest p c gs : map_ok m -> nan_marks nan m ->
  (forall c l, enum c l ≡ₚ remove_dups l) ->
  c = (0, 0) \/ c = (0, dm_max_y m) \/ c = (dm_max_x m, 0) -> same_flat m p c -> ~ peak m p ->
  n_analyze_all m nan (NaN None) enum orc rest <> Ok gs.
Proof. intros Hok Hm Henum. exact (corner_fails m nan Hok Hm orc enum rest Henum p c gs). Qed.
Print Assumptions C64_corners.

(** Nor if a NaN cell of the border stands alone beside a border area that is not
    a peak. *)
Theorem C64_beside m nan orc enum rest p q gs : map_ok m -> nan_marks nan m ->
  (forall c l, enum c l ≡ₚ remove_dups l) ->
  data_cell m p -> on_edge m p -> ~ peak m p -> lone_nan m nan p q ->
  n_analyze_all m nan (NaN None) enum orc rest <> Ok gs.
Proof. intros Hok Hm Henum. exact (lone_fails m nan Hok Hm orc enum rest Henum p q gs). Qed.
Print Assumptions C64_beside.

(** The steepest neighbour of a number is the same as with a marker below all
    elevations; a NaN cell has none. *)
Theorem C64_steepest m nan c : nan_marks nan m ->
  (nodata_low m -> data_cell m c ->
   n_steepestNeighbor m nan (NaN None) c =
     (let* r := steepestNeighbor m c.1 c.2 in Ok ((fun z : pte => (pt_xy z, Num (pt_e z))) <$> r))) /\
  (nan c = true -> n_steepestNeighbor m nan (NaN None) c = Ok None).
Proof. intros Hm. split; [exact (steepest_same m nan Hm c)|exact (steepest_at_nan m nan c)]. Qed.
Print Assumptions C64_steepest.

(** NaN cells beside a border area are passed over when they do not come first:
    the highest points of a group that begins with a number are those with its
    highest number, and the lower groups are those whose numbers are all below
    the area.  With NaN first there are no highest points. *)
Theorem C64_lower e gs : (forall g, g ∈ gs -> exists q z l, g = (q, Num z) :: l) ->
  n_lower_groups (Num e) gs = Ok (filter (numbers_below e) gs).
Proof. exact (lower_spec e gs). Qed.
Print Assumptions C64_lower.

Theorem C64_highest q v l :
  match v with
  | Num z => exists h q', (q', Num h) ∈ (q, Num z) :: l /\ (forall q'' z', (q'', Num z') ∈ (q, Num z) :: l -> z' <= h) /\
      n_highest ((q, Num z) :: l) = Ok (filter (fun p : npt => p.2 = Num h) ((q, Num z) :: l))
  | NaN c => n_highest ((q, NaN c) :: l) = Ok []
  end.
Proof. destruct v as [z|c]; [exact (highest_spec q z l)|]. destruct (nan_first c q l) as (h & E & ->). exact E. Qed.
Print Assumptions C64_highest.

(** Of three groups the second reaches the height 4; NaN is passed over. *)
Example C64_lower_ok :
  let gs := [[((0, 1), Num 3); ((0, 2), NaN None)]; [((0, 5), Num 1); ((0, 6), Num 4)]; [((2, 0), Num 2)]] in
  (forall g, g ∈ gs -> exists q z l, g = (q, Num z) :: l) /\
  n_lower_groups (Num 4) gs = Ok [[((0, 1), Num 3); ((0, 2), NaN None)]; [((2, 0), Num 2)]] /\
  n_highest [((0, 5), Num 1); ((0, 6), Num 4); ((0, 7), NaN None); ((0, 8), Num 4)] = Ok [((0, 6), Num 4); ((0, 8), Num 4)].
Proof.
  split; [|split; reflexivity]. intros g Hg. apply elem_of_list_In in Hg. destruct Hg as [<-|[<-|[<-|[]]]]; by eexists _, _, _.
Qed.

(** A plain with a hole of NaN and a dip. *)
Definition plain_map : datamap :=
  row_map [[3; 3; 3; 3]; [3; -9; 3; 3]; [3; 3; 1; 3]; [3; 3; 3; 3]] (Some (-9)) unit_gt.
Definition nan_of (m : datamap) (p : xy) : bool := bool_decide (dm_nodata m = Some (elev m p)).
Lemma nan_of_marks m : nan_marks (nan_of m) m.
Proof. intros p _. unfold nan_of. apply bool_decide_eq_true. Qed.
Definition enum0 (_ : xy) (l : list npt) : list npt := remove_dups l.
Definition rest0 (_ _ : xy) (_ : Z) (_ : list (list npt)) (_ : list mpoint) (_ : list npt) (_ : list (list pte)) :
  res (list nfeature) := Ok [].
Definition fp_none (_ : datamap) (_ : list xy) (_ _ : xy) : option Q := Some 0%Q.

Example C64_discovery_ok :
  map_ok plain_map /\ paths_found fp_none plain_map /\ (forall c l, enum0 c l ≡ₚ remove_dups l) /\
  exists gs, n_analyze_all plain_map (nan_of plain_map) (NaN None) enum0 (fun _ _ _ => 0%nat) rest0 = Ok gs /\
    map nf_kind gs = [KSummit; KRunoff; KSummit] /\ map nf_pos gs = [(0, 1); (0, 1); (1, 1)].
Proof.
  split; [done|]. split; [intros ? ? ? _; by eexists|]. split; [done|].
  eexists. split; [vm_compute; reflexivity|]. split; reflexivity.
Qed.

(** One cell is lower than the others: with a number as the marker this raster is
    analysed, with NaN it is not. *)
Definition slope_map : datamap := row_map [[1; 2]; [2; 2]] (Some (-9)) unit_gt.
Example C64_first_corner_ok :
  map_ok slope_map /\ data_cell slope_map (0, 0) /\ ~ peak slope_map (0, 0) /\
  n_analyze_all slope_map (nan_of slope_map) (NaN None) enum0 (fun _ _ _ => 0%nat) rest0 = Err IndexError /\
  exists fs, analyze_all fp_none (fun _ _ _ => 0%nat) slope_map = Ok fs /\ length fs = 2%nat.
Proof.
  split; [done|]. split; [done|]. split.
  { intros [_ H]. apply (H (0, 1)). split; [done|]. split; [done|]. exists (0, 0). split; [by apply same_flat_refl|].
    unfold adj8; cbn; split; [done|lia]. }
  split; [vm_compute; reflexivity|]. eexists. split; [vm_compute; reflexivity|reflexivity].
Qed.

(** The other two corners. *)
Definition slope_map2 : datamap := row_map [[9; 8; 7]; [6; 5; 6]] (Some (-9)) unit_gt.
Example C64_corners_ok :
  map_ok slope_map2 /\ (0, 2) = (0, dm_max_y slope_map2) /\ same_flat slope_map2 (0, 2) (0, 2) /\ ~ peak slope_map2 (0, 2) /\
  (1, 0) = (dm_max_x slope_map2, 0) /\ same_flat slope_map2 (1, 0) (1, 0) /\ ~ peak slope_map2 (1, 0).
Proof.
  split; [done|]. split; [done|]. split; [by apply same_flat_refl|]. split.
  { intros [_ H]. apply (H (0, 1)). split; [done|]. split; [done|]. exists (0, 2). split; [by apply same_flat_refl|].
    unfold adj8; cbn; split; [done|lia]. }
  split; [done|]. split; [by apply same_flat_refl|].
  intros [_ H]. apply (H (0, 0)). split; [done|]. split; [done|]. exists (1, 0). split; [by apply same_flat_refl|].
  unfold adj8; cbn; split; [done|lia].
Qed.

(** Corners are peaks, a NaN cell on the border does the damage. *)
Definition notch_map : datamap :=
  row_map [[5; 5; 4; -9; 5; 5]; [5; 5; 5; 5; 5; 5]; [5; 5; 5; 5; 5; 5]] (Some (-9)) unit_gt.
Example C64_beside_ok :
  map_ok notch_map /\ data_cell notch_map (0, 2) /\ on_edge notch_map (0, 2) /\ ~ peak notch_map (0, 2) /\
  lone_nan notch_map (nan_of notch_map) (0, 2) (0, 3) /\
  n_analyze_all notch_map (nan_of notch_map) (NaN None) enum0 (fun _ _ _ => 0%nat) rest0 = Err IndexError.
Proof.
  assert (Hd : data_cell notch_map (0, 2)) by done.
  assert (Hs : forall c, same_flat notch_map (0, 2) c <-> c = (0, 2)).
  { apply single_flat; [done|]. intros [x y] (Hne & Hx & Hy) [[Hm _] _]. cbn [fst snd] in *.
    assert (x = 0 \/ x = 1) as Ex by lia. assert (y = 1 \/ y = 2 \/ y = 3) as Ey by lia.
    destruct Ex as [->| ->], Ey as [->|[->| ->]]; first [done|by vm_compute]. }
  split; [done|]. split; [done|]. split; [exists (0, 2); split; [by apply Hs|]; vm_compute; intuition congruence|]. split.
  { intros [_ H]. apply (H (0, 1)). split; [done|]. split; [done|]. exists (0, 2). split; [by apply same_flat_refl|].
    unfold adj8; cbn; split; [done|lia]. }
  split; [|vm_compute; reflexivity].
  split; [vm_compute; intuition congruence|]. split; [done|]. split.
  { split; [by rewrite Hs|]. exists (0, 2). split; [by apply Hs|]. unfold adj8; cbn; split; [done|lia]. }
  intros [x y] [Hn (c & Hc & Ha)] Hb Hq. apply Hs in Hc as ->. unfold border_line, adj8 in *.
  change (dm_max_x notch_map) with 2 in *. change (dm_max_y notch_map) with 5 in *. cbn [fst snd] in *.
  assert ((x, y) <> (0, 2)) by (intros E; apply Hn; by apply Hs). assert ((x, y) <> (0, 3)) by tauto.
  assert (x = 0 -> y <> 2 /\ y <> 3) by naive_solver. lia.
Qed.

Example C64_steepest_ok :
  nodata_low notch_map /\ data_cell notch_map (0, 2) /\ nan_of notch_map (0, 3) = true /\
  n_steepestNeighbor notch_map (nan_of notch_map) (NaN None) (0, 2) = Ok (Some ((1, 2), Num 5)).
Proof.
  split; [|split; [done|split; [done|vm_compute; reflexivity]]].
  apply climbable_check; [repeat split; by vm_compute|apply row_map_exact|by vm_compute].
Qed.
