(** Property C77: a part of a raster analysed on its own. *)
From Verif Require Import Base_model Raster_model Analyze_model Tile_spec Overlap_spec Feature_spec Tile_proof Overlap_proof
  Example_maps P_features Raster_spec.
Local Open Scope Z_scope.

(** C77.  Analysing a tile and the large raster gives the same summits and
    saddles for all flat areas that do not touch the border of the tile: the
    same position, elevation, cells and pieces of higher ground, each exactly
    once.  The
    tile also reports a summit wherever the large raster does, even at its
    border. *)
Theorem C77_tile fp orc orc' o m t :
  map_ok m -> map_ok t -> paths_found fp m -> paths_found fp t -> tile o m t ->
  exists su sa ru su' sa' ru',
    analyze fp orc m = Ok (su, sa, ru) /\ analyze fp orc' t = Ok (su', sa', ru') /\
    (forall f', f' ∈ su' -> (forall c, covers f' c -> inner_cell t c) ->
       exactly_one (same_place o f') su) /\
    (forall f, f ∈ su -> inside_tile o t f -> exactly_one (fun f' => same_place o f' f) su') /\
    (forall f', f' ∈ sa' -> (forall c, covers f' c -> inner_cell t c) ->
       exactly_one (same_place o f') sa) /\
    (forall f, f ∈ sa -> inside_tile o t f -> exactly_one (fun f' => same_place o f' f) sa') /\
    (forall f c, f ∈ su -> in_map t c -> covers f (shift o c) ->
       exactly_one (fun f' => covers f' c) su').
Proof. exact (tile_features fp orc orc' o m t). Qed.
Print Assumptions C77_tile.

(** C77.  Two tiles of one raster agree where they overlap: a summit or saddle of
    the one that touches the border of neither is found in the other, once, at the
    same place. *)
Theorem C77_overlap fp orc1 orc2 o1 o2 m t1 t2 :
  map_ok m -> map_ok t1 -> map_ok t2 -> paths_found fp m -> paths_found fp t1 -> paths_found fp t2 ->
  tile o1 m t1 -> tile o2 m t2 ->
  exists su1 sa1 ru1 su2 sa2 ru2,
    analyze fp orc1 t1 = Ok (su1, sa1, ru1) /\ analyze fp orc2 t2 = Ok (su2, sa2, ru2) /\
    (forall f1, f1 ∈ su1 -> (forall c, covers f1 c -> inner_cell t1 c) -> inside_other o1 o2 t2 f1 ->
       exactly_one (fun f2 => same_place (offset o1 o2) f2 f1) su2) /\
    (forall f1, f1 ∈ sa1 -> (forall c, covers f1 c -> inner_cell t1 c) -> inside_other o1 o2 t2 f1 ->
       exactly_one (fun f2 => same_place (offset o1 o2) f2 f1) sa2).
Proof. exact (tiles_agree fp orc1 orc2 o1 o2 m t1 t2). Qed.
Print Assumptions C77_overlap.

(** C77.  A rectangle cut out of a raster is a tile of it. *)
Theorem C77_cut_out o w h m : 0 <= o.1 -> 0 <= o.2 -> o.1 + w <= dm_max_x m -> o.2 + h <= dm_max_y m ->
  tile o m (cut_out o w h m).
Proof. exact (cut_out_tile o w h m). Qed.
Print Assumptions C77_cut_out.

(** C77.  With a frame of nodata cells around the raster the analysis reports
    the same summits and saddles, those at the border included, and no runoffs. *)
Theorem C77_frame fp orc orc' v m : map_ok m -> dm_nodata m = Some v ->
  paths_found fp m -> paths_found fp (framed v m) ->
  exists su sa ru su' sa',
    analyze fp orc m = Ok (su, sa, ru) /\ analyze fp orc' (framed v m) = Ok (su', sa', []) /\
    (forall f', f' ∈ su' -> exactly_one (same_place (-1, -1) f') su) /\
    (forall f, f ∈ su -> exactly_one (fun f' => same_place (-1, -1) f' f) su') /\
    (forall f', f' ∈ sa' -> exactly_one (same_place (-1, -1) f') sa) /\
    (forall f, f ∈ sa -> exactly_one (fun f' => same_place (-1, -1) f' f) sa').
Proof. exact (framed_features fp orc orc' v m). Qed.
Print Assumptions C77_frame.

(** C77.  At the border of the tile this fails: the saddle of [map_a] becomes a
    summit of the one-column tile through it, and no saddle is found there. *)
Theorem C77_border_refuted :
  exists o m t su sa ru su' sa' ru' f f' c,
    map_ok m /\ map_ok t /\ tile o m t /\
    analyze fp0 orc0 m = Ok (su, sa, ru) /\ analyze fp0 orc0 t = Ok (su', sa', ru') /\
    in_map t c /\
    f ∈ sa /\ covers f (shift o c) /\ (forall g, g ∈ sa' -> ~ covers g c) /\
    f' ∈ su' /\ covers f' c /\ (forall g, g ∈ su -> ~ covers g (shift o c)).
Proof.
  exists (0, 2), map_a, (cut_out (0, 2) 3 0 map_a).
  eexists _, _, _, _, _, _, (Feat KSaddle (1, 2) 4 [] false [] [[(1, 3, 8)]; [(1, 1, 9)]]),
    (Feat KSummit (1, 0) 4 [] true [(1, 0, 4)] []), (1, 0).
  split; [by vm_compute|]. split; [by vm_compute|]. split; [by apply cut_out_tile; vm_compute|].
  split; [vm_compute; reflexivity|]. split; [vm_compute; reflexivity|].
  split; [by vm_compute|]. split; [by left|]. split; [left; by split|].
  split; [intros g Hg; by apply elem_of_nil in Hg|]. split; [by left|]. split; [left; by split|].
  intros g Hg. rewrite !elem_of_cons in Hg. destruct Hg as [->|[->|Hg]]; [| |by apply elem_of_nil in Hg];
    intros [[_ H]|H]; cbn in H; try (by apply elem_of_nil in H); discriminate H.
Qed.
Print Assumptions C77_border_refuted.

(** A raster around [map_a]. *)
Definition map_wide : datamap :=
  row_map [[0; 0; 0; 0; 0; 0; 0];
           [0; 1; 1; 1; 1; 1; 5];
           [0; 1; 9; 4; 8; 1; 5];
           [0; 1; 2; 2; 2; 1; 5];
           [0; 1; -99; 1; 1; 1; 0]] (Some (-99)) unit_gt.

Example C77_case :
  map_ok map_wide /\ map_ok (cut_out (1, 1) 3 4 map_wide) /\
  paths_found fp0 map_wide /\ paths_found fp0 (cut_out (1, 1) 3 4 map_wide) /\
  tile (1, 1) map_wide (cut_out (1, 1) 3 4 map_wide) /\
  (exists border_saddle ru, analyze fp0 orc0 map_wide =
    Ok ([Feat KSummit (2, 6) 5 [((2, 6), None); ((1, 6), None); ((3, 6), None)] true
           [(2, 6, 5); (1, 6, 5); (3, 6, 5)] [];
         Feat KSummit (2, 2) 9 [] false [] []; Feat KSummit (2, 4) 8 [] false [] []],
        [border_saddle; Feat KSaddle (2, 3) 4 [] false [] [[(2, 4, 8)]; [(2, 2, 9)]]], ru)) /\
  (exists ru, analyze fp0 orc0 (cut_out (1, 1) 3 4 map_wide) =
    Ok ([Feat KSummit (1, 1) 9 [] false [] []; Feat KSummit (1, 3) 8 [] false [] []],
        [Feat KSaddle (1, 2) 4 [] false [] [[(1, 3, 8)]; [(1, 1, 9)]]], ru)).
Proof.
  split; [by vm_compute|]. split; [by vm_compute|].
  split; [intros pts a b _; eexists; done|]. split; [intros pts a b _; eexists; done|].
  split; [by apply cut_out_tile; vm_compute|].
  split; [eexists _, _|eexists]; vm_compute; reflexivity.
Qed.

(** The corner peak and the saddle next to it stay, the runoff at the corner is gone. *)
Example C77_frame_case :
  map_ok map_c /\ dm_nodata map_c = Some (-1) /\
  paths_found fp0 map_c /\ paths_found fp0 (framed (-1) map_c) /\
  analyze fp0 orc0 (framed (-1) map_c) =
    Ok ([Feat KSummit (2, 3) 9 [((2, 3), None); ((2, 2), None)] false [] [];
         Feat KSummit (4, 4) 8 [] false [] []],
        [Feat KSaddle (3, 3) 7 [] false [] [[(2, 3, 9); (2, 2, 9)]; [(4, 4, 8)]]], []).
Proof.
  split; [by vm_compute|]. split; [done|].
  split; [intros pts a b _; eexists; done|]. split; [intros pts a b _; eexists; done|].
  vm_compute. reflexivity.
Qed.

(** A tile that starts one column further east finds the saddle and the summit
    that do not touch its border. *)
Example C77_overlap_case :
  map_ok (cut_out (1, 2) 3 3 map_wide) /\ paths_found fp0 (cut_out (1, 2) 3 3 map_wide) /\
  tile (1, 2) map_wide (cut_out (1, 2) 3 3 map_wide) /\
  (forall f, f = Feat KSummit (1, 3) 8 [] false [] [] \/ f = Feat KSaddle (1, 2) 4 [] false [] [[(1, 3, 8)]; [(1, 1, 9)]] ->
     (forall c, covers f c -> inner_cell (cut_out (1, 1) 3 4 map_wide) c) /\
     inside_other (1, 1) (1, 2) (cut_out (1, 2) 3 3 map_wide) f) /\
  exists su sa ru, analyze fp0 orc0 (cut_out (1, 2) 3 3 map_wide) = Ok (su, sa, ru) /\
    Feat KSummit (1, 2) 8 [] false [] [] ∈ su /\ Feat KSaddle (1, 1) 4 [] false [] [[(1, 2, 8)]; [(1, 0, 9)]] ∈ sa.
Proof.
  split; [by vm_compute|]. split; [intros pts a b _; eexists; done|]. split; [by apply cut_out_tile; vm_compute|]. split.
  - intros f [-> | ->]; split; intros c [[_ H]|H]; cbn in H; try (by apply elem_of_nil in H); subst c; by vm_compute.
  - eexists _, _, _. split; [vm_compute; reflexivity|]. split; apply elem_of_list_In; cbn; tauto.
Qed.
