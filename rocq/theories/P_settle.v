(** Property C71: finding basin saddles and purging a second time change nothing. *)
From Verif Require Import Run_model Walk_model Raster_spec Closest_spec Feature_spec Network_spec Climb_spec Graph_spec
  Walk_spec Basin_model Basin_spec Terrain_spec Run_spec Start_proof Terrain_proof Run_proof Basin_proof Basin_facts Basin_example Example_maps Graph_example
  Climb_facts Closest_proof Walk_example Run_example Purge_proof Cull_spec Settle_proof Settle_purge_proof Settle_run_proof.
Local Open Scope nat_scope.

(** C71.  Finding the basin saddles of a graph as walks make it, and once more
    among what was left, gives the same objects as finding them once. *)
Theorem C71_again m w saddles fuel w' fuel' : basin_graph m w saddles -> no_override w ->
  disqualify_basin_saddles m fuel w saddles = Ok w' -> length saddles + length (w_saddles w) < fuel' ->
  disqualify_basin_saddles m fuel' w' saddles = Ok w'.
Proof.
  intros G Hno E Hf. destruct (detect_calm m fuel w saddles w' G Hno E) as [G1 G2 G3 G4].
  destruct (Basin_facts.basin_marks m fuel w saddles w' E) as (S & B & A & M & _).
  apply settled; [done..|]. by rewrite (mk_len _ _ _ _ _ M).
Qed.
Print Assumptions C71_again.

(** Two of the five saddles are basin saddles and one has a single summit. *)
Example C71_again_case : basin_graph ex_map g_ring [0;1;2;3;4] /\ no_override g_ring /\
  length [0;1;2;3;4] + length (w_saddles g_ring) < 11 /\
  exists w', disqualify_basin_saddles ex_map 12 g_ring [0;1;2;3;4] = Ok w' /\
    marks (Ok w') = Some [(false, false, []); (false, true, []); (false, true, []); (false, false, []); (true, false, [])].
Proof.
  split; [apply g_ring_ok|]. split; [apply g_ring_ok|]. split; [vm_compute; lia|]. eexists. split; vm_compute; reflexivity.
Qed.

(** C71.  In the result of an analysis, purged in any way or not, no further
    basin saddle is found and nothing changes. *)
Theorem C71_analysis fpath fp orc near fuel fuel' r m d0 d :
  mpaths_found fpath m -> sound_searches near m -> map_ok m -> north_up m -> climbable m ->
  pixels_in_reach m -> map_in_reach m -> paths_found fp m -> fine_grid m ->
  dm_run_with fpath fp orc near fuel true false r m = Ok d0 -> border_apart m (mp_world d0) (mp_saddles d0) ->
  dm_run_with fpath fp orc near fuel false false r m = Ok d ->
  length (mp_saddles d) + length (w_saddles (mp_world d)) < fuel' ->
  dm_detect fuel' m d = Ok d /\
  forall a b c, dm_detect fuel' m (purge_saddles m a b c d) = Ok (purge_saddles m a b c d).
Proof.
  intros H1 H2 H3 H4 H5 H6 H7 H8 H9 Hd0 Hap Hd Hf.
  exact (detect_again fpath fp orc near m H1 H2 H3 H4 H5 H6 H7 H8 H9 fuel fuel' r d0 d Hd0 Hd Hap Hf).
Qed.
Print Assumptions C71_analysis.

(** C71.  Purging the result of an analysis twice with the same options is the
    same as purging it once. *)
Theorem C71_purged fpath fp orc near fuel a b c m d :
  mpaths_found fpath m -> sound_searches near m -> map_ok m -> north_up m -> climbable m ->
  pixels_in_reach m -> map_in_reach m -> paths_found fp m -> fine_grid m ->
  dm_run_with fpath fp orc near fuel false false false m = Ok d ->
  purge_saddles m a b c (purge_saddles m a b c d) = purge_saddles m a b c d.
Proof.
  intros H1 H2 H3 H4 H5 H6 H7 H8 H9 Hd.
  exact (purge_again fpath fp orc near m H1 H2 H3 H4 H5 H6 H7 H8 H9 fuel a b c d Hd).
Qed.
Print Assumptions C71_purged.

(** An analysis that finds a basin saddle, which purging removes. *)
Example C71_case :
  mpaths_found fpath_ends loop_map /\ sound_searches search0 loop_map /\ map_ok loop_map /\ north_up loop_map /\
  climbable loop_map /\ pixels_in_reach loop_map /\ map_in_reach loop_map /\ paths_found fp_unit0 loop_map /\
  fine_grid loop_map /\
  exists d0 d, dm_run_with fpath_ends fp_unit0 orc_id search0 20 true false false loop_map = Ok d0 /\
    border_apart loop_map (mp_world d0) (mp_saddles d0) /\
    dm_run_with fpath_ends fp_unit0 orc_id search0 20 false false false loop_map = Ok d /\
    length (mp_saddles d) + length (w_saddles (mp_world d)) < 20 /\
    mp_saddles d = [6; 7] /\ mp_saddles (purge_saddles loop_map true true false d) = [6].
Proof.
  destruct loop_usable as (H1 & H2 & H3 & H4 & H5 & H6 & H7 & H8 & H9). do 9 (split; [assumption|]).
  eexists _, _. split; [vm_compute; reflexivity|]. split; [|split; [vm_compute; reflexivity|]].
  - intros i j x Hi _ [pa Hpa]. exfalso. apply elem_of_list_In in Hi. destruct Hi as [<-|[<-|[]]]; vm_compute in Hpa; done.
  - split; [vm_compute; lia|]. split; vm_compute; reflexivity.
Qed.

(** C71.  For any map at all, purging twice is the same as purging once when all
    basin saddles are purged, when none are, and when no purged saddle has
    alternatives. *)
Theorem C71_any m a b c d :
  c = true \/ b = false \/ (forall i, i ∈ mp_saddles d -> goes a b c (mp_world d) i = true -> alts_of (mp_world d) i = []) ->
  purge_saddles m a b c (purge_saddles m a b c d) = purge_saddles m a b c d.
Proof. exact (purge_twice m a b c d). Qed.
Print Assumptions C71_any.

(** C71, refuted for an arbitrary map: a basin saddle that is kept for its
    alternative loses it when the alternative is purged for having one summit,
    and is purged itself only the second time. *)
Theorem C71_any_refuted : exists m d,
  let once := purge_saddles m true true false d in
  mp_saddles d = [0; 1] /\ mp_saddles once = [0] /\ mp_saddles (purge_saddles m true true false once) = [].
Proof.
  exists ex_map, (DMap (World
    [Saddle (at_ KSaddle (0, 3)%Z 5) [] None [] false true [1] None; Saddle (at_ KSaddle (1, 3)%Z 5) [] None [] true false [0] None] [] [])
    [] [0; 1] [] []).
  split_and!; vm_compute; reflexivity.
Qed.
Print Assumptions C71_any_refuted.
