(** Property C66: the analysis with its distances in binary64. *)
From Verif Require Import Tree_spec Tree_proof Base_model Raster_model Run_model Walk_model Network_model Closest_model Closest_spec Feature_spec Network_spec Climb_spec
  Graph_spec Walk_spec Basin_model Basin_spec Terrain_spec Run_spec Rebuilt_spec Float_model Slope_spec Slope_example Near_model Near_spec Near_run_proof Near_example
  Fsearch_model Fsearch_spec Fsearch_proof Fnet_spec Fnet_proof Placed_spec Placed_proof Shelf_spec Fplaced_proof Climb_facts Rebuild_facts Walk_example Run_example Frun_example P_slope P_rebuilt Raster_spec.
From Flocq Require Import Core BinarySingleNaN.
From Coq Require Import Reals Qreals.
Local Open Scope Z_scope.

(** C66.  On rasters with at most 2^22 rows and columns, pixel sizes that are floats
    of usual magnitude and cells nearer than 2^62 metres, the searches in binary64
    always answer.  So the theorems about climbing, splitting and whole analyses
    (C20 to C25, C52 to C54, C59, C60, C62, C63), which ask for [sound_searches], hold
    for them. *)
Theorem C66_searches hyp kd m g1 g5 :
  float_library hyp kd -> float_raster m g1 g5 -> sound_searches (float_searches hyp g1 g5 kd) m.
Proof. exact (float_sound hyp kd m g1 g5). Qed.
Print Assumptions C66_searches.

(** C66.  Squares stand for computed lengths: of two lengths, and of a length and
    [sys.maxsize], the squares are in the same order as the floats. *)
Theorem C66_lengths d d' :
  is_finite d = true -> is_finite d' = true -> (0 <= B2R d)%R -> (0 <= B2R d')%R ->
  ((f_square d < f_square d')%Q <-> Bltb d d' = true) /\ ((f_square d < maxsize2)%Q <-> f_closer d None = true).
Proof. intros F F' P P'. split; [exact (square_less d d' F F' P P')|exact (square_maxsize d F P)]. Qed.
Print Assumptions C66_lengths.

(** C66.  New saddles are placed at a cell nearest to the middle of two points
    (multiples of one half). *)
Theorem C66_member hyp kd g1 g5 tx ty k l p0 pts :
  float_library hyp kd -> (tx == k # 2)%Q -> (ty == l # 2)%Q -> 0 <= k < 2 ^ 23 -> 0 <= l < 2 ^ 23 ->
  p0.2 = None -> (forall p, p ∈ p0 :: pts -> usual_cell p.1) ->
  exists p, s_member (float_searches hyp g1 g5 kd) tx ty (p0 :: pts) = Ok p /\ p ∈ map fst (p0 :: pts) /\
    forall q, q ∈ map fst (p0 :: pts) -> (dist2_to tx ty p <= dist2_to tx ty q)%Q.
Proof.
  intros [Hh Hz _] Ex Ey Hk Hl H0 Hu.
  destruct (closest_member hyp Hh Hz _ _ k l (half_exact tx k Ex Hk) (half_exact ty l Ey Hl) p0 pts H0 Hu) as (p & E & Hp & Hmin).
  exists p. split; [done|]. split; [done|]. intros q Hq. unfold dist2_to. rewrite Ex, Ey. by apply Hmin.
Qed.
Print Assumptions C66_member.

(** C66.  The network of N >= 2 groups of cells of the raster is a spanning tree of
    N - 1 links, whose lengths are those of their ends up to a factor 1 + 2^-50.
    Against every spanning tree made of cross pairs of points the links can be
    matched so that none is longer than its partner: up to a factor 1 + 2^-48 of
    the squares, and exactly with square pixels. *)
Theorem C66_network hyp kd m g1 g5 hpn T :
  float_library hyp kd -> float_raster m g1 g5 ->
  (2 <= length hpn)%nat -> (forall g, g ∈ hpn -> g <> []) -> (forall g p, g ∈ hpn -> p ∈ g -> in_map m (pt_xy p)) ->
  (forall g h, g ∈ hpn -> h ∈ hpn -> (length g + length h < 100)%nat \/ square_pixels m) ->
  spanning_tree (length hpn) (map fst T) ->
  (forall i j p q, (i, j, (p, q)) ∈ T -> exists g h, hpn !! i = Some g /\ hpn !! j = Some h /\ p ∈ g /\ q ∈ h) ->
  exists links es, build_internal_tree (float_searches hyp g1 g5 kd) m hpn = Ok links /\
    Forall2 (joins_about m hpn) links es /\ spanning_tree (length hpn) es /\ dominated (not_longer m) links T.
Proof. intros HL HR Hn Hne Hin Hs. exact (float_network hyp kd m g1 g5 HL HR hpn Hne Hin Hs Hn T). Qed.
Print Assumptions C66_network.

(** C66.  The new saddles of a run are at cells of the old ones nearest to the middle of
    two points (cf. C52_placed). *)
Theorem C66_placed hyp kd g1 g5 fp orc m :
  float_library hyp kd -> float_raster m g1 g5 -> map_ok m -> paths_found fp m ->
  exists su sa ru parts ru', analyze fp orc m = Ok (su, sa, ru) /\
    run_rebuild fp orc (float_searches hyp g1 g5 kd) m = Ok (su, concat parts, ru') /\
    Forall2 (placed (about_closest_in m)) sa parts.
Proof.
  intros HL HR Hok Hp. apply (run_placed (2 ^ 22)); [done|done|exact (float_sound hyp kd m g1 g5 HL HR)|exact (float_map_reach m g1 g5 HR)|].
  exact (float_placing hyp kd m g1 g5 HL HR).
Qed.
Print Assumptions C66_placed.

(** C67.  So do the searches in binary64; C67_flat_divided holds for them. *)
Theorem C67_binary64 hyp kd m g1 g5 :
  float_library hyp kd -> float_raster m g1 g5 ->
  sound_searches (float_searches hyp g1 g5 kd) m /\ nearest_map (float_searches hyp g1 g5 kd) m /\ pixels_in_reach m.
Proof.
  intros HL HR. split; [exact (float_sound hyp kd m g1 g5 HL HR)|]. split; [exact (float_nearest_map hyp kd m g1 g5 HL HR)|exact (float_pixels m g1 g5 HR)].
Qed.
Print Assumptions C67_binary64.

(** C66.  The whole analysis with slopes and distances in binary64: if no saddle was
    found on the border it completes, leaves no closed chain, and its graph
    describes how the ground is connected (cf. C59). *)
Theorem C66_analysis hyp kd g1 g5 fpath fp orc fuel r m su sa ru d :
  float_library hyp kd -> float_raster m g1 g5 -> float_map hyp g5 g1 m -> nodata_low m ->
  mpaths_found fpath m -> map_ok m -> north_up m -> paths_found fp m -> fine_grid m ->
  let near := float_searches hyp g1 g5 kd in
  run_no_rebuild fp orc m = Ok (su, sa, ru) -> (forall f, f ∈ sa -> ft_edge f = false) ->
  dm_run_with fpath fp orc near fuel true false r m = Ok d ->
  (length (mp_saddles d) + length (w_saddles (mp_world d)) < fuel)%nat ->
  exists d', dm_run_with fpath fp orc near fuel false false r m = Ok d' /\
    (forall c, ~ closed (open_edge (mp_world d')) c) /\
    forall x f a y g b e, su !! x = Some f -> covers f a -> su !! y = Some g -> covers g b ->
      e <= elev m a -> e <= elev m b ->
      joined (mp_world d') (fun i => e <= ele_at (mp_world d') (Sad i)) x y <-> ground_joined m e a b.
Proof.
  intros HL HR HF Hlow H1 H3 H4 H8 H9 near. apply (C59_analysis fpath fp orc near fuel r m); try done.
  - exact (float_sound hyp kd m g1 g5 HL HR).
  - by apply (C61_slopes hyp g5 g1 m HF).
  - apply pixels_in_reach_check; [pose proof (fr_rows _ _ _ HR)|pose proof (fr_cols _ _ _ HR)]; lia.
  - intros p q Hp Hq. eapply Qlt_trans; [exact (fr_reach _ _ _ HR p q Hp Hq)|reflexivity].
Qed.
Print Assumptions C66_analysis.

(** The raster of C59 with slopes and distances in binary64. *)
Example C66_case :
  float_library plain_hypot plain_tree /\ float_raster float_loop (one false) (one true) /\
  float_map plain_hypot (one true) (one false) float_loop /\ nodata_low float_loop /\
  mpaths_found fpath_ends float_loop /\ map_ok float_loop /\ north_up float_loop /\ paths_found fp_unit0 float_loop /\
  fine_grid float_loop /\
  let near := float_searches plain_hypot (one false) (one true) plain_tree in
  exists su sa ru d d' f g, run_no_rebuild fp_unit0 orc_id float_loop = Ok (su, sa, ru) /\
    dm_run_with fpath_ends fp_unit0 orc_id near 20 true false true float_loop = Ok d /\
    dm_run_with fpath_ends fp_unit0 orc_id near 20 false false true float_loop = Ok d' /\
    (forall f, f ∈ sa -> ft_edge f = false) /\
    (length (mp_saddles d) + length (w_saddles (mp_world d)) < 20)%nat /\
    su !! 0%nat = Some f /\ covers f (2, 1) /\ su !! 1%nat = Some g /\ covers g (2, 3) /\
    map disqualified (w_saddles (mp_world d)) = [false; false; false; false; false; false; false; false] /\
    map disqualified (w_saddles (mp_world d')) = [false; false; false; false; false; false; false; true].
Proof.
  destruct loop_ok as (H1 & H2 & H3 & H4). split; [exact plain_library|]. split; [exact loop_raster|]. split; [exact loop_float|].
  split; [exact loop_low|]. split; [done|]. split; [done|]. split; [exact loop_north|]. split; [done|]. split; [done|].
  cbv zeta. eexists _, _, _, _, _, _, _. do 3 (split; [vm_compute; reflexivity|]).
  split; [apply Forall_forall; repeat constructor|]. split; [vm_compute; lia|].
  split; [reflexivity|]. split; [left; split; reflexivity|]. split; [reflexivity|]. split; [left; split; reflexivity|].
  split; vm_compute; reflexivity.
Qed.

(** Three groups of cells of that raster. *)
Definition three : list (list pte) := [[(2, 1, metres 9)]; [(2, 3, metres 8); (1, 2, metres 5)]; [(3, 2, metres 4)]].
Example C66_network_case :
  let T : list ((nat * nat) * (pte * pte)) :=
    [((0, 1)%nat, ((2, 1, metres 9), (1, 2, metres 5))); ((1, 2)%nat, ((2, 3, metres 8), (3, 2, metres 4)))] in
  (2 <= length three)%nat /\ (forall g, g ∈ three -> g <> []) /\ (forall g p, g ∈ three -> p ∈ g -> in_map float_loop (pt_xy p)) /\
  (forall g h, g ∈ three -> h ∈ three -> (length g + length h < 100)%nat \/ square_pixels float_loop) /\
  spanning_tree (length three) (map fst T) /\
  (forall i j p q, (i, j, (p, q)) ∈ T -> exists g h, three !! i = Some g /\ three !! j = Some h /\ p ∈ g /\ q ∈ h) /\
  exists links, build_internal_tree (float_searches plain_hypot (one false) (one true) plain_tree) float_loop three = Ok links /\
    map (fun l => (vl_remote l, vl_local l)) links =
      [(Some (2, 1, metres 9), Some (1, 2, metres 5)); (Some (2, 1, metres 9), Some (3, 2, metres 4))].
Proof.
  intros T. split; [cbn; lia|]. split.
  { intros g Hg. repeat (apply elem_of_cons in Hg as [->|Hg]; [done|]). by apply elem_of_nil in Hg. }
  split.
  { intros g p Hg Hp. repeat (apply elem_of_cons in Hg as [->|Hg];
      [repeat (apply elem_of_cons in Hp as [->|Hp]; [vm_compute; intuition congruence|]); by apply elem_of_nil in Hp|]). by apply elem_of_nil in Hg. }
  split.
  { intros g h _ _. right. split; reflexivity. }
  split.
  { apply spanning_check; [reflexivity|reflexivity|].
    assert (H01 : Tree_spec.joined (map fst T) 0%nat 1%nat) by (apply joined_edge; by left).
    intros [|[|[|i]]] Hi; [apply joined_refl|done| |cbn in Hi; lia].
    eapply joined_trans; [exact H01|]. apply joined_edge. by right; left. }
  split.
  { intros i j p q [[= -> -> -> ->]|[[= -> -> -> ->]|H%elem_of_nil]%elem_of_cons]%elem_of_cons; [| |done].
    - eexists _, _. split; [reflexivity|]. split; [reflexivity|]. split; [by left|right; by left].
    - eexists _, _. split; [reflexivity|]. split; [reflexivity|]. split; [by left|by left]. }
  eexists. split; [vm_compute; reflexivity|]. vm_compute. reflexivity.
Qed.

Example C66_small_cases :
  (is_finite (one false) = true /\ is_finite two63 = true /\ (0 <= B2R (one false))%R /\
   f_closer (one false) None = true /\ f_closer two63 None = false) /\
  s_member (float_searches plain_hypot (one false) (one true) plain_tree) (5 # 2) (5 # 2)
    [((0, 0), None); ((2, 4), Some 7); ((3, 3), None); ((2, 2), None)] = Ok (3, 3).
Proof.
  split; [|vm_compute; reflexivity]. split; [done|]. split; [vm_compute; reflexivity|]. split; [rewrite one_value; apply Rle_0_1|].
  split; vm_compute; reflexivity.
Qed.
