(** Property C73: what a local prominent region shows on a map. *)
From Verif Require Import Run_model Walk_model Raster_spec Closest_spec Feature_spec Network_spec Climb_spec Graph_spec
  Walk_spec Basin_model Basin_spec Terrain_spec Run_spec Rebuilt_spec Start_proof Terrain_proof Run_proof Rebuilt_proof
  Climb_facts Closest_proof Walk_example Run_example Divide_model Divide_spec Region_spec Divide_proof Region_proof Region_run_proof
  Example_maps Graph_example Basin_example Divide_example Kml_model Kml_spec Lprkml_model Lprkml_spec Lprkml_proof.
Local Open Scope Z_scope.

(** C73.  Collecting the elements of the region of a summit and writing them never
    fails.  The document shows the summits, the links, and, apart from each other,
    the saddles and the runoffs of the reported paths and nothing else, in
    particular no disqualified saddles, one placemark for a place. *)
Theorem C73_shown m w pic master t0 : own_links w ->
  let r := local_prominent_region m w master t0 in
  exists es kw, region_elements w pic r = Ok es /\ kml_extend es kml_new = Ok kw /\
    shows (fun a => exists k i, on_path w (lp_paths r) k a i) (pic_summit pic) "#summit" (k_summits kw) /\
    shows (fun i => Walk_model.is_runoff w i = false /\ exists k a, on_path w (lp_paths r) k a i) (pic_saddle pic) "#saddle" (k_saddles kw) /\
    shows (fun i => Walk_model.is_runoff w i = true /\ exists k a, on_path w (lp_paths r) k a i) (pic_saddle pic) "#runoff" (k_runoffs kw) /\
    shows (fun k => exists a i, on_path w (lp_paths r) k a i) (fun k => (pic_link pic k, ""%string)) "" (k_linkers kw) /\
    k_spots kw = [] /\ k_domains kw = [].
Proof. intros H. exact (region_shown m w pic H master t0). Qed.
Print Assumptions C73_shown.

(** C73.  If a path is reported, the explored summit and the saddle where the path
    ends are among them. *)
Theorem C73_ends m w master t0 q s : own_links w ->
  let r := local_prominent_region m w master t0 in
  (q, s) ∈ lp_paths r ->
  (exists k i, on_path w (lp_paths r) k master i) /\ exists k a, on_path w (lp_paths r) k a s.
Proof. intros H. exact (region_ends m w H master t0 q s). Qed.
Print Assumptions C73_ends.

(** Names for the objects of the examples. *)
Definition some_pictures : pictures :=
  Pictures (fun a => if Nat.eqb a 0 then ("POINT (0 0)", "9") else ("POINT (1 1)", "7"))%string
    (fun i => if Nat.eqb i 1 then ("POINT (0 1)", "4") else ("POINT (0 2)", "3"))%string
    (fun k => if Nat.ltb k 2 then "LINESTRING A"%string else "LINESTRING B"%string).
(** Two paths from summit 0 over summit 1 that share links: shared objects, and
    others drawn at the same place, are shown once. *)
Example C73_case : own_links g_rim /\
  let r := local_prominent_region map_a g_rim 0 no_tree in
  lp_paths r = [([0; 1; 2], 1); ([0; 1; 4], 2)]%nat /\
  exists es kw, region_elements g_rim some_pictures r = Ok es /\ length es = 18%nat /\ kml_extend es kml_new = Ok kw /\
    k_summits kw = [Pm "#summit" "POINT (0 0)" "9"; Pm "#summit" "POINT (1 1)" "7"] /\
    k_saddles kw = [Pm "#saddle" "POINT (0 2)" "3"; Pm "#saddle" "POINT (0 1)" "4"] /\
    k_linkers kw = [Pm "" "LINESTRING A" ""; Pm "" "LINESTRING B" ""].
Proof.
  split; [by apply own_links_b_sound|]. cbv zeta. split; [by vm_compute|].
  eexists _, _. split; [vm_compute; reflexivity|]. split; [done|]. split; [vm_compute; reflexivity|]. split; [done|]. split; done.
Qed.

(** C73.  The region of a summit from which nothing is reported shows nothing, not
    even the summit itself, although links are entered. *)
Theorem C73_empty_refuted : exists w, own_links w /\
  let r := local_prominent_region map_a w 0 no_tree in
  lp_exempt r <> [] /\ lp_busted r = [] /\
  forall pic, region_elements w pic r = Ok [] /\ exists kw, kml_extend [] kml_new = Ok kw /\ document kw = [].
Proof.
  exists (mk_graph [(0,0);(1,0)]%nat [3] [] [9;7]). split; [by apply own_links_b_sound|]. cbv zeta.
  split; [by vm_compute|]. split; [by vm_compute|]. intros pic. split; [by vm_compute|]. eexists. split; [reflexivity|by vm_compute].
Qed.
Print Assumptions C73_empty_refuted.

(** C73.  All this holds for every summit of the divide tree of a finished
    analysis. *)
Theorem C73_analysed fpath fp orc near fuel r m su sa ru d d' t h out t' pic :
  mpaths_found fpath m -> sound_searches near m -> map_ok m -> north_up m -> climbable m ->
  pixels_in_reach m -> map_in_reach m -> paths_found fp m -> fine_grid m ->
  run_no_rebuild fp orc m = Ok (su, sa, ru) ->
  dm_run_with fpath fp orc near fuel true false r m = Ok d -> border_apart m (mp_world d) (mp_saddles d) ->
  dm_run_with fpath fp orc near fuel false false r m = Ok d' ->
  run_tree m (mp_world d') (mp_summits d') t = Ok (h, out, t') ->
  map fst out = mp_summits d' /\
  forall x p, (x, p) ∈ out -> exists es kw, region_elements (mp_world d') pic p = Ok es /\ kml_extend es kml_new = Ok kw /\
    shows (fun a => exists k i, on_path (mp_world d') (lp_paths p) k a i) (pic_summit pic) "#summit" (k_summits kw) /\
    shows (fun i => Walk_model.is_runoff (mp_world d') i = false /\ exists k a, on_path (mp_world d') (lp_paths p) k a i)
      (pic_saddle pic) "#saddle" (k_saddles kw) /\
    shows (fun i => Walk_model.is_runoff (mp_world d') i = true /\ exists k a, on_path (mp_world d') (lp_paths p) k a i)
      (pic_saddle pic) "#runoff" (k_runoffs kw) /\
    shows (fun k => exists a i, on_path (mp_world d') (lp_paths p) k a i) (fun k => (pic_link pic k, ""%string)) "" (k_linkers kw) /\
    (lp_paths p <> [] -> (pic_summit pic x).1 ∈ map pm_wkt (k_summits kw)).
Proof.
  intros H1 H2 H3 H4 H5 H6 H7 H8 H9 Hrun Hd Hap Hd' Ht.
  destruct (with_finish fpath fp orc near m fuel r su sa ru d d' H2 H3 H7 H8 Hrun Hd Hd') as (objs & s & Hs & Hw & Hdet).
  pose proof (finished_tree fpath fp orc near m H1 H2 H3 H4 H5 H6 H7 H8 H9 su sa ru objs d s fuel d' Hrun Hs Hw Hap Hdet) as G.
  pose proof (run_tree_spec m _ (tg_own _ G) (mp_summits d') t) as R. rewrite Ht in R. destruct R as (_ & Hf & R).
  split; [exact Hf|]. intros x p Hin. destruct (R x p Hin) as (t0 & -> & _).
  destruct (region_shown m (mp_world d') pic (tg_own _ G) x t0) as (es & kw & E1 & E2 & S1 & S2 & S3 & S4 & _).
  exists es, kw. split; [exact E1|]. split; [exact E2|]. split; [exact S1|]. split; [exact S2|]. split; [exact S3|]. split; [exact S4|].
  intros Hne. destruct (lp_paths (local_prominent_region m (mp_world d') x t0)) as [|[q i] l] eqn:El; [done|].
  destruct (region_ends m (mp_world d') (tg_own _ G) x t0 q i) as [He _]; [rewrite El; by left|]. rewrite El in He.
  destruct S1 as (_ & S1 & _). destruct (S1 x He) as (pm & Hpm & _ & <-). apply elem_of_list_fmap. by exists pm.
Qed.
Print Assumptions C73_analysed.
