(** Properties C08-C13 and C43: feature discovery. *)
From Verif Require Import Analyze_model Raster_spec Feature_spec Scan_proof Feature_facts
  Nodata_proof Example_maps.
From Coq Require Import Sorting.Sorted.
Local Open Scope Z_scope.

(** C08.  Discovery succeeds; every reported summit is a flat area without
    higher neighbours, described exactly; every such area is covered by exactly
    one reported summit. *)
Theorem C08_summits fp orc m : map_ok m -> paths_found fp m ->
  exists su sa ru, analyze fp orc m = Ok (su, sa, ru) /\
    (forall f, f ∈ su -> exists p, peak m p /\ exact_for m p f) /\
    (forall p, peak m p -> exactly_one (fun f => covers f p) su).
Proof. exact (summits_exact fp orc m). Qed.
Print Assumptions C08_summits.

(** C09.  Every reported saddle is a flat area whose higher ground is in at
    least two pieces, and it carries exactly these pieces; away from the border
    it is described exactly.  Every such flat area is covered by exactly one
    saddle.  In particular an interior flat area is reported iff its higher
    ground is in two pieces. *)
Theorem C09_saddles fp orc m : map_ok m -> paths_found fp m ->
  exists su sa ru, analyze fp orc m = Ok (su, sa, ru) /\
    (forall f, f ∈ sa -> exists p, data_cell m p /\ two_sided m p /\ stands_for m p f /\
       components (rim m p) (ft_hpn f) /\ (~ on_edge m p -> exact_for m p f)) /\
    (forall p, data_cell m p -> two_sided m p -> exactly_one (fun f => covers f p) sa).
Proof. exact (saddles_exact fp orc m). Qed.
Print Assumptions C09_saddles.

(** C10.  The output is the concatenation, in row-major order of the first
    cells, of one result per flat area. *)
Theorem C10_each_area_once fp orc m : map_ok m -> paths_found fp m ->
  exists areas, analyze_all fp orc m = Ok (concat (map snd areas)) /\
    (forall p fs, (p, fs) ∈ areas -> area_result m p fs) /\
    (forall p, p ∈ map fst areas <-> first_of_flat m p) /\
    StronglySorted rm_lt (map fst areas).
Proof. exact (analyze_all_spec fp orc m). Qed.
Print Assumptions C10_each_area_once.

(** C11.  Classification of the flat areas on the border. *)
Theorem C11_border fp orc m : map_ok m -> paths_found fp m ->
  exists areas, analyze_all fp orc m = Ok (concat (map snd areas)) /\
    (forall p, p ∈ map fst areas <-> first_of_flat m p) /\
    StronglySorted rm_lt (map fst areas) /\
    forall p fs, (p, fs) ∈ areas -> on_edge m p ->
      (peak m p -> exists f, of_kind KSummit fs = [f] /\ exact_for m p f) /\
      (~ peak m p -> of_kind KSummit fs = []) /\
      (two_sided m p -> exists f, of_kind KSaddle fs = [f] /\ stands_for m p f /\
         components (rim m p) (ft_hpn f) /\ border_saddle_edge m p f) /\
      (~ two_sided m p -> of_kind KSaddle fs = []) /\
      area_runoffs m p (of_kind KRunoff fs).
Proof. exact (border_classification fp orc m). Qed.
Print Assumptions C11_border.

(** C12.  No feature found by the scan records a nodata cell, and the numeric
    value of the marker has no influence. *)
Theorem C12_nodata_inert fp orc m : map_ok m -> paths_found fp m ->
  (exists fs, analyze_all fp orc m = Ok fs /\ forall f, f ∈ fs ->
     data_cell m (ft_pos f) /\ (forall z, z ∈ ft_multi f -> data_cell m z.1) /\
     (forall z, z ∈ ft_edgepts f -> data_cell m (pt_xy z)) /\
     (forall z, z ∈ concat (ft_hpn f) -> data_cell m (pt_xy z))) /\
  (forall m', same_data m m' -> (forall pts a b, fp m pts a b = fp m' pts a b) ->
     analyze fp orc m' = analyze fp orc m).
Proof. exact (nodata_inert fp orc m). Qed.
Print Assumptions C12_nodata_inert.

(** C13.  A run returns the scan's features with four runoffs appended, one
    per corner, whatever is stored there. *)
Theorem C13_corners fp orc m : map_ok m -> paths_found fp m ->
  exists su sa ru, analyze fp orc m = Ok (su, sa, ru) /\
    run_no_rebuild fp orc m = Ok (su, sa, ru ++ map (fun c : xy =>
      Feat KRunoff c (elev m c) [] true [(c, elev m c)] [])
      [(dm_max_x m, 0); (dm_max_x m, dm_max_y m); (0, 0); (0, dm_max_y m)]).
Proof. exact (run_corners fp orc m). Qed.
Print Assumptions C13_corners.

(** C43.  For a shortest-path library that gives cost 0 exactly to a path from
    a cell to itself, the query returns the last higher cell for every start
    cell [point], and puts all higher cells into the flat area's list. *)
Theorem C43_start_ignored fp m flat hpn init zl :
  concat hpn = init ++ [zl] ->
  (forall pts a b, a ∈ pts -> b ∈ pts -> a = b -> exists c, fp m pts a b = Some c /\ (c == 0)%Q) ->
  (forall t, t ∈ concat hpn -> pt_xy t <> pt_xy zl -> exists c, (0 < c)%Q /\
     fp m (map fst flat ++ map pt_xy (concat hpn)) (pt_xy zl) (pt_xy t) = Some c) ->
  (forall a b, a ∈ concat hpn -> b ∈ concat hpn -> pt_xy a = pt_xy b -> a = b) ->
  forall point, high_perimeter_neighborhood_shortest_path fp m point flat hpn =
    Ok (zl, flat ++ map (fun z : pte => (pt_xy z, Some (pt_e z))) (concat hpn)).
Proof. exact (hp_path_last fp m flat hpn init zl). Qed.
Print Assumptions C43_start_ignored.

(** A shortest-path oracle meeting the hypotheses. *)
Definition fp0 (m : datamap) (pts : list xy) (a b : xy) : option Q :=
  Some (if decide (a = b) then 0 else 1)%Q.
Definition orc0 (p : xy) (k i : nat) : nat := i.

Example C08_case :
  map_ok map_a /\ paths_found fp0 map_a /\
  analyze fp0 orc0 map_a =
    Ok ([Feat KSummit (1, 1) 9 [] false [] []; Feat KSummit (1, 3) 8 [] false [] []],
        [Feat KSaddle (1, 2) 4 [] false [] [[(1, 3, 8)]; [(1, 1, 9)]]], []).
Proof.
  split; [by vm_compute|]. split; [intros pts a b _; eexists; done|]. vm_compute. reflexivity.
Qed.

Example C11_case :
  map_ok map_c /\ paths_found fp0 map_c /\
  analyze fp0 orc0 map_c =
    Ok ([Feat KSummit (1, 2) 9 [((1, 2), None); ((1, 1), None)] false [] [];
         Feat KSummit (3, 3) 8 [] true [(3, 3, 8)] []],
        [Feat KSaddle (2, 2) 7 [] false [] [[(1, 2, 9); (1, 1, 9)]; [(3, 3, 8)]]],
        [Feat KRunoff (0, 1) 5 [] true [(0, 2, 5); (0, 1, 5)] [[(1, 1, 9)]];
         Feat KRunoff (3, 3) 8 [] true [(3, 3, 8)] []]).
Proof.
  split; [by vm_compute|]. split; [intros pts a b _; eexists; done|]. vm_compute. reflexivity.
Qed.

Example C12_case :
  let m' := row_map [[1; 1; 1; 1; 1]; [1; 9; 4; 8; 1]; [1; 2; 2; 2; 1]; [1; 77; 1; 1; 1]]
              (Some 77) unit_gt in
  analyze fp0 orc0 m' = analyze fp0 orc0 map_a.
Proof. vm_compute. reflexivity. Qed.

Example C43_case :
  high_perimeter_neighborhood_shortest_path fp0 map_b (0, 0, 5) [((0, 0), None); ((0, 1), None)]
    [[(0, 2, 7); (1, 2, 6)]] =
  Ok ((1, 2, 6), [((0, 0), None); ((0, 1), None); ((0, 2), Some 7); ((1, 2), Some 6)]).
Proof.
  apply (C43_start_ignored fp0 map_b [((0, 0), None); ((0, 1), None)] [[(0, 2, 7); (1, 2, 6)]]
    [(0, 2, 7)] (1, 2, 6)).
  - reflexivity.
  - intros pts a b _ _ ->. eexists. split; [done|]. by rewrite decide_True.
  - intros t _ Ht. exists 1%Q. split; [done|]. unfold fp0. by rewrite decide_False.
  - intros a b Ha Hb. repeat (apply elem_of_cons in Ha as [->|Ha]; [|]);
      repeat (apply elem_of_cons in Hb as [->|Hb]; [|]); try done; by apply elem_of_nil in Ha || by apply elem_of_nil in Hb.
Qed.
