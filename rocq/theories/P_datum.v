(** Property C76: the analysis under another datum or unit of elevation. *)
From Verif Require Import Run_model Walk_model Feature_spec Climb_spec Heights_spec Relief_spec Relief_proof Datum_spec Datum_run Datum_blind
  Climb_facts Closest_proof Walk_example Run_example Example_maps Network_spec Terrain_spec Raster_spec.
From Coq Require Import ZifyBool.
Local Open Scope Z_scope.

(** C76.  Two rasters whose cells are in the same order of height and whose steps
    are in the same order of steepness are analysed alike, from the scan to the
    basin saddles, with whatever arguments: the same objects are made and related
    in the same way, or the same exception is raised.  The missing cells must be
    marked by a value below all others. *)
Theorem C76_analysis fpath fp orc near m1 m2 fuel sparse superSparse rebuild :
  same_relief m1 m2 -> same_slopes m1 m2 -> nodata_low m1 -> nodata_low m2 ->
  blind_searches near m1 m2 -> blind_paths fpath m1 m2 -> (forall pts a b, fp m1 pts a b = fp m2 pts a b) ->
  match dm_run_with fpath fp orc near fuel sparse superSparse rebuild m1,
        dm_run_with fpath fp orc near fuel sparse superSparse rebuild m2 with
  | Ok d, Ok d' => same_result m1 m2 d d'
  | Err e, Err e' => e = e'
  | _, _ => False
  end.
Proof.
  intros H1 H2 H3 H4 H5 H6 H7.
  exact (run_alike fpath near fp orc m1 m2 H1 H2 H3 H4 H5 H6 H7 fuel sparse superSparse rebuild).
Qed.
Print Assumptions C76_analysis.

(** C76.  In particular, in exact arithmetic, elevations in another unit and above
    another datum give the same result, whatever the nearest-neighbour trees
    answer. *)
Theorem C76_units fpath fp orc near k c m fuel sparse superSparse rebuild :
  let m' := regrade (fun e => k * e + c) m in
  0 < k -> slopes_exact m -> nodata_low m -> blind_paths fpath m m' -> (forall pts a b, fp m pts a b = fp m' pts a b) ->
  match dm_run_with fpath fp orc (exact_searches near) fuel sparse superSparse rebuild m,
        dm_run_with fpath fp orc (exact_searches near) fuel sparse superSparse rebuild m' with
  | Ok d, Ok d' => same_result m m' d d'
  | Err e, Err e' => e = e'
  | _, _ => False
  end.
Proof.
  intros m' Hk He Hl Hp Hfp. assert (forall a b, a < b -> k * a + c < k * b + c) as Hg by nia.
  exact (run_alike fpath (exact_searches near) fp orc m m' (regrade_same _ m Hg) (linear_slopes k c m Hk He) Hl (linear_low k c m Hk Hl)
    (exact_blind near m m' eq_refl) Hp Hfp fuel sparse superSparse rebuild).
Qed.
Print Assumptions C76_units.

Example C76_case : let m' := regrade (fun e => 3 * e + -20) loop_map in
  slopes_exact loop_map /\ nodata_low loop_map /\ blind_paths fpath_ends loop_map m' /\
  (forall pts a b, fp_unit0 loop_map pts a b = fp_unit0 m' pts a b) /\ search0 = exact_searches near0 /\
  exists d d', dm_run_with fpath_ends fp_unit0 orc_id search0 20 false false false loop_map = Ok d /\
    dm_run_with fpath_ends fp_unit0 orc_id search0 20 false false false m' = Ok d' /\
    mp_saddles d' = [6; 7]%nat /\ map (fun s => (ft_ele (sa_feat s), sa_basin s)) (drop 6 (w_saddles (mp_world d))) = [(5, false); (4, true)] /\
    map (fun s => (ft_ele (sa_feat s), sa_basin s)) (drop 6 (w_saddles (mp_world d'))) = [(-5, false); (-8, true)].
Proof.
  cbv zeta. split; [apply row_map_exact|]. split; [exact (proj1 (proj1 (proj2 (proj2 (proj2 (proj2 loop_usable))))))|].
  split; [|split; [done|split; [done|]]].
  - intros pts a b _ Ha Hb. split; [done|]. intros p [= <-] z Hz. cbn in Hz.
    apply elem_of_cons in Hz as [->|Hz]; [done|]. apply elem_of_list_singleton in Hz as ->. done.
  - eexists _, _. split; [vm_compute; reflexivity|]. split; [vm_compute; reflexivity|]. by vm_compute.
Qed.

(** C76, refuted without the condition on missing cells: with another value for
    them the analysis fails, because it climbs towards them. *)
Definition hole_map (v : Z) : datamap :=
  row_map [[0; 0; 0; 0; 0; 0; 0]; [0; 9; 6; 4; 6; 8; 0]; [0; 0; v; 0; 0; 0; 0]] (Some v) unit_gt.
Lemma hole_cells p : in_map (hole_map (-99)) p -> p = (2, 2) \/ (elev (hole_map (-99)) p = elev (hole_map 50) p /\ 0 <= elev (hole_map 50) p <= 9).
Proof.
  destruct p as [x y]. intros [Hx Hy]. change (0 <= x <= 2) in Hx. change (0 <= y <= 6) in Hy.
  assert (x = 0 \/ x = 1 \/ x = 2) as Ex by lia.
  assert (y = 0 \/ y = 1 \/ y = 2 \/ y = 3 \/ y = 4 \/ y = 5 \/ y = 6) as Ey by lia. clear Hx Hy.
  destruct Ex as [->|[->| ->]]; destruct Ey as [->|[->|[->|[->|[->|[->| ->]]]]]];
    first [by left|right; vm_compute; by split_and!].
Qed.
Lemma hole_data v p : v = -99 \/ v = 50 -> (data_cell (hole_map v) p <-> in_map (hole_map (-99)) p /\ p <> (2, 2)).
Proof.
  intros Hv. split.
  - intros [Hi Hd]. split; [exact Hi|]. intros ->. by apply Hd.
  - intros [Hi Hne]. split; [exact Hi|]. change (dm_nodata (hole_map v)) with (Some v). intros E. assert (v = elev (hole_map v) p) as E0 by congruence. clear E.
    destruct (hole_cells p Hi) as [?|[E1 E2]]; [done|]. destruct Hv as [-> | ->]; lia.
Qed.
Lemma hole_elev p : data_cell (hole_map (-99)) p -> elev (hole_map 50) p = elev (hole_map (-99)) p.
Proof. intros [Hi Hne]%hole_data; [|by left]. destruct (hole_cells p Hi) as [?|[E _]]; done. Qed.
Theorem C76_missing_refuted : exists fpath fp orc near m1 m2 fuel d e,
  same_relief m1 m2 /\ same_slopes m1 m2 /\ nodata_low m1 /\
  blind_searches near m1 m2 /\ blind_paths fpath m1 m2 /\ (forall pts a b, fp m1 pts a b = fp m2 pts a b) /\
  (forall p, data_cell m1 p -> elev m1 p = elev m2 p) /\
  dm_run_with fpath fp orc near fuel false false false m1 = Ok d /\
  dm_run_with fpath fp orc near fuel false false false m2 = Err e.
Proof.
  exists fpath_ends, fp_unit0, orc_id, search0, (hole_map (-99)), (hole_map 50), 20%nat.
  eexists _, KeyError. split_and!.
  - split; [done|done| |].
    + intros p. rewrite !hole_data; auto.
    + intros p q Hp Hq. by rewrite !hole_elev.
  - split; [done| |].
    + intros p q Hp Hq _. unfold slope_up. rewrite !hole_elev by done.
      change (dm_slope (hole_map 50)) with (dm_slope (hole_map (-99))). by destruct (dm_slope _ _ _ _ _).
    + intros p q r s t s' t' Hp Hq Hr _ _ E1 E2 E3 E4. unfold slope_up in *. rewrite !hole_elev in E3, E4 by done.
      change (dm_slope (hole_map 50)) with (dm_slope (hole_map (-99))) in E3, E4. rewrite E1 in E3. rewrite E2 in E4.
      injection E3 as <-. by injection E4 as <-.
  - intros v p [= <-] Hp. pose proof (hole_elev p Hp) as E. apply hole_data in Hp as [Hi Hne]; [|by left].
    destruct (hole_cells p Hi) as [?|[_ ?]]; [done|]. lia.
  - by apply exact_blind.
  - intros pts a b _ Ha Hb. split; [done|]. intros p [= <-] z Hz. cbn in Hz.
    apply elem_of_cons in Hz as [->|Hz]; [done|]. apply elem_of_list_singleton in Hz as ->. done.
  - done.
  - intros p Hp. symmetry. by apply hole_elev.
  - vm_compute. reflexivity.
  - vm_compute. reflexivity.
Qed.
Print Assumptions C76_missing_refuted.
