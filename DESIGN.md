# Formal model of pyProm in Rocq (Coq 8.16.1)

## 1. Approach

The model is shallow: each Python function becomes a total Gallina function
that follows its branches, with exceptions as values (`res A := Ok | Err`).
Loops whose bound is not structural take fuel. Running out of fuel is its own
error value (`OutOfFuel`), and the theorems exclude it.

Common modelling decisions (each is repeated where it is used):

* **Elevations are integers.** Every finite binary64 (and so every float32) value
  is an integer multiple of 2^-1074, so the map `v -> v * 2^1074` embeds the
  finite floats into `Z` and preserves order and equality.
  Code that only compares elevations is modelled exactly. NaN is covered by C64
  only (discovery and steepest neighbours); infinities are not modelled.
* **Slopes** are a parameter of the raster (`dm_slope`). Only C03 fixes them to exact
  arithmetic; climbing, walking, the analysis and saving (C20-C25, C53, C54, C59, C60)
  ask only that slopes can be computed and are not negative (`slopes_ok`), so they hold
  with any rounding. C61 shows that binary64 slopes meet this and what becomes of C03 there.
* **Distances** are compared through exact squares (`Z` or `Q`) in C14, C15, C17-C19;
  C65 has their binary64 counterparts. Climbing, splitting and the analysis (C20-C25,
  C52-C54, C59, C60, C62, C63) take the searches for nearest points as a parameter and
  ask only that they answer (`sound_searches`), so they hold with any rounding; C66
  shows that the binary64 searches do, and states the analysis with them.
* **Python sets** hand out elements in an unspecified order. `set.pop` is
  an oracle that chooses an index at each step. Theorems quantify over all oracles.
* **Dicts** are insertion ordered, as in CPython >= 3.7, where order is observable.
* **Nested dicts** `d[x][y]` are flattened to finite maps keyed by `(x, y)`.
* **Objects** (summit, saddle, linker) are named by numbers in the models of the
  algorithms (`world` in `Graph_model`), so identity and equality by position are
  kept apart; in `Persist_model` they are named by their `id` strings.
* **Logging, progress bars, timing, copyright headers** are not modelled.
* **Third-party libraries** (GDAL, numpy, scipy, dijkstar, shapely, fastkml, cbor2)
  are outside the model. Where a result of theirs flows into modelled code, it is a
  parameter constrained by explicit hypotheses in the theorem.

## 2. Layout

`rocq/theories/`:

* `*_model.v` - definitions only, each citing the file and lines in `/repo`.
* `*_spec.v` - the vocabulary of the claims (adjacency, paths, components, trees,
  rounding, round trips, ...), independent of the helpers of the model.
* `*_proof.v`, `*_facts.v` - lemmas.
* `*_example.v`, `Example_maps.v` - concrete rasters, graphs and maps for the cases and witnesses.
* `P_*.v` - the property theorems, each closed by a lemma, followed by
  `Print Assumptions` and a concrete `Example` that meets the hypotheses.

Where the full claim is false of the code, the theorem name ends in `_refuted` and
exhibits a concrete witness; the true part is proved separately.

## 3. What is modelled

| Model | Source (`/repo/pyprom`) | Claims |
|---|---|---|
| `Base_model` | exceptions, loops, `set.pop` | - |
| `Raster_model` | `lib/datamaps/base_datamap.py`, `datamap.py` (iteration, steepest, distance, transforms) | C01-C04 |
| `Float_model` | `lib/datamaps/datamap.py` (76-104) in binary64 | C02 |
| `Slope_model` | `lib/datamaps/base_datamap.py` (121, the slope) in binary64 | C61 |
| `Feet_model` | `lib/constants.py` (13-17), `lib/locations/spot_elevation.py` (`feet`), `lib/containers/linker.py` (`prom_ft`), `dividetree.py` (`LPRpath.decline`) in binary64 | C63 |
| `Near_model` | `lib/logic/shortest_path_by_points.py` (68-215), `lib/datamaps/base_datamap.py` (129-135), `lib/containers/multipoint.py` (139-171) in binary64 | C65 |
| `Fsearch_model` | `lib/logic/shortest_path_by_points.py` (172-215), `lib/containers/multipoint.py` (139-171) as the searches of the analysis, in binary64 | C66 |
| `Nan_model` | `feature_discovery.py` (87-323), `lib/logic/equalheight.py`, `lib/logic/contiguous_neighbors.py`, `lib/logic/tuple_funcs.py` (`highest`), `lib/datamaps/base_datamap.py` (`iterateFull`, `steepestNeighbor`) for rasters that mark missing cells with NaN | C64 |
| `Contig_model` | `lib/logic/contiguous_neighbors.py` | C05, C06 |
| `Blob_model` | `lib/logic/equalheight.py` | C07 |
| `Analyze_model` | `feature_discovery.py`; `lib/logic/shortest_path_by_points.py` (`find_closest_points` over path oracle, 21-66) | C08-C13, C16, C43, C52 |
| `Closest_model` | `lib/logic/shortest_path_by_points.py` (68-215), `lib/containers/multipoint.py` (139-171) | C14, C15, C17 |
| `Network_model` | `lib/logic/internal_saddle_network.py`, `lib/containers/feature_verticies.py`, `lib/containers/saddles.py` (rebuild) | C18, C19, C52 |
| `Climb_model` | `lib/logic/summit_domain_walk.py` (climbing), `lib/containers/summit_domain.py` (points) | C20-C22, C67 |
| `Walk_model` | `lib/logic/summit_domain_walk.py` (rest), `lib/locations/saddle.py` (paths), `domain_map.py` (walk) | C23-C25, C44 |
| `Graph_model` | `lib/locations/saddle.py`, `summit.py`, `lib/containers/linker.py`, `domain_map.py` (purge) | C30-C33, C69, C71 |
| `Basin_model` | `lib/logic/basin_saddle_finder.py` | C26-C29, C71 |
| `Container_model` | `lib/locations/*`, `lib/containers/*` (construction, lookup, filters, comparison, hash) | C37-C41 |
| `Pseudo_model` | `lib/containers/gridpoint.py` (pseudo-summits) | C42 |
| `Perimeter_model` | `lib/containers/base_self_iterable.py`, `perimeter.py` | C50 |
| `Points_model` | `lib/containers/multipoint.py`, `perimeter.py`, `base_gridpoint.py`, `gridpoint.py` (list operations) | C55 |
| `Views_model` | `locations/gridpoint.py` (77-88), `spot_elevation.py` (96-125), `summit_domain.py` (60-70, 109-153), `multipoint.py` (112-123), `datamap.py` (106-142) | C56-C58 |
| `Persist_model` | all `to_dict`/`from_dict`, `domain_map.py` (134-265), `datamap.py` (fingerprint) | C34-C36, C68 |
| `Util_model` | `lib/util.py`, `lib/fastlookup/fastlookup.py` | C45, C46, C51 |
| `Loader_model` | `lib/loaders/gdal_loader.py`, `lib/loaders/util/*` | C47 |
| `Kml_model` | `lib/kmlwriter.py` | C48 |
| `Divide_model` | `dividetree.py` | C49, C62, C69 |
| `Part_model` | `domain_map.py` (320-336): walking from chosen saddles | C72 |
| `Lprkml_model` | `dividetree.py` (164-197): elements of prominent regions for the KML writer | C73 |
| `Run_model` | `domain_map.py` (91-131 with all options, 352-358), `saddles.py` (57-115) and `internal_saddle_network.py` (207-231) as objects | C53 (with `Walk_model`), C54, C59 |
| `Store_model` | `domain_map.py` (244-265): the objects of an analysis as a saved map | C60, C68, C70 |
| `Revive_model` | `domain_map.py` (211-242): the objects of a loaded map as a graph | C74 |
| `Hash_model` | `containers/base_gridpoint.py` (107-114), `summit_domain.py` (251-256), `linker.py` (244-264) | C79 |

### Parameters that stand for code outside the model

Every theorem holds for all values of these, subject only to the hypotheses it states.

| Parameter | Stands for | Hypotheses used |
|---|---|---|
| pop oracle (`nat -> ...`) | the order in which `set.pop` yields members | none |
| `fp`, `fpath` | dijkstar's shortest path (cost, path) | `fp`: a path is found where one exists and has zero cost only if trivial (C08-C13, C43); none for C44 |
| `near` | scipy `KDTree.query` | returns a nearest point of the tree in raster coordinates |
| `geodesic` | geopy distance | none |
| `digest` | the hash object of hashlib | result depends on the bytes only |
| `str_hash`, `seed` | `hash()` of strings in a process | none |
| `h_loc`, `h_int`, `h_xy`, `h_pte`, `h_tuple` | `hash()` of numbers and tuples | equal inputs have equal hashes; no collisions for the converse in C79 |
| `newid` | `randomString` | none (ids of the saved map are assumed unique) |
| warp, percentiles, metadata | GDAL and numpy calls of the loader | none |
| printed numbers in `Kml_model` | WKT texts of shapely | none |

### Main simplifications

* Exact rational coordinates, distances by exact squares (no binary64 rounding) unless a
  theorem says otherwise.
* A finite index type for objects; ids (`randomString`) are unique.
* Type errors inside loaded dictionaries are reported when the value is read.
* Recursion limits of the interpreter are ignored (`dividetree.py` has its own depth limit, which is modelled).

## 4. Trusted base

* The Coq 8.16.1 kernel, including its conversion checker for `vm_compute` in witnesses.
* Flocq (binary64 arithmetic in `Float_*`, no axioms of its own) and std++ 1.8 as libraries of definitions and lemmas (no axioms).
* The reading of the Python source into the model (the citations in the comments), and the parameters above.
* Axioms. `Print Assumptions` is printed under every theorem of the `P_*.v` files.
  `C19_total_length` depends on the axioms of the standard library's real numbers
  (`ClassicalDedekindReals.sig_forall_dec`, `ClassicalDedekindReals.sig_not_dec`,
  `FunctionalExtensionality.functional_extensionality_dep`), and the `C02_binary64*` and `C61_*`
  theorems on these and on `Classical_Prop.classic`, also of the standard library.
  All other theorems are "Closed under the global context".

| Theorem | Axioms |
|---|---|
| `C01_iterate_full` | none |
| `C01_iterate_orthogonal` | none |
| `C01_iterate_diagonal` | none |
| `C02_round_trip` | none |
| `C02_elevation_at_position` | none |
| `C02_off_map` | none |
| `C02_rotation_refuted` | none |
| `C02_binary64` | standard library reals (3), `Classical_Prop.classic` |
| `C02_binary64_elevation` | standard library reals (3), `Classical_Prop.classic` |
| `C02_binary64_refuted` | standard library reals (3), `Classical_Prop.classic` |
| `C03_steepest` | none |
| `C03_steepest_first` | none |
| `C03_off_map_refuted` | none |
| `C04_distance_metric` | none |
| `C04_distance_triangle` | none |
| `C04_distance_geographic` | none |
| `C05_grouping` | none |
| `C06_touching` | none |
| `C07_flat_area` | none |
| `C16_highest` | none |
| `C16_highest_empty` | none |
| `C08_summits` | none |
| `C09_saddles` | none |
| `C10_each_area_once` | none |
| `C11_border` | none |
| `C12_nodata_inert` | none |
| `C13_corners` | none |
| `C43_start_ignored` | none |
| `C14_closest_pair` | none |
| `C14_first_in_order` | none |
| `C14_reach` | none |
| `C14_kdtree_refuted` | none |
| `C15_distance_map` | none |
| `C17_closest_member` | none |
| `C17_closest_fails` | none |
| `C18_spanning_tree` | none |
| `C18_children` | none |
| `C19_matching` | none |
| `C19_total_length` | standard library reals (3) |
| `C52_run_with_splitting` | none |
| `C52_any_saddles` | none |
| `C52_border_position_refuted` | none |
| `C52_placed` | none |
| `C20_climb_terminates` | none |
| `C21_climb_reaches_summit` | none |
| `C21_climb_many` | none |
| `C22_domains_disjoint` | none |
| `C22_listed_elsewhere_refuted` | none |
| `C30_state_machine` | none |
| `C30_own_links` | none |
| `C31_emancipate` | none |
| `C31_disown` | none |
| `C31_soft_delete` | none |
| `C31_soft_delete_rest` | none |
| `C31_shared_place_refuted` | none |
| `C32_purge` | none |
| `C32_runoff_links_dropped` | none |
| `C33_prominence` | none |
| `C33_via_summit` | none |
| `C33_via_saddle` | none |
| `C33_linkers` | none |
| `C33_neighbors` | none |
| `C33_register` | none |
| `C23_links` | none |
| `C23_discovered` | none |
| `C23_shared_entry_refuted` | none |
| `C24_output` | none |
| `C24_runoff_twice` | none |
| `C25_second_walk` | none |
| `C25_discovered` | none |
| `C25_second_walk_fails` | none |
| `C44_considered` | none |
| `C44_shortest_refuted` | none |
| `C26_marks` | none |
| `C26_single` | none |
| `C27_terminates` | none |
| `C27_completes` | none |
| `C27_summit_lowest` | none |
| `C27_forever` | none |
| `C28_cycle_minimum` | none |
| `C28_ties` | none |
| `C28_mutual_refuted` | none |
| `C28_double_refuted` | none |
| `C29_forest` | none |
| `C29_joined` | none |
| `C29_three_refuted` | none |
| `C37_lookup` | none |
| `C37_setitem` | none |
| `C37_setitem_refuted` | none |
| `C38_radius` | none |
| `C38_unknown_unit` | none |
| `C38_rectangle` | none |
| `C38_elevation` | none |
| `C38_runoffs_refuted` | none |
| `C39_extremes` | none |
| `C40_equality` | none |
| `C40_hash` | none |
| `C40_complement` | none |
| `C40_coordinates` | none |
| `C40_saddle_refuted` | none |
| `C41_multipoint` | none |
| `C41_containers` | none |
| `C41_domains` | none |
| `C41_reorder_refuted` | none |
| `C42_complete` | none |
| `C42_exact` | none |
| `C42_sound_refuted` | none |
| `C42_once_refuted` | none |
| `C45_nonnegative` | none |
| `C45_negative` | none |
| `C45_sign_lost` | none |
| `C45_arcseconds` | none |
| `C46_lookup` | none |
| `C46_slice` | none |
| `C48_folders` | none |
| `C48_unique` | none |
| `C48_document` | none |
| `C48_domains_refuted` | none |
| `C50_high` | none |
| `C50_neighborhoods` | none |
| `C50_neighbors` | none |
| `C50_stale_refuted` | none |
| `C51_checksum` | none |
| `C51_zero_refuted` | none |
| `C51_compress` | none |
| `C47_detect` | none |
| `C47_load` | none |
| `C47_feet` | none |
| `C47_default` | none |
| `C49_once` | none |
| `C49_all` | none |
| `C49_limit` | none |
| `C49_depth_refuted` | none |
| `C49_paths` | none |
| `C49_edge` | none |
| `C49_boundary` | none |
| `C49_listed` | none |
| `C49_boundary_refuted` | none |
| `C49_run` | none |
| `C49_collected` | none |
| `C34_save` | none |
| `C34_load` | none |
| `C34_round_trip` | none |
| `C34_links` | none |
| `C34_written` | none |
| `C34_double_refuted` | none |
| `C34_colocated_refuted` | none |
| `C34_override_refuted` | none |
| `C34_runoff_refuted` | none |
| `C34_orphan_refuted` | none |
| `C34_copies_refuted` | none |
| `C35_guard` | none |
| `C35_seed` | none |
| `C35_parts` | none |
| `C35_process_refuted` | none |
| `C36_gridpoints` | none |
| `C36_spot` | none |
| `C36_perimeter` | none |
| `C36_perimeter_points` | none |
| `C36_multipoint` | none |
| `C53_connected` | none |
| `C53_higher` | none |
| `C54_fit` | none |
| `C54_no_border` | none |
| `C54_completes` | none |
| `C54_forest` | none |
| `C54_terrain` | none |
| `C54_mutual_refuted` | none |
| `C55_append` | none |
| `C55_setitem` | none |
| `C55_read` | none |
| `C55_read_perimeter` | none |
| `C55_neighbors` | none |
| `C55_replace_refuted` | none |
| `C55_index` | none |
| `C55_closest` | none |
| `C56_conversion` | none |
| `C56_grid_points` | none |
| `C56_spot_elevations` | none |
| `C56_flat_positions` | none |
| `C56_base_views` | none |
| `C56_base_views_refuted` | none |
| `C57_outline` | none |
| `C57_inside` | none |
| `C57_cover` | none |
| `C57_disjoint` | none |
| `C57_map_corners` | none |
| `C57_corner_cells` | none |
| `C58_cells` | none |
| `C58_positions` | none |
| `C58_neighbours` | none |
| `C59_discovery_only` | none |
| `C59_walk` | none |
| `C59_connected` | none |
| `C59_analysis` | none |
| `C59_default` | none |
| `C59_orphans_refuted` | none |
| `C60_whole` | none |
| `C60_saved` | none |
| `C60_content` | none |
| `C60_written` | none |
| `C60_graph` | none |
| `C60_terrain` | none |
| `C60_rebuilt_refuted` | none |
| `C61_slopes` | standard library reals (3), `Classical_Prop.classic` |
| `C61_steepest` | standard library reals (3), `Classical_Prop.classic` |
| `C61_exact_refuted` | standard library reals (3), `Classical_Prop.classic` |
| `C62_paths` | none |
| `C62_once` | none |
| `C62_edge` | none |
| `C62_listed` | none |
| `C62_graph` | none |
| `C62_key` | none |
| `C62_alone` | none |
| `C62_ground` | none |
| `C62_highest` | none |
| `C63_feet` | standard library reals (3), `Classical_Prop.classic` |
| `C63_above` | standard library reals (3), `Classical_Prop.classic` |
| `C63_any` | standard library reals (3), `Classical_Prop.classic` |
| `C63_any_refuted` | standard library reals (3), `Classical_Prop.classic` |
| `C63_missing` | standard library reals (3), `Classical_Prop.classic` |
| `C63_survey_refuted` | standard library reals (3), `Classical_Prop.classic` |
| `C63_prom` | standard library reals (3), `Classical_Prop.classic` |
| `C63_decline` | standard library reals (3), `Classical_Prop.classic` |
| `C64_discovery` | none |
| `C64_nan_is_summit` | none |
| `C64_first_corner` | none |
| `C64_corners` | none |
| `C64_beside` | none |
| `C64_steepest` | none |
| `C64_lower` | none |
| `C64_highest` | none |
| `C65_distance_map` | standard library reals (3), `Classical_Prop.classic` |
| `C65_closest_pair` | standard library reals (3), `Classical_Prop.classic` |
| `C65_exact_refuted` | standard library reals (3), `Classical_Prop.classic` |
| `C65_closest_member` | standard library reals (3), `Classical_Prop.classic` |
| `C65_closest_fails` | standard library reals (3), `Classical_Prop.classic` |
| `C66_searches` | standard library reals (3), `Classical_Prop.classic` |
| `C66_lengths` | standard library reals (3), `Classical_Prop.classic` |
| `C66_member` | standard library reals (3), `Classical_Prop.classic` |
| `C66_placed` | standard library reals (3), `Classical_Prop.classic` |
| `C66_network` | standard library reals (3), `Classical_Prop.classic` |
| `C66_analysis` | standard library reals (3), `Classical_Prop.classic` |
| `C67_flat_divided` | none |
| `C67_exact` | none |
| `C67_binary64` | standard library reals (3), `Classical_Prop.classic` |
| `C68_again` | none |
| `C68_same` | none |
| `C68_analysis` | none |
| `C68_merged_refuted` | none |
| `C69_network` | none |
| `C69_divide` | none |
| `C69_domains` | none |
| `C69_result` | none |
| `C69_terrain` | none |
| `C69_domain_refuted` | none |
| `C70_whole` | none |
| `C70_saved` | none |
| `C70_terrain` | none |
| `C70_all_refuted` | none |
| `C71_again` | none |
| `C71_analysis` | none |
| `C71_purged` | none |
| `C71_any` | none |
| `C71_any_refuted` | none |
| `C72_others` | none |
| `C72_returned` | none |
| `C72_unlisted` | none |
| `C72_analysed` | none |
| `C72_saved_refuted` | none |
| `C72_lost_refuted` | none |
| `C73_shown` | none |
| `C73_ends` | none |
| `C73_empty_refuted` | none |
| `C73_analysed` | none |
| `C74_tree` | none |
| `C74_graph` | none |
| `C74_pieces_refuted` | none |
| `C75_discovery` | none |
| `C75_regraded` | none |
| `C75_basins` | none |
| `C75_tree` | none |
| `C75_steepest_refuted` | none |
| `C76_analysis` | none |
| `C76_units` | none |
| `C76_missing_refuted` | none |
| `C77_tile` | none |
| `C77_overlap` | none |
| `C77_cut_out` | none |
| `C77_frame` | none |
| `C77_border_refuted` | none |
| `C78_place` | none |
| `C78_order` | none |
| `C79_gridpoints` | none |
| `C79_base_gridpoints` | none |
| `C79_domains` | none |
| `C79_domains_apart` | none |
| `C79_linkers` | none |
| `C79_linker_fails` | none |
| `C79_order_refuted` | none |
| `C80_steepest` | none |
| `C80_climb` | none |
| `C80_border_refuted` | none |

## 5. Not modelled

GDAL warping, numpy memory layout, NaN beyond C64 and infinite elevations, logging and progress
output, `__repr__` strings and colours, the byte encodings of cbor and gzip, KML
serialisation by fastkml, the shapes built by `SummitDomain.shape`, interpreter
resource limits.

## 6. Reading the log of seeded mistakes

`seeded/LOG.jsonl` has one line per edited definition. `failed` lists theorems whose
proof no longer compiles after the edit, or which rest on a lemma whose proof no
longer compiles. That is weaker than the statement being false: a proof script can
break although its statement still holds. The notes say where the falsity of the
statement was itself proved, where a broken script turned out to say nothing, and
which edits were not valid tests.
