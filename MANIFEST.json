{
 "claims": [
  {
   "property": "C01",
   "status": "proved",
   "theorems": [
    "C01_iterate_full",
    "C01_iterate_orthogonal",
    "C01_iterate_diagonal"
   ],
   "note": "Exact for every raster, coordinate and marker."
  },
  {
   "property": "C02",
   "status": "proved",
   "theorems": [
    "C02_round_trip",
    "C02_elevation_at_position",
    "C02_off_map",
    "C02_rotation_refuted",
    "C02_binary64",
    "C02_binary64_elevation",
    "C02_binary64_refuted"
   ],
   "note": "In exact arithmetic for every geotransform; in binary64 with explicit bounds on origin, pixel size and index, which a witness shows to be needed."
  },
  {
   "property": "C03",
   "status": "proved",
   "theorems": [
    "C03_steepest",
    "C03_steepest_first",
    "C03_off_map_refuted"
   ],
   "note": "Slopes compared by exact squares; off-map result exhibited for a high nodata marker."
  },
  {
   "property": "C04",
   "status": "proved",
   "theorems": [
    "C04_distance_metric",
    "C04_distance_triangle",
    "C04_distance_geographic"
   ],
   "note": "Distances compared by exact squares."
  },
  {
   "property": "C05",
   "status": "proved",
   "theorems": [
    "C05_grouping"
   ],
   "note": "For every order in which set.pop hands out elements."
  },
  {
   "property": "C06",
   "status": "proved",
   "theorems": [
    "C06_touching"
   ],
   "note": ""
  },
  {
   "property": "C07",
   "status": "proved",
   "theorems": [
    "C07_flat_area"
   ],
   "note": ""
  },
  {
   "property": "C16",
   "status": "proved",
   "theorems": [
    "C16_highest",
    "C16_highest_empty"
   ],
   "note": ""
  },
  {
   "property": "C08",
   "status": "proved",
   "theorems": [
    "C08_summits"
   ],
   "note": "For every set order and every shortest-path library that finds existing paths."
  },
  {
   "property": "C09",
   "status": "proved",
   "theorems": [
    "C09_saddles"
   ],
   "note": "Stated for all flat areas; interior ones are described exactly."
  },
  {
   "property": "C10",
   "status": "proved",
   "theorems": [
    "C10_each_area_once"
   ],
   "note": ""
  },
  {
   "property": "C11",
   "status": "proved",
   "theorems": [
    "C11_border"
   ],
   "note": ""
  },
  {
   "property": "C12",
   "status": "proved",
   "theorems": [
    "C12_nodata_inert"
   ],
   "note": "The shortest-path library is assumed not to look at the marker."
  },
  {
   "property": "C13",
   "status": "proved",
   "theorems": [
    "C13_corners"
   ],
   "note": "Stated for run with rebuildSaddles=False; C52 covers rebuildSaddles=True."
  },
  {
   "property": "C43",
   "status": "proved",
   "theorems": [
    "C43_start_ignored"
   ],
   "note": "For every path library with zero cost exactly on trivial paths."
  },
  {
   "property": "C14",
   "status": "proved",
   "theorems": [
    "C14_closest_pair",
    "C14_first_in_order",
    "C14_reach",
    "C14_kdtree_refuted"
   ],
   "note": "For every nearest-neighbour library; the non-square case is refuted with a witness."
  },
  {
   "property": "C15",
   "status": "proved",
   "theorems": [
    "C15_distance_map"
   ],
   "note": "Requires, like the code, some pair closer than sys.maxsize."
  },
  {
   "property": "C17",
   "status": "proved",
   "theorems": [
    "C17_closest_member",
    "C17_closest_fails"
   ],
   "note": "The first member must be a 2-tuple, as in every list the code builds."
  },
  {
   "property": "C18",
   "status": "proved",
   "theorems": [
    "C18_spanning_tree",
    "C18_children"
   ],
   "note": "All distances below sys.maxsize."
  },
  {
   "property": "C19",
   "status": "proved",
   "theorems": [
    "C19_matching",
    "C19_total_length"
   ],
   "note": "Link-by-link domination without axioms; total length uses the standard real numbers."
  },
  {
   "property": "C52",
   "status": "proved",
   "theorems": [
    "C52_run_with_splitting",
    "C52_any_saddles",
    "C52_border_position_refuted",
    "C52_placed"
   ],
   "note": ""
  },
  {
   "property": "C20",
   "status": "proved",
   "theorems": [
    "C20_climb_terminates"
   ],
   "note": "For every registered domain list and every sequence of climbs."
  },
  {
   "property": "C21",
   "status": "proved",
   "theorems": [
    "C21_climb_reaches_summit",
    "C21_climb_many"
   ],
   "note": "From the summits that discovery returns."
  },
  {
   "property": "C22",
   "status": "proved",
   "theorems": [
    "C22_domains_disjoint",
    "C22_listed_elsewhere_refuted"
   ],
   "note": "The exception for flat areas is exhibited."
  },
  {
   "property": "C30",
   "status": "proved",
   "theorems": [
    "C30_state_machine",
    "C30_own_links"
   ],
   "note": "Over arbitrary histories of assignments."
  },
  {
   "property": "C31",
   "status": "proved",
   "theorems": [
    "C31_emancipate",
    "C31_disown",
    "C31_soft_delete",
    "C31_soft_delete_rest",
    "C31_shared_place_refuted"
   ],
   "note": ""
  },
  {
   "property": "C32",
   "status": "proved",
   "theorems": [
    "C32_purge",
    "C32_runoff_links_dropped"
   ],
   "note": ""
  },
  {
   "property": "C33",
   "status": "proved",
   "theorems": [
    "C33_prominence",
    "C33_via_summit",
    "C33_via_saddle",
    "C33_linkers",
    "C33_neighbors",
    "C33_register"
   ],
   "note": "For graphs in which links are listed by both ends."
  },
  {
   "property": "C23",
   "status": "proved",
   "theorems": [
    "C23_links",
    "C23_discovered",
    "C23_shared_entry_refuted"
   ],
   "note": "For every state that can be walked, and for every discovered map; path and nearest-neighbour libraries are arbitrary correct ones."
  },
  {
   "property": "C24",
   "status": "proved",
   "theorems": [
    "C24_output",
    "C24_runoff_twice"
   ],
   "note": ""
  },
  {
   "property": "C25",
   "status": "proved",
   "theorems": [
    "C25_second_walk",
    "C25_discovered",
    "C25_second_walk_fails"
   ],
   "note": "The second walk either raises an exception (exhibited) or returns an empty link table."
  },
  {
   "property": "C44",
   "status": "proved",
   "theorems": [
    "C44_considered",
    "C44_shortest_refuted"
   ],
   "note": "For every path-cost oracle."
  },
  {
   "property": "C26",
   "status": "proved",
   "theorems": [
    "C26_marks",
    "C26_single"
   ],
   "note": "For every graph."
  },
  {
   "property": "C27",
   "status": "proved",
   "theorems": [
    "C27_terminates",
    "C27_completes",
    "C27_summit_lowest",
    "C27_forever"
   ],
   "note": "Termination for every graph; non-termination for every graph as walks make it."
  },
  {
   "property": "C28",
   "status": "proved",
   "theorems": [
    "C28_cycle_minimum",
    "C28_ties",
    "C28_mutual_refuted",
    "C28_double_refuted"
   ],
   "note": "For graphs as walks make them, described by basin_graph."
  },
  {
   "property": "C29",
   "status": "proved",
   "theorems": [
    "C29_forest",
    "C29_joined",
    "C29_three_refuted"
   ],
   "note": "For graphs as walks make them; equal elevations allowed."
  },
  {
   "property": "C37",
   "status": "proved",
   "theorems": [
    "C37_lookup",
    "C37_setitem",
    "C37_setitem_refuted"
   ],
   "note": "Any sequence of append/extend calls, including failing ones; item assignment leaves a stale lookup (witness)."
  },
  {
   "property": "C38",
   "status": "proved",
   "theorems": [
    "C38_radius",
    "C38_unknown_unit",
    "C38_rectangle",
    "C38_elevation",
    "C38_runoffs_refuted"
   ],
   "note": "The geodesic distance is an arbitrary function; a runoffs container that has been given a plain saddle cannot be queried (witness)."
  },
  {
   "property": "C39",
   "status": "proved",
   "theorems": [
    "C39_extremes"
   ],
   "note": "All non-empty containers; empty containers raise IndexError (case)."
  },
  {
   "property": "C40",
   "status": "proved",
   "theorems": [
    "C40_equality",
    "C40_hash",
    "C40_complement",
    "C40_coordinates",
    "C40_saddle_refuted"
   ],
   "note": "Exact characterisation of equality and of the pairs that are neither equal nor unequal; saddle hash counterexamples."
  },
  {
   "property": "C41",
   "status": "proved",
   "theorems": [
    "C41_multipoint",
    "C41_containers",
    "C41_domains",
    "C41_reorder_refuted"
   ],
   "note": "Exact characterisations of each comparison."
  },
  {
   "property": "C42",
   "status": "proved",
   "theorems": [
    "C42_complete",
    "C42_exact",
    "C42_sound_refuted",
    "C42_once_refuted"
   ],
   "note": "Termination and completeness for every container with distinct places; exact when no two neighbours are equal; witnesses for false positives and duplicates."
  },
  {
   "property": "C45",
   "status": "proved",
   "theorems": [
    "C45_nonnegative",
    "C45_negative",
    "C45_sign_lost",
    "C45_arcseconds"
   ],
   "note": "Exact rational arithmetic; rounding to six decimals is Python's half-to-even."
  },
  {
   "property": "C46",
   "status": "proved",
   "theorems": [
    "C46_lookup",
    "C46_slice"
   ],
   "note": "For every key type and every history of operations."
  },
  {
   "property": "C48",
   "status": "proved",
   "theorems": [
    "C48_folders",
    "C48_unique",
    "C48_document",
    "C48_domains_refuted"
   ],
   "note": "Geometries are WKT strings; keys are the concatenated strings of the code. Summit domains can be exported twice (witness)."
  },
  {
   "property": "C50",
   "status": "proved",
   "theorems": [
    "C50_high",
    "C50_neighborhoods",
    "C50_neighbors",
    "C50_stale_refuted"
   ],
   "note": "For every list of points, including repeated positions for the iteration."
  },
  {
   "property": "C51",
   "status": "proved",
   "theorems": [
    "C51_checksum",
    "C51_zero_refuted",
    "C51_compress"
   ],
   "note": "The digest is an arbitrary function of the bytes fed to it."
  },
  {
   "property": "C47",
   "status": "proved",
   "theorems": [
    "C47_detect",
    "C47_load",
    "C47_feet",
    "C47_default"
   ],
   "note": "Metadata read from GDAL, percentiles and reprojection are inputs of the model; thresholds on exact rationals."
  },
  {
   "property": "C49",
   "status": "proved",
   "theorems": [
    "C49_once",
    "C49_all",
    "C49_limit",
    "C49_depth_refuted",
    "C49_paths",
    "C49_edge",
    "C49_boundary",
    "C49_listed",
    "C49_boundary_refuted",
    "C49_run",
    "C49_collected"
   ],
   "note": "For link graphs whose links are listed at their own ends (the state the walk builds). Incompleteness behind the depth limit and the boundary comparison are shown by witnesses."
  },
  {
   "property": "C34",
   "status": "proved",
   "theorems": [
    "C34_save",
    "C34_load",
    "C34_round_trip",
    "C34_links",
    "C34_written",
    "C34_double_refuted",
    "C34_colocated_refuted",
    "C34_override_refuted",
    "C34_runoff_refuted",
    "C34_orphan_refuted",
    "C34_copies_refuted"
   ],
   "note": "Every map with unique ids; the losses are shown by witnesses. cbor is taken to keep values and make lists of tuples."
  },
  {
   "property": "C35",
   "status": "proved",
   "theorems": [
    "C35_guard",
    "C35_seed",
    "C35_parts",
    "C35_process_refuted"
   ],
   "note": "Every hash function and seed; the checksum of the file is an input."
  },
  {
   "property": "C36",
   "status": "proved",
   "theorems": [
    "C36_gridpoints",
    "C36_spot",
    "C36_perimeter",
    "C36_perimeter_points",
    "C36_multipoint"
   ],
   "note": "All values."
  },
  {
   "property": "C53",
   "status": "proved",
   "theorems": [
    "C53_connected",
    "C53_higher"
   ],
   "note": "Pixels larger than a millionth of a degree; the path and nearest-point libraries meet their contracts."
  },
  {
   "property": "C54",
   "status": "proved",
   "theorems": [
    "C54_fit",
    "C54_no_border",
    "C54_completes",
    "C54_forest",
    "C54_terrain",
    "C54_mutual_refuted"
   ],
   "note": "Under the stated condition on border saddles, which holds when no saddle is on the border; its necessity is shown by a witness."
  },
  {
   "property": "C55",
   "status": "proved",
   "theorems": [
    "C55_append",
    "C55_setitem",
    "C55_read",
    "C55_read_perimeter",
    "C55_neighbors",
    "C55_replace_refuted",
    "C55_index",
    "C55_closest"
   ],
   "note": "All collections and operation histories; replacing by index leaves stale neighbours (witness)."
  },
  {
   "property": "C56",
   "status": "proved",
   "theorems": [
    "C56_conversion",
    "C56_grid_points",
    "C56_spot_elevations",
    "C56_flat_positions",
    "C56_base_views",
    "C56_base_views_refuted"
   ],
   "note": "Exact rational arithmetic; C02 has the binary64 counterpart of the conversion."
  },
  {
   "property": "C57",
   "status": "proved",
   "theorems": [
    "C57_outline",
    "C57_inside",
    "C57_cover",
    "C57_disjoint",
    "C57_map_corners",
    "C57_corner_cells"
   ],
   "note": "Inside and on the outline are defined by the turning direction at each edge."
  },
  {
   "property": "C58",
   "status": "proved",
   "theorems": [
    "C58_cells",
    "C58_positions",
    "C58_neighbours"
   ],
   "note": "gdal.Translate is any function that copies source windows."
  },
  {
   "property": "C59",
   "status": "proved",
   "theorems": [
    "C59_discovery_only",
    "C59_walk",
    "C59_connected",
    "C59_analysis",
    "C59_default",
    "C59_orphans_refuted"
   ],
   "note": "Every combination of options; the whole run with detection under the condition that no saddle is on the border (C54 has the weaker condition for the default options)."
  },
  {
   "property": "C60",
   "status": "proved",
   "theorems": [
    "C60_whole",
    "C60_saved",
    "C60_content",
    "C60_written",
    "C60_graph",
    "C60_terrain",
    "C60_rebuilt_refuted"
   ],
   "note": "Ids are any injective non-empty naming; the terrain statement for the default options under the condition on border saddles of C54."
  },
  {
   "property": "C61",
   "status": "proved",
   "theorems": [
    "C61_slopes",
    "C61_steepest",
    "C61_exact_refuted"
   ],
   "note": "math.hypot is any function accurate to four units in the last place; the rounded textbook formula is shown to be one."
  },
  {
   "property": "C62",
   "status": "proved",
   "theorems": [
    "C62_paths",
    "C62_once",
    "C62_edge",
    "C62_listed",
    "C62_graph",
    "C62_key",
    "C62_alone",
    "C62_ground",
    "C62_highest"
   ],
   "note": "For explorations that do not hit the depth limit of 400 and, for the whole analysis, under the condition of C54 on children of border saddles (needed: C54_mutual_refuted)."
  },
  {
   "property": "C63",
   "status": "proved",
   "theorems": [
    "C63_feet",
    "C63_above",
    "C63_any",
    "C63_any_refuted",
    "C63_missing",
    "C63_survey_refuted",
    "C63_prom",
    "C63_decline"
   ],
   "note": "Elevations are the binary64 numbers of float32 cells; the analysis under the conditions of C62."
  },
  {
   "property": "C64",
   "status": "proved",
   "theorems": [
    "C64_discovery",
    "C64_nan_is_summit",
    "C64_first_corner",
    "C64_corners",
    "C64_beside",
    "C64_steepest",
    "C64_lower",
    "C64_highest"
   ],
   "note": "The code for border areas after the grouping of border cells is an arbitrary function; object identity of NaN values is modelled."
  },
  {
   "property": "C65",
   "status": "proved",
   "theorems": [
    "C65_distance_map",
    "C65_closest_pair",
    "C65_exact_refuted",
    "C65_closest_member",
    "C65_closest_fails"
   ],
   "note": "math.hypot and the tree are any functions accurate to four units in the last place; one of each is given. Pairs for fewer than 100 points or square pixels, as in C14."
  },
  {
   "property": "C66",
   "status": "proved",
   "theorems": [
    "C66_searches",
    "C66_lengths",
    "C66_member",
    "C66_placed",
    "C66_network",
    "C66_analysis"
   ],
   "note": "math.hypot and the tree as in C65; positions on the ground are still exact (C02 has their binary64 counterpart)."
  },
  {
   "property": "C67",
   "status": "proved",
   "theorems": [
    "C67_flat_divided",
    "C67_exact",
    "C67_binary64"
   ],
   "note": "About one climb at a time: a later climb can record a rim cell anew (C22_listed_elsewhere_refuted)."
  },
  {
   "property": "C68",
   "status": "proved",
   "theorems": [
    "C68_again",
    "C68_same",
    "C68_analysis",
    "C68_merged_refuted"
   ],
   "note": "Runoffs listed several times are allowed."
  },
  {
   "property": "C69",
   "status": "proved",
   "theorems": [
    "C69_network",
    "C69_divide",
    "C69_domains",
    "C69_result",
    "C69_terrain",
    "C69_domain_refuted"
   ],
   "note": "The last theorem about the ground has the proviso of C54 about border saddles; the refutation is a complete analysis of a 6 x 5 raster."
  },
  {
   "property": "C70",
   "status": "proved",
   "theorems": [
    "C70_whole",
    "C70_saved",
    "C70_terrain",
    "C70_all_refuted"
   ],
   "note": "The theorem about the ground has the proviso of C54 about border saddles; the refutation is a complete analysis of a 7 x 6 raster."
  },
  {
   "property": "C71",
   "status": "proved",
   "theorems": [
    "C71_again",
    "C71_analysis",
    "C71_purged",
    "C71_any",
    "C71_any_refuted"
   ],
   "note": "C71_analysis has the proviso of C54 about border saddles; C71_purged is for analyses without rebuildSaddles; the refutation is a hand-made map, not the result of an analysis."
  },
  {
   "property": "C72",
   "status": "proved",
   "theorems": [
    "C72_others",
    "C72_returned",
    "C72_unlisted",
    "C72_analysed",
    "C72_saved_refuted",
    "C72_lost_refuted"
   ],
   "note": "Walks can raise exceptions (C23, C25); the theorems are about those that finish. The refutations are complete runs on a small raster."
  },
  {
   "property": "C73",
   "status": "proved",
   "theorems": [
    "C73_shown",
    "C73_ends",
    "C73_empty_refuted",
    "C73_analysed"
   ],
   "note": "Shapes (WKT) and names of objects are arbitrary texts; the last theorem has the conditions of C62."
  },
  {
   "property": "C74",
   "status": "proved",
   "theorems": [
    "C74_tree",
    "C74_graph",
    "C74_pieces_refuted"
   ],
   "note": "For analyses without rebuildSaddles (with it loading fails, C60_rebuilt_refuted) and explorations within the depth limit. The lists of divides kept beside the paths are not compared. The refutation is a complete analysis of a 5 x 5 raster."
  },
  {
   "property": "C75",
   "status": "proved",
   "theorems": [
    "C75_discovery",
    "C75_regraded",
    "C75_basins",
    "C75_tree",
    "C75_steepest_refuted"
   ],
   "note": "The shortest-path search of discovery must not look at elevations. Detection and the divide tree are taken as functions of the graph, not of the raster."
  },
  {
   "property": "C76",
   "status": "proved",
   "theorems": [
    "C76_analysis",
    "C76_units",
    "C76_missing_refuted"
   ],
   "note": "The nearest-point searches and shortest paths must not look at elevations; for the searches in exact arithmetic this is proved. In C76_analysis slopes are a parameter, only their order is used."
  },
  {
   "property": "C77",
   "status": "proved",
   "theorems": [
    "C77_tile",
    "C77_overlap",
    "C77_cut_out",
    "C77_frame",
    "C77_border_refuted"
   ],
   "note": "Runoffs are compared only for framed rasters: elsewhere they belong to the border of the tile. The path search may differ between the two rasters in its costs only through the raster it is given."
  },
  {
   "property": "C78",
   "status": "proved",
   "theorems": [
    "C78_place",
    "C78_order"
   ],
   "note": "Runoffs are placed at a middle border cell, which depends on the order of the sets; they are not covered."
  },
  {
   "property": "C79",
   "status": "proved",
   "theorems": [
    "C79_gridpoints",
    "C79_base_gridpoints",
    "C79_domains",
    "C79_domains_apart",
    "C79_linkers",
    "C79_linker_fails",
    "C79_order_refuted"
   ],
   "note": "C79_order_refuted: the same grid points in another order make an unequal container with another hash. Hash functions of numbers and tuples are parameters."
  },
  {
   "property": "C80",
   "status": "proved",
   "theorems": [
    "C80_steepest",
    "C80_climb",
    "C80_border_refuted"
   ],
   "note": "Climbs across flat areas are not covered: their cells tie with each other, and the nearest-point search on them may break ties differently in the part."
  }
 ]
}