{"id": "C01", "title": "Neighbour iteration is exact", "statement": "Iterating the neighbours of a raster cell yields exactly the cells adjacent to it (8 for the full iteration, 4 orthogonal, 4 diagonal), each exactly once and in a fixed order; a neighbour inside the map carries the stored elevation and a neighbour outside carries the nodata marker. The iteration never reads outside the array.", "quantifier": "every raster size (including 1xN and 1x1), every cell value, every nodata marker, every coordinate", "why_tests_cant": "The boundary cases multiply with the raster shape; a finite set of rasters cannot cover all shapes, values and nodata markers.", "anchors": ["pyprom/lib/datamaps/base_datamap.py: BaseDataMap.coord_inbounds, iterateFull, iterateOrthogonal, iterateDiagonal"]}
{"id": "C02", "title": "Pixel/latitude-longitude round trip", "statement": "For a north-up raster (no rotation terms, non-zero pixel sizes) converting any pixel index to latitude/longitude and back returns the same pixel index. With a rotation term the round trip is not guaranteed. Asking for the elevation at the position of a pixel index gives the value of the cell; outside the map it fails beyond the last row or column, but up to one map size before the first it silently gives the value of a cell of the map.", "quantifier": "every geotransform and every integer pixel index (exact arithmetic; a separate binary64 statement with explicit bounds)", "why_tests_cant": "Infinite set of geotransforms and indices; tests use one raster.", "anchors": ["pyprom/lib/datamaps/datamap.py: DataMap.xy_to_latlon, latlong_to_xy"]}
{"id": "C03", "title": "Steepest neighbour is the steepest ascent", "statement": "The steepest-neighbour query returns a neighbour that is not lower than the cell and whose slope is maximal among all not-lower neighbours (the first such in iteration order); it returns nothing exactly when every neighbour is lower or absent; and whenever some neighbour is strictly higher the result is strictly higher. When the nodata marker is not below the cell, the query can return a cell outside the map.", "quantifier": "every raster, every cell, every pixel aspect ratio, every nodata marker", "why_tests_cant": "Ties and maximality depend on all eight neighbours and the pixel aspect ratio; enumeration is impossible.", "anchors": ["pyprom/lib/datamaps/base_datamap.py: BaseDataMap.steepestNeighbor"]}
{"id": "C04", "title": "Map distance is a metric and matches the geography only for square pixels", "statement": "The map distance between two pixels is symmetric and zero only for identical pixels. It equals the ground distance computed from the two latitude/longitude positions whenever the pixel is square; for non-square pixels the two differ (axes are exchanged).", "quantifier": "every geotransform without rotation, every pair of pixels", "why_tests_cant": "Tests use rasters with square pixels where the exchange of axes is invisible.", "anchors": ["pyprom/lib/datamaps/base_datamap.py: BaseDataMap.distance", "pyprom/lib/datamaps/datamap.py: DataMap.xy_to_latlon"]}
{"id": "C05", "title": "Neighbourhood grouping is the partition into connected components", "statement": "Grouping a list of raster points into neighbourhoods returns non-empty groups that together contain every distinct input point exactly once; two points are in the same group exactly when they are linked by a chain of 8-adjacent input points. It always terminates without error, whatever order the set hands out elements.", "quantifier": "every finite list of points with non-negative coordinates and one elevation per coordinate, every iteration order of the Python set", "why_tests_cant": "Set iteration order is unspecified and shapes are unbounded.", "anchors": ["pyprom/lib/logic/contiguous_neighbors.py: contiguous_neighbors"]}
{"id": "C06", "title": "Touching neighbourhoods are reported exactly once", "statement": "Given pairwise disjoint point lists, list i reports list j as touching exactly when i<j and some point of i is 8-adjacent to some point of j; no pair is reported twice.", "quantifier": "every finite list of pairwise disjoint point lists, every raster", "why_tests_cant": "Depends on index order, including index 0, which the implementation treats as false; needs all configurations.", "anchors": ["pyprom/lib/logic/contiguous_neighbors.py: touching_neighborhoods"]}
{"id": "C07", "title": "Flat-area extraction is exact", "statement": "Extracting the flat area around a cell returns exactly the cells reachable from it by 8-adjacent steps of equal, non-nodata elevation, each once; its perimeter lists exactly the strictly higher adjacent non-nodata cells, each once; its edge cells are exactly the members on the map border, each once; and it is flagged as an edge feature exactly when some member lies on the border; perimeter border cells are exactly the adjacent non-nodata cells of different elevation lying on the border.", "quantifier": "every raster, nodata marker and starting cell with data", "why_tests_cant": "Flood fill correctness over arbitrary shapes.", "anchors": ["pyprom/lib/logic/equalheight.py: equalHeightBlob"]}
{"id": "C08", "title": "Summit discovery is sound and complete", "statement": "After feature discovery the reported summits are exactly the flat areas (single cells or plateaus) with no strictly higher adjacent cell: every such flat area is reported exactly once, with exactly its cells, elevation and edge flag, and nothing else is reported as a summit.", "quantifier": "every raster, every nodata marker, every set iteration order", "why_tests_cant": "Global bijection between an unbounded set of terrains and the output list.", "anchors": ["pyprom/feature_discovery.py: AnalyzeData.analyze, analyze_multipoint, summit_and_saddle, consolidatedFeatureLogic"]}
{"id": "C09", "title": "Interior saddle discovery is sound and complete", "statement": "A flat area that does not touch the map border is reported as a saddle exactly once if its strictly higher adjacent cells form at least two connected groups, and never otherwise; the saddle carries exactly those groups.", "quantifier": "every raster, every nodata marker, every set iteration order", "why_tests_cant": "Unbounded terrains; requires component counting.", "anchors": ["pyprom/feature_discovery.py: AnalyzeData.consolidatedFeatureLogic", "pyprom/lib/containers/perimeter.py: Perimeter.findHighPerimeterNeighborhoods"]}
{"id": "C10", "title": "Every flat area is analysed exactly once", "statement": "Feature discovery evaluates each flat area of the raster exactly once, at the first of its cells in row-major order, never evaluates a nodata cell, terminates, and the output is the concatenation of the per-flat-area results in that order.", "quantifier": "every raster, every nodata marker, every set iteration order", "why_tests_cant": "Bookkeeping of visited cells across the whole scan.", "anchors": ["pyprom/feature_discovery.py: AnalyzeData.analyze, analyze_multipoint, summit_and_saddle"]}
{"id": "C11", "title": "Border feature classification", "statement": "A flat area on the map border yields: a summit and one runoff covering the whole area when it has no higher neighbour; otherwise at most one saddle, and exactly one saddle iff it has at least two higher groups; and, when at least two separate lower border groups exist, one runoff for each connected group of its border cells that touches exactly two lower border groups, and no other runoff. The saddle loses its edge flag exactly when every border group became a runoff.", "quantifier": "every raster, nodata marker, set iteration order", "why_tests_cant": "Case analysis over arbitrary border configurations.", "anchors": ["pyprom/feature_discovery.py: AnalyzeData.consolidatedFeatureLogic, edge_feature_analysis"]}
{"id": "C12", "title": "Nodata is inert in feature discovery", "statement": "No discovered feature from the scan contains a nodata cell, and two rasters of the same shape that agree on every data cell and on which cells are nodata give identical discovered features irrespective of the numeric nodata marker.", "quantifier": "every pair of rasters differing only in the nodata marker", "why_tests_cant": "Two-run (hyper) property over all rasters.", "anchors": ["pyprom/feature_discovery.py: AnalyzeData.analyze", "pyprom/lib/logic/equalheight.py: equalHeightBlob"]}
{"id": "C13", "title": "Corner runoffs", "statement": "A full discovery run always appends exactly four extra runoffs at the end of the runoff list, one per map corner, carrying the corner cell's coordinates and stored value, even where the corner is a nodata cell.", "quantifier": "every raster", "why_tests_cant": "Needs all raster shapes, including single row/column.", "anchors": ["pyprom/feature_discovery.py: make_corner_runoffs, AnalyzeData.run"]}
{"id": "C14", "title": "Closest pair of points", "statement": "The brute-force closest-pair query over two non-empty point lists returns a point of the first list, a point of the second list and their distance, and no other cross pair is closer; a pair is found only at a distance below sys.maxsize. The k-d-tree variant used for 100 points or more minimises a different (pixel) distance, so for non-square pixels it can return a pair that is not the closest.", "quantifier": "every pair of non-empty point lists, every pixel size", "why_tests_cant": "Optimality over all pairs; the size switch at 100 points makes behaviour differ by input size.", "anchors": ["pyprom/lib/logic/shortest_path_by_points.py: closest_points_between_sets_brute_force, closest_points_between_sets_kdtree, find_closest_points"]}
{"id": "C15", "title": "Closest-point map", "statement": "The closest-point map assigns to every point of the first list a point of the second list with minimal pixel distance (whenever the second list is non-empty) and to no other key.", "quantifier": "every two point lists", "why_tests_cant": "Optimality for all inputs.", "anchors": ["pyprom/lib/logic/shortest_path_by_points.py: closest_point_by_distance_brute_force, closest_point_by_distance_kdtree, find_closest_point_by_distance_map"]}
{"id": "C16", "title": "Highest points of a list", "statement": "The highest-points query returns exactly the input points of maximal elevation, in input order with multiplicity; it fails only on an empty list.", "quantifier": "every point list", "why_tests_cant": "Universally quantified optimality.", "anchors": ["pyprom/lib/logic/tuple_funcs.py: highest"]}
{"id": "C17", "title": "Closest member of a flat area", "statement": "The closest-point query of a flat area returns one of its own cells at minimal squared pixel distance from the requested position.", "quantifier": "every non-empty flat area and every position", "why_tests_cant": "Optimality for all inputs.", "anchors": ["pyprom/lib/containers/multipoint.py: MultiPoint.closestPoint"]}
{"id": "C18", "title": "Rebuilt saddles form a spanning tree", "statement": "Splitting a saddle with N>=2 higher groups into child saddles yields exactly N-1 children, each joining two different groups, and following children connects every group to every other (a spanning tree).", "quantifier": "every saddle, every N, all distances (including ties)", "why_tests_cant": "Graph-theoretic invariant for unbounded N and arbitrary distances.", "anchors": ["pyprom/lib/logic/internal_saddle_network.py: InternalSaddleNetwork.build_internal_tree, treeExploration, generate_child_saddles", "pyprom/lib/containers/feature_verticies.py: Feature_Verticies.shortest_link"]}
{"id": "C19", "title": "Rebuilt saddles use the shortest tree", "statement": "The total length of the links chosen when splitting a saddle is minimal among all spanning trees over its higher groups.", "quantifier": "every saddle, every N, all distances (including ties)", "why_tests_cant": "Optimality over exponentially many trees.", "anchors": ["pyprom/lib/logic/internal_saddle_network.py: InternalSaddleNetwork.build_internal_tree, treeExploration"]}
{"id": "C20", "title": "Climbing terminates and never descends", "statement": "Climbing from any data cell of a raster whose nodata marker lies below all data terminates; if it ends in a summit domain then there is a path of 8-adjacent data cells from the start to a cell of that summit along which elevation never decreases.", "quantifier": "every raster, every starting cell, every set iteration order, every state of the domain table reached by earlier climbs", "why_tests_cant": "Termination and path existence over all terrains.", "anchors": ["pyprom/lib/logic/summit_domain_walk.py: Walk.climb, climb_points", "pyprom/lib/datamaps/base_datamap.py: BaseDataMap.steepestNeighbor"]}
{"id": "C21", "title": "Every climb reaches a summit", "statement": "On a raster whose summits were all registered beforehand, climbing from any data cell never fails: it returns the domain of a registered summit and afterwards the start cell is recorded in the domain table under that domain.", "quantifier": "every raster with nodata below all data, every starting cell, every reachable domain table", "why_tests_cant": "Needs completeness of summit discovery together with termination of the climb.", "anchors": ["pyprom/lib/logic/summit_domain_walk.py: Walk._prepopulate_summit_domain_points, climb, climb_points"]}
{"id": "C22", "title": "Summit domains are disjoint and consistent with the domain table", "statement": "At every point of a walk no cell is listed twice, in one domain or in two; a listed cell is recorded in the domain table, and under the domain that lists it unless it belongs to a flat area of several cells with higher ground around it (there the table and the list can disagree); every recorded cell leads uphill to a registered cell of its domain.", "quantifier": "every raster, every sequence of climbs", "why_tests_cant": "Invariant over arbitrarily long histories of climbs.", "anchors": ["pyprom/lib/logic/summit_domain_walk.py: Walk.climb, climb_points", "pyprom/lib/containers/summit_domain.py: SummitDomain.append, extend"]}
{"id": "C23", "title": "Walking links saddles to summits uphill and reciprocally", "statement": "Every link created by a walk joins a saddle to a summit that is reachable without descending from one of the saddle's higher groups (then its prominence is positive) or, for a summit-like runoff, from the runoff itself; the saddle appears in the summit's domain. A link of an interior saddle appears in the saddle's list and in the summit's list; a link of a border saddle does too unless an equal link is already there, so that two links of the global table can share one entry.", "quantifier": "every raster and saddle list", "why_tests_cant": "Whole-program invariant over all terrains.", "anchors": ["pyprom/lib/logic/summit_domain_walk.py: Walk.climb_from_saddles, generate_synthetic_saddles", "pyprom/lib/containers/linker.py: Linker.add_to_remote_saddle_and_summit"]}
{"id": "C24", "title": "Walk output bookkeeping", "statement": "Every saddle given to the walk contributes to the output: interior saddles contribute exactly their synthetic pieces; a border feature contributes its synthetic pieces followed by itself, and is disqualified; consequently a runoff that reaches a summit is listed twice and is its own parent.", "quantifier": "every list of saddles and runoffs, every climb outcome", "why_tests_cant": "Counts over arbitrary lists; tests assert on one map.", "anchors": ["pyprom/lib/logic/summit_domain_walk.py: Walk.climb_from_saddles"]}
{"id": "C25", "title": "A second walk loses everything", "statement": "Once summits have domains, a new walk registers no summit, so no saddle is linked and the resulting link table is empty.", "quantifier": "every map state after a first walk", "why_tests_cant": "History property (walk after walk, or walk after load).", "anchors": ["pyprom/lib/logic/summit_domain_walk.py: Walk._prepopulate_summit_domain_points", "pyprom/domain_map.py: DomainMap.walk"]}
{"id": "C26", "title": "Single-summit saddles are disqualified", "statement": "After basin-saddle detection every saddle that is not on the border, not manually overridden and linked to at most one distinct summit is disqualified, together with all its links, and the scan leaves every other field of other saddles unchanged.", "quantifier": "every saddle/summit graph", "why_tests_cant": "Unbounded graphs.", "anchors": ["pyprom/lib/logic/basin_saddle_finder.py: BasinSaddleFinder.disqualify_basin_saddles", "pyprom/lib/locations/saddle.py: Saddle.disqualified, disqualify_self_and_linkers"]}
{"id": "C27", "title": "Basin-saddle detection terminates unless overridden", "statement": "Basin-saddle detection terminates on every saddle/summit graph without manual overrides; with a saddle manually forced to be kept that is strictly the lowest saddle of a cycle it never terminates. It can fail only when a summit is the lowest member of a cycle, which graphs made by a walk exclude.", "quantifier": "every finite graph; every number of iterations", "why_tests_cant": "Non-termination cannot be observed by a test and termination needs a measure.", "anchors": ["pyprom/lib/logic/basin_saddle_finder.py: BasinSaddleFinder.disqualify_basin_saddles", "pyprom/lib/locations/saddle.py: Saddle.disqualified"]}
{"id": "C28", "title": "Basin-saddle detection removes only cycle minima", "statement": "In a graph as walks make it (open saddles with at most two links, listed by both ends) every saddle disqualified as a basin saddle is of minimal elevation on some closed chain of distinct saddles and summits that were not disqualified before; ties are cross-recorded as alternatives of one another when the cycle is labelled. Later cycles can overwrite that record one-sidedly, and a saddle linked twice to one summit makes a saddle that is on no cycle disqualified.", "quantifier": "every such graph, every elevation assignment, ties included", "why_tests_cant": "Unbounded graphs with ties.", "anchors": ["pyprom/lib/logic/basin_saddle_finder.py: BasinSaddleFinder.find_lowest_cycle_members, _disqualify_and_label"]}
{"id": "C29", "title": "Basin-saddle detection leaves a maximum spanning forest", "statement": "In a graph as walks make it, after detection the remaining saddles away from the border contain no cycle, any two summits that were connected stay connected, and the highest minimum elevation (key saddle) between any two summits is unchanged, even with equal elevations. A saddle with three summits can lose connectivity.", "quantifier": "every graph whose open saddles have at most two links, as a walk makes; ties included", "why_tests_cant": "Global graph property over all graphs and elevation assignments.", "anchors": ["pyprom/lib/logic/basin_saddle_finder.py: BasinSaddleFinder.disqualify_basin_saddles"]}
{"id": "C30", "title": "Disqualification state machine", "statement": "A saddle's disqualified state equals the manual override when one is set and otherwise the disjunction of the single-summit and basin flags; disqualifying a saddle with its links marks exactly its own links.", "quantifier": "every sequence of flag and override updates", "why_tests_cant": "All histories of updates.", "anchors": ["pyprom/lib/locations/saddle.py: Saddle.disqualified, disqualify_self_and_linkers"]}
{"id": "C31", "title": "Parent/child detachment", "statement": "Emancipating a saddle clears its parent and removes it from the parent's children; disowning clears every child's parent; siblings that compare unequal to it are untouched, but siblings at the same rounded position and elevation are dropped too.", "quantifier": "every family of saddles", "why_tests_cant": "Depends on value equality of coordinates across arbitrary families.", "anchors": ["pyprom/lib/locations/saddle.py: Saddle.emancipate, disown_children, soft_delete"]}
{"id": "C32", "title": "Purging saddles", "statement": "Purging keeps exactly the saddles that the options ask to keep, in order, and keeps in the link table exactly the links of the kept saddles; links of runoffs are dropped from the link table.", "quantifier": "every map and every option combination", "why_tests_cant": "All graphs and option combinations.", "anchors": ["pyprom/domain_map.py: DomainMap.purge_saddles"]}
{"id": "C33", "title": "Link queries are exact", "statement": "Prominence of a link is summit elevation minus saddle elevation. The queries for saddles reachable via the link's summit, and summits reachable via its saddle, return exactly the other ends of the sibling links, in order, skipping disqualified links (and the link itself when asked). Registering a link appends it to the lists of its two ends, unless copies are ignored and the list has an equal one.", "quantifier": "every graph and every flag combination", "why_tests_cant": "All graphs.", "anchors": ["pyprom/lib/containers/linker.py: Linker.prom, saddles_connected_via_summit, summits_connected_via_saddle, linkers_to_saddles_connected_via_summit, linkers_to_summits_connected_via_saddle"]}
{"id": "C34", "title": "Save/load round trip of the feature graph", "statement": "Saving and reloading a map preserves summits, saddles, their order, elevations, positions, flags and ids, the family relations of saddles and, when no two links join features with equal rounded positions, the complete link structure on both sides in order. A saved map loads exactly if all references lead into the saved containers. Otherwise links are lost: those of co-located saddles, and the second of two links between the same saddle and summit (which every single-summit saddle has); a manual keep-override is lost, parent/child relations of runoffs are lost, and a runoff listed more than once becomes several runoffs, of which only one has the links.", "quantifier": "every map state", "why_tests_cant": "Round trip for all graphs.", "anchors": ["pyprom/domain_map.py: DomainMap.to_dict, from_dict", "pyprom/lib/containers/saddles.py", "pyprom/lib/containers/runoffs.py", "pyprom/lib/containers/linker.py: Linker.to_dict, from_dict"]}
{"id": "C35", "title": "Save/load is guarded by the raster fingerprint", "statement": "Loading a saved map succeeds only with a raster whose fingerprint equals the stored one; because the fingerprint includes a per-process string hash, a file written by one process is accepted by another only if both hashes agree.", "quantifier": "every raster, every hash seed", "why_tests_cant": "Requires quantifying over processes/hash seeds.", "anchors": ["pyprom/domain_map.py: DomainMap.from_dict, read, write", "pyprom/lib/datamaps/datamap.py: DataMap.__init__"]}
{"id": "C36", "title": "Grid structures round trip", "statement": "Saving and reloading flat areas, perimeters and grid points preserves their points, elevations and flags; of several perimeter points at one place the last is kept; a flat area without perimeter does not save, a perimeter without edge point list does not load, and a plain spot elevation cannot be reloaded from its own saved form.", "quantifier": "every flat area, perimeter, grid point, spot elevation", "why_tests_cant": "All values.", "anchors": ["pyprom/lib/containers/multipoint.py: MultiPoint.to_dict, from_dict", "pyprom/lib/containers/perimeter.py: Perimeter.to_dict, from_dict", "pyprom/lib/locations/gridpoint.py", "pyprom/lib/locations/spot_elevation.py"]}
{"id": "C37", "title": "Container id lookup stays consistent", "statement": "After any sequence of creating, appending and extending a feature container, looking up an id returns the last added feature with that id, and every contained feature's id is found. Assigning to an index replaces exactly that element or fails without a change, and leaves the lookup stale.", "quantifier": "every sequence of operations", "why_tests_cant": "Unbounded operation histories.", "anchors": ["pyprom/lib/containers/spot_elevation.py: SpotElevationContainer.append, extend, by_id, __setitem__", "pyprom/lib/containers/summits.py", "pyprom/lib/containers/saddles.py"]}
{"id": "C38", "title": "Geographic and elevation filters are exact", "statement": "Radius, rectangle and elevation-range queries return exactly the features strictly inside, in container order, independent of corner order; boundary features are excluded; unknown units are rejected.", "quantifier": "every container and every query", "why_tests_cant": "Boundary behaviour for all values.", "anchors": ["pyprom/lib/containers/spot_elevation.py: radius, rectangle, elevationRange, elevationRangeMetric"]}
{"id": "C39", "title": "Lowest/highest features of a container", "statement": "The lowest and highest queries return exactly the features of extreme elevation in container order.", "quantifier": "every non-empty container", "why_tests_cant": "Optimality for all inputs.", "anchors": ["pyprom/lib/containers/spot_elevation.py: lowest, highest"]}
{"id": "C40", "title": "Equality and hashing of locations", "statement": "Location equality is reflexive and symmetric and equal locations hash equally; equality and inequality are complementary except next to zero latitude/longitude, where two locations can be neither equal nor unequal; saddles break the equality/hash contract.", "quantifier": "every pair of locations", "why_tests_cant": "Algebraic laws over all values.", "anchors": ["pyprom/lib/locations/base_coordinate.py: __eq__, __ne__, __hash__", "pyprom/lib/locations/spot_elevation.py: __eq__, __ne__, __hash__", "pyprom/lib/locations/saddle.py: __hash__"]}
{"id": "C41", "title": "Equality of point collections", "statement": "Flat areas compare equal exactly when one's cells are a reordering of the other's; feature containers compare equal only up to order among equal elevations, so reordering two features of equal elevation makes them unequal.", "quantifier": "every pair of collections", "why_tests_cant": "All permutations.", "anchors": ["pyprom/lib/containers/multipoint.py: MultiPoint.__eq__", "pyprom/lib/containers/perimeter.py: Perimeter.__eq__", "pyprom/lib/containers/spot_elevation.py: SpotElevationContainer.__eq__", "pyprom/lib/containers/summit_domain.py: SummitDomain.__eq__"]}
{"id": "C42", "title": "Pseudo-summit search", "statement": "Every strict local maximum of a grid-point container is reported as a pseudo-summit; but a flat member whose flat area has a higher neighbour can be reported too, and members can be reported twice.", "quantifier": "every grid-point container", "why_tests_cant": "All shapes.", "anchors": ["pyprom/lib/containers/gridpoint.py: GridPointContainer.findPseudoSummits, equalHeightBlob"]}
{"id": "C43", "title": "Runoff shortest path ignores its start", "statement": "The query for the higher cell nearest to a given border cell always returns the last higher cell of the last group regardless of the given cell, and it appends all higher cells to the caller's list of flat cells.", "quantifier": "every flat area and every list of higher groups, every shortest-path oracle", "why_tests_cant": "Quantifies over all shortest-path results.", "anchors": ["pyprom/lib/logic/shortest_path_by_points.py: high_perimeter_neighborhood_shortest_path"]}
{"id": "C44", "title": "Saddle internal shortest path", "statement": "The saddle-level shortest path between higher groups starts from the wrong candidate: the result is a path actually considered, but it can be longer than another considered path.", "quantifier": "every saddle and every path-cost oracle", "why_tests_cant": "Quantifies over all path costs.", "anchors": ["pyprom/lib/locations/saddle.py: Saddle.high_perimeter_neighborhood_shortest_path"]}
{"id": "C45", "title": "Degree conversions", "statement": "Converting non-negative decimal degrees to degrees/minutes/seconds and back returns the input up to the stated rounding; for negative coordinates the inverse is wrong and for values between -1 and 0 the sign is lost.", "quantifier": "every rational coordinate", "why_tests_cant": "Continuum of inputs.", "anchors": ["pyprom/lib/util.py: dottedDecimaltoDegrees, degreesToDottedDecimal"]}
{"id": "C46", "title": "Sparse lookup table", "statement": "The sparse two-dimensional lookup behaves as a finite map under any sequence of set/append/get operations; a removed entry reads as empty rather than as the default; slicing fails exactly when a first coordinate in the range was ever written, removed or merely read, and otherwise gives an empty table.", "quantifier": "every sequence of operations", "why_tests_cant": "Operation histories.", "anchors": ["pyprom/lib/fastlookup/fastlookup.py: FastLookup"]}
{"id": "C47", "title": "Unit detection at load time", "statement": "Vertical unit detection follows the priority band unit name (in any case), then linear unit of a projected system, then spread of heights; a raster is loaded exactly if its units are forced to be metres or detected as metres with enough confidence, and is then the reprojected source; a raster in feet never loads (its conversion fails); with the default threshold a geographic raster without unit name never loads.", "quantifier": "every combination of band unit, linear unit, raster size and confidence threshold", "why_tests_cant": "All metadata combinations.", "anchors": ["pyprom/lib/loaders/gdal_loader.py: GDALLoader", "pyprom/lib/loaders/util/detect_vertical_units.py", "pyprom/lib/loaders/util/metricate_vertical_dataset.py"]}
{"id": "C48", "title": "Map export has no duplicates", "statement": "Adding any sequence of features to the map export stores each distinct (type, geometry) once, in first-insertion order, in the folder of its own kind; disqualified saddles share the saddle folder with a style of their own and are told apart from other saddles; summit domains are not de-duplicated; an object of unknown type is rejected; the document has one non-empty folder for each kind that was added.", "quantifier": "every sequence of additions", "why_tests_cant": "Operation histories.", "anchors": ["pyprom/lib/kmlwriter.py: KMLFileWriter.append, extend, _append_spotElevation_derivative, _append_linker, _append_summit_domain, generateDocument"]}
{"id": "C49", "title": "Divide-tree exploration", "statement": "Exploring a divide tree terminates for every link graph and enters only reachable links, each at most once, and all of them unless the depth limit of 400 is hit (then reachable links can be left out), which happens only if 400 steps down from the summit are possible; every reported path is a chain of adjacent links below the depth limit ending at the border or at a saddle with a higher summit than the last summit of the path (not necessarily higher than the explored summit); the edge flag and the boundary lists say only what reported paths show, and every reported path shows in one of them; a run over all summits fails only if there is none, and collects the boundaries and the busted summits of all explorations.", "quantifier": "every link graph", "why_tests_cant": "Unbounded graphs.", "anchors": ["pyprom/dividetree.py: DivideTree.run, branchChaser"]}
{"id": "C50", "title": "Perimeter filters", "statement": "Filtering a perimeter by elevation returns exactly the strictly higher points, and grouping them returns their connected components; neighbour iteration inside a point collection yields exactly the member cells adjacent to the given one (the combined orthogonal+diagonal iteration yields only the orthogonal ones); a collection created empty cannot be iterated, and later appended points are not seen by the iteration.", "quantifier": "every point collection", "why_tests_cant": "All shapes.", "anchors": ["pyprom/lib/containers/perimeter.py: findHighPerimeter, findHighPerimeterNeighborhoods", "pyprom/lib/containers/base_self_iterable.py: iterNeighborFull, iterNeighborOrthogonal, iterNeighborOrthogonalDiagonal"]}
{"id": "C51", "title": "Checksum streams the whole file", "statement": "The file checksum equals the digest of the complete file contents irrespective of the read chunk size (other than zero, which reads nothing), and repeated-character compression is idempotent and leaves no two equal neighbours.", "quantifier": "every file content and chunk size; every string", "why_tests_cant": "All byte strings.", "anchors": ["pyprom/lib/util.py: checksum, compressRepetetiveChars"]}
{"id": "C52", "title": "Full discovery run with saddle splitting", "statement": "A discovery run with splitting succeeds on every raster; every discovered saddle with N pieces of higher ground is replaced by N-1 new saddles with two groups each (and kept, disqualified, when on the border); away from the border every new saddle lies on a cell of the same flat area at its elevation, whereas on the border it can be placed on a higher cell outside the area.", "quantifier": "every raster, every set order, every path and nearest-neighbour library", "why_tests_cant": "Combines discovery, grouping, closest pairs and tree building over all rasters.", "anchors": ["pyprom/feature_discovery.py: AnalyzeData.run", "pyprom/lib/containers/saddles.py: SaddlesContainer.rebuildSaddles"]}
{"id": "C53", "title": "The divide graph mirrors the terrain", "statement": "After discovery and walk, two summits are joined through non-disqualified saddles of elevation at least e exactly if their cells are joined by touching data cells of elevation at least e; consequently a summit is joined through such saddles to a higher summit exactly if ground of at least e leads from it to higher ground, so key saddles in the graph are at the elevations of the key saddles of the terrain.", "quantifier": "every raster, every elevation, every set order and every path and nearest-neighbour library", "why_tests_cant": "Relates the final graph to topological connectivity of arbitrary rasters at every level.", "anchors": ["pyprom/domain_map.py: DomainMap.run, walkSaddle, generate_domains", "pyprom/feature_discovery.py: AnalyzeData.run", "pyprom/lib/logic/summit_domain_walk.py: Walk"]}
{"id": "C54", "title": "The whole analysis yields a divide forest", "statement": "The graph a walk builds is fit for basin saddle detection whenever no child of a border saddle shares its place and a summit with another listed saddle (always so if no saddle is on the border); then the whole run completes, the open saddles away from the border form no closed chain of summits, and summits stay joined at every level exactly as their cells are in the terrain. Without the condition a summit can fail to list a saddle leading to it and regional exploration misses the divide.", "quantifier": "every raster, every set order and every path and nearest-neighbour library", "why_tests_cant": "End-to-end statement over arbitrary rasters.", "anchors": ["pyprom/domain_map.py: DomainMap.run, detect_basin_saddles", "pyprom/lib/logic/basin_saddle_finder.py: BasinSaddleFinder.disqualify_basin_saddles"]}
{"id": "C55", "title": "List operations of point collections", "statement": "A flat area accepts exactly plain grid points and coordinate pairs, a perimeter exactly grid points with elevation and triples; appending puts the new member last and replacing by index changes exactly the named position (counted from the end if negative), anything else is refused. A container of grid points yields as neighbours exactly its members next to the given place after any appends (of several at one place the last), but after replacing a member by index it misses the new one and still yields the removed one. Searching finds the first equal member unless a member of the other class comes before it; the closest members of two containers are the first pair of least pixel distance.", "quantifier": "every collection, every index, every sequence of appends", "why_tests_cant": "Invariant over arbitrary operation histories, index ranges and member kinds.", "anchors": ["pyprom/lib/containers/multipoint.py: MultiPoint.append, __setitem__, __getitem__", "pyprom/lib/containers/perimeter.py: Perimeter.append, __setitem__", "pyprom/lib/containers/gridpoint.py: GridPointContainer", "pyprom/lib/containers/base_gridpoint.py: BaseGridPointContainer.index, findClosestPoints"]}
{"id": "C56", "title": "Conversions and views of summit domains", "statement": "On a map without rotation a grid point turned into a spot elevation and back is the same grid point; the grid points and spot elevations of a summit domain are its points in order, with the elevations of their cells and positions that lead back to the cells; the positions of a flat area lead back to its cells. The plain views of a domain do not describe it: they take cell numbers for degrees.", "quantifier": "every map without rotation, every list of its cells", "why_tests_cant": "All maps and cell lists.", "anchors": ["pyprom/lib/locations/gridpoint.py: GridPoint.toSpotElevation", "pyprom/lib/locations/spot_elevation.py: SpotElevation.toGridPoint, toXYTuple", "pyprom/lib/containers/summit_domain.py: SummitDomain.iterateSpotElevation, iterateGridPoint, iterateBaseCoordinate, iterateBaseGridPoint", "pyprom/lib/containers/multipoint.py: MultiPoint.pointsLatLong"]}
{"id": "C57", "title": "Cell outlines tile the map", "statement": "The outline of every cell, also at the border, is a quadrilateral with the cell's position inside; every position inside it is assigned to that cell, every position lies in or on the outline of the cell it is assigned to, and outlines of different cells do not overlap; the positions of all cells lie between the four corners of the map.", "quantifier": "every map without rotation, every cell, every position", "why_tests_cant": "Continuum of positions.", "anchors": ["pyprom/lib/datamaps/datamap.py: DataMap.point_geom, latlong_to_xy, upper_left, lower_left, upper_right, lower_right"]}
{"id": "C58", "title": "Map windows", "statement": "A subset of a map holds exactly the requested rows and columns: every cell keeps its value, its nodata status and its position on the ground, and every cell away from the window's border keeps its neighbours.", "quantifier": "every map, every window inside it, gdal.Translate copying source windows", "why_tests_cant": "All maps and windows.", "anchors": ["pyprom/lib/datamaps/datamap.py: DataMap.subset"]}
{"id": "C59", "title": "The analysis with all its options", "statement": "A run with superSparse ends after discovery with unlinked objects, and with rebuildSaddles these are the split saddles related to their border saddles as parents; a sparse run walks whatever was discovered, its links and pieces obey the description of walks, and summits are joined in its graph exactly as their cells are in the terrain, also after splitting; if no saddle is on the border the whole run completes, leaves no closed chain and keeps the connections. With splitting, a border saddle keeps naming children that the walk has replaced and that are in no container.", "quantifier": "every raster, every combination of options, every set order and every path and nearest-neighbour library", "why_tests_cant": "End-to-end statement over arbitrary rasters and all option combinations.", "anchors": ["pyprom/domain_map.py: DomainMap.run", "pyprom/lib/containers/saddles.py: SaddlesContainer.rebuildSaddles", "pyprom/lib/logic/internal_saddle_network.py: InternalSaddleNetwork.generate_child_saddles"]}
{"id": "C60", "title": "The analysis can be saved", "statement": "Whatever the options except rebuildSaddles, everything the objects of a finished analysis refer to is in its containers; so its map can be saved and loaded again with the same raster, the loaded map is the same map, and two of its summits are joined by counting saddles at a level exactly if they are in the analysis, hence exactly if their cells are joined by the terrain at that level. With rebuildSaddles a map with a border saddle is saved but cannot be loaded.", "quantifier": "every raster, every combination of options without rebuildSaddles, all ids, perimeters, domain points and set orders, every path and nearest-neighbour library", "why_tests_cant": "End-to-end statement over arbitrary rasters from analysis through saving and loading.", "anchors": ["pyprom/domain_map.py: DomainMap.run, to_dict, from_dict", "pyprom/lib/logic/basin_saddle_finder.py: BasinSaddleFinder.disqualify_basin_saddles", "pyprom/lib/containers/saddles.py", "pyprom/lib/containers/linker.py"]}
{"id": "C61", "title": "Slopes in binary64", "statement": "With slopes compared in binary64, an accurate math.hypot and float elevations, every slope to a neighbour that is not lower can be computed and is not negative, so everything said about climbing and whole analyses holds in binary64; the steepest neighbour is nothing exactly if all neighbours are lower, and otherwise a neighbour that is not lower, strictly higher if any is, with the largest slope up to a factor 1 + 2^-49. The factor is needed: the answer is not always the neighbour with the largest exact slope.", "quantifier": "every map with float elevations, pixel sizes between 2^-400 and 2^400, every cell, every hypot accurate to four units in the last place", "why_tests_cant": "All float values; rounding ties occur at isolated inputs.", "anchors": ["pyprom/lib/datamaps/base_datamap.py: BaseDataMap.steepestNeighbor"]}
{"id": "C62", "title": "The divide tree of a finished analysis", "statement": "In a graph whose counting nodes off the border form a tree, exploring the region of a summit off the border (below the depth limit) reports exactly the paths that lead down from it without meeting a node twice and end at the border or below a summit higher than the last one, each once; the edge flag is set exactly if one ends at the border, and saddles where one meets a higher summit are listed as boundaries. The graph of a finished analysis is such a graph. So no way to higher ground is missed: if the terrain leads from a summit to a higher cell without going below e, a path with no saddle below e is reported; where nothing is reported nothing that can be reached is higher; every reported path is a way over the terrain; and no data cell is higher than the summit found to be the highest.", "quantifier": "every raster, with and without rebuildSaddles, every order of the sets and every path and nearest-neighbour library, every summit off the border, every level", "why_tests_cant": "End-to-end statement from arbitrary rasters through discovery, walk and basin detection to the divide tree; depends on the order in which branches are explored.", "anchors": ["pyprom/dividetree.py: DivideTree.run, localProminentRegion, branchChaser", "pyprom/domain_map.py: DomainMap.run", "pyprom/lib/logic/basin_saddle_finder.py: BasinSaddleFinder.disqualify_basin_saddles"]}
{"id": "C63", "title": "Elevations in feet", "statement": "In binary64, the feet of an elevation are within a relative error of 2^-51 of the exact value and never decrease with the elevation. For float32 elevations the height in feet of a summit above a saddle has the sign of the height itself and is close to the exact value, so in a finished analysis prom_ft of every counting link and the decline of every path reported by the divide tree are positive and close to the exact height. For other floats a higher summit can be zero feet above a saddle; the factor for survey feet is the one for international feet.", "quantifier": "every elevation below 2^128 that is a float; every float32 raster, every run of the analysis and of the divide tree", "why_tests_cant": "All float values; ties and collapses occur at isolated inputs.", "anchors": ["pyprom/lib/constants.py", "pyprom/lib/locations/spot_elevation.py: SpotElevation.feet", "pyprom/lib/containers/linker.py: Linker.prom_ft", "pyprom/dividetree.py: LPRpath"]}
{"id": "C64", "title": "Rasters that mark missing cells with NaN", "statement": "If the declared marker of a raster is NaN and discovery finishes, then areas off the border and peaks yield the same features as with a number as marker, and every NaN cell is reported as a summit with elevation NaN, on the border also as a runoff. Discovery does not finish if the flat area of corner (0,0), (0,max_y) or (max_x,0) has a higher neighbour (IndexError at once for the first cell), or if a NaN border cell stands alone beside a border area that has a higher neighbour. The steepest neighbour of a number is the same as with a marker below all elevations; a NaN cell has none. Among the border cells beside an area NaN is passed over if it does not come first: the highest points of a group are those with its highest number, and the lower groups are those whose numbers are all below the area; with NaN first a group has no highest point.", "quantifier": "every raster, every set of NaN cells, every order of the sets, whatever later code does with border areas", "why_tests_cant": "NaN compares unequal to itself, so set membership, dictionary keys and maxima behave differently for the same value depending on object identity and order.", "anchors": ["pyprom/feature_discovery.py: AnalyzeData.analyze, analyze_multipoint, summit_and_saddle, consolidatedFeatureLogic", "pyprom/lib/logic/equalheight.py: equalHeightBlob", "pyprom/lib/logic/contiguous_neighbors.py", "pyprom/lib/logic/tuple_funcs.py: highest", "pyprom/lib/datamaps/base_datamap.py"]}
{"id": "C65", "title": "Nearest points in binary64", "statement": "With distances in binary64 and an accurate math.hypot, the search for the nearest point in pixels and the search for the member of a multipoint nearest to a half-integer position find a point that is exactly nearest. The search for the nearest pair finds one with its length up to a relative error of 2^-50; its squared distance is least up to a factor 1 + 2^-48, and exactly least with square pixels. With other pixels a farther pair can be returned.", "quantifier": "all lists of points of rasters with at most 2^22 rows and columns, pixel sizes between 2^-300 and 2^300, every hypot accurate to four units in the last place, every correct tree", "why_tests_cant": "All float values; rounding ties occur at isolated inputs.", "anchors": ["pyprom/lib/logic/shortest_path_by_points.py", "pyprom/lib/datamaps/base_datamap.py: BaseDataMap.distance", "pyprom/lib/containers/multipoint.py: MultiPoint.closestPoint"]}
{"id": "C66", "title": "The analysis with distances in binary64", "statement": "On usual rasters the searches for nearest points always answer in binary64, so everything said about climbing, splitting and whole analyses holds there. New saddles are placed at a cell nearest to the middle of their two points; the network inside a saddle is a spanning tree and no other one made of pairs of points can be matched with shorter links, up to a factor 1 + 2^-48 of the squared lengths and exactly with square pixels. With slopes and distances in binary64 and no saddle on the border, the whole analysis completes, leaves no closed chain, and its graph tells how the ground is connected.", "quantifier": "every raster with at most 2^22 rows and columns and pixel sizes of usual magnitude, every set of groups of cells, every hypot and tree accurate to four units in the last place", "why_tests_cant": "End-to-end statement over all float values; rounding ties occur at isolated inputs.", "anchors": ["pyprom/lib/logic/shortest_path_by_points.py: find_closest_points, find_closest_point_by_distance_map", "pyprom/lib/logic/internal_saddle_network.py: InternalSaddleNetwork.build_internal_tree, generate_child_saddles", "pyprom/lib/containers/multipoint.py: MultiPoint.closestPoint", "pyprom/domain_map.py: DomainMap.run"]}
{"id": "C67", "title": "A flat area is divided among the nearest higher ground", "statement": "When a climb from a cell meets level ground that no climb has reached before, the whole flat area is recorded: every cell other than the start of the climb under the domain of a higher cell on the rim of the area that is nearest to it in pixels, and the start under the domain of its steepest neighbour, which is also the answer. This holds with exact distances and with distances in binary64.", "quantifier": "every raster, every state of the walk, every flat area and starting cell", "why_tests_cant": "Depends on the shape of flat areas and on the order in which climbs record cells.", "anchors": ["pyprom/lib/logic/summit_domain_walk.py: Walk.climb, Walk.climb_points", "pyprom/lib/logic/shortest_path_by_points.py: find_closest_point_by_distance_map"]}
{"id": "C68", "title": "Saving and loading twice", "statement": "A map that was loaded can always be saved and loaded again; this changes nothing if no two domains of the first map count as one, in particular not for the result of an analysis on a raster whose cells have distinct rounded positions. Otherwise a summit can have a different domain object after the second round, and nothing else changes.", "quantifier": "every map that can be saved and loaded, every fingerprint; every raster and every option of the analysis except rebuildSaddles", "why_tests_cant": "Merging of equal links and domains, re-indexing of perimeters and dropped fields depend on the whole content of the map.", "anchors": ["pyprom/domain_map.py: DomainMap.to_dict, DomainMap.from_dict", "pyprom/lib/containers/perimeter.py: Perimeter.from_dict", "pyprom/lib/containers/linker.py: Linker.from_dict", "pyprom/lib/containers/summit_domain.py: SummitDomain.from_dict"]}
{"id": "C69", "title": "Purging the result of an analysis", "statement": "If no saddle is forced to be kept, purging removes only saddles that were disqualified anyway: which nodes are open, their heights and edges, which summits are connected and the listed saddles that are not disqualified stay the same, and the domain of a summit loses exactly the saddles at the place of a removed saddle linked to that summit. If also the links of flagged saddles are marked, the divide tree stays the same. The result of an analysis meets both conditions, so after purging its graph still tells how the ground is connected. A kept saddle can lose its place in the domain of a summit it is linked to.", "quantifier": "every map, every choice of purging options, every list of summits and earlier divide tree; every raster, with or without rebuildSaddles", "why_tests_cant": "Concerns the whole graph before and after; the lost domain entry needs two pieces of one saddle at the same place.", "anchors": ["pyprom/domain_map.py: DomainMap.purge_saddles, DomainMap.run", "pyprom/lib/locations/saddle.py: Saddle.soft_delete, Saddle.domains", "pyprom/lib/containers/summit_domain.py: SummitDomain.remove_saddle", "pyprom/dividetree.py: DivideTree.run"]}
{"id": "C70", "title": "Saving a purged analysis", "statement": "After purging single-summit saddles, basin saddles or both from the result of an analysis, everything the remaining objects refer to remains; the purged map can be saved and loaded, the loaded map is the same map, and it still tells how the ground is connected. After purging all basin saddles (allBasinSaddles) a kept saddle can have a removed one among its alternatives, and then the saved map cannot be loaded.", "quantifier": "every raster without and with disqualified saddles, both purging options, all ids, perimeters and domain orders; the analysis without rebuildSaddles", "why_tests_cant": "Concerns all references of the whole graph after several passes; the failing case needs tied basin saddles at the same place.", "anchors": ["pyprom/domain_map.py: DomainMap.purge_saddles, DomainMap.to_dict, DomainMap.from_dict", "pyprom/lib/locations/saddle.py: Saddle.soft_delete, Saddle.to_dict", "pyprom/lib/logic/basin_saddle_finder.py: BasinSaddleFinder._disqualify_and_label", "pyprom/lib/logic/summit_domain_walk.py: Walk.climb_from_saddles"]}
{"id": "C71", "title": "Detecting and purging twice", "statement": "In a graph as walks make it, without overrides, finding basin saddles a second time finds nothing new and changes nothing. The same holds for the result of an analysis and for that result purged in any way, and purging it twice with the same options is the same as purging it once. Purging twice is the same as once for any map at all if all basin saddles or no basin saddles are purged, or if no purged saddle has alternatives; otherwise a basin saddle can lose its alternatives in the first purge and be removed only by the second.", "quantifier": "every graph, every list of saddles, every choice of purging options; every raster", "why_tests_cant": "A second pass sees the marks of the first, and which cycles and alternatives are left depends on the whole graph.", "anchors": ["pyprom/lib/logic/basin_saddle_finder.py: BasinSaddleFinder.disqualify_basin_saddles", "pyprom/domain_map.py: DomainMap.detect_basin_saddles, DomainMap.purge_saddles", "pyprom/lib/locations/saddle.py: Saddle.soft_delete"]}
{"id": "C72", "title": "Walking from chosen saddles", "statement": "Walking from a list of saddles leaves the map's lists of summits, saddles and runoffs and all other saddles as they are, and returns the pieces of the given saddles, runoffs apart, linked uphill to summits. It does not leave the map unmodified as documented: the map's list of links is replaced by the links of this walk. So after discovery it can name a saddle that the map does not list, and the saved map cannot be loaded; after an analysis the lists of links and domains become empty, and a map saved then has no links when loaded.", "quantifier": "every map that can be walked, every non-empty list of its saddles; every raster and option of the analysis", "why_tests_cant": "Concerns every other object of the map and what a later save contains.", "anchors": ["pyprom/domain_map.py: DomainMap.walk", "pyprom/lib/logic/summit_domain_walk.py: Walk.climb_from_saddles, Walk.generate_synthetic_saddles", "pyprom/domain_map.py: DomainMap.to_dict, DomainMap.from_dict"]}
{"id": "C73", "title": "Prominent regions on a map", "statement": "Collecting the elements of a local prominent region and passing them to the KML writer never fails. The document shows exactly the summits, links, saddles and runoffs of the reported paths, one placemark for a place, and no disqualified saddles, spot elevations or domains; if a path is reported, the explored summit and the saddles where the paths end are shown. This holds for every summit of the divide tree of a finished analysis. A region without reported paths shows nothing at all, not even its summit.", "quantifier": "every link graph, every explored summit, every choice of shapes and names; every raster for the finished analysis", "why_tests_cant": "Quantifies over all link graphs and over which objects share a place.", "anchors": ["pyprom/dividetree.py: LPRPaths.elements_for_kml, LPRpath.elements_for_kml, DivideTree.branchChaser", "pyprom/lib/kmlwriter.py: KMLFileWriter.append, KMLFileWriter._append_spotElevation_derivative, KMLFileWriter._append_linker"]}
{"id": "C74", "title": "The divide tree of a loaded map", "statement": "If no two listed saddles at the same place lead to the same summit, the divide tree of the saved and loaded result of an analysis is that of the analysis: the open nodes of the loaded graph form a tree, it has the same highest summit, and for each summit off the border the exploration reports the same paths over the same links, ending at the same saddles, and the same edge flag. Otherwise paths are lost: of two links of a summit to different saddles at one place only the first is loaded.", "quantifier": "every raster, all ids, perimeters and domain orders, every earlier divide tree; the analysis without rebuildSaddles, explorations that do not hit the depth limit", "why_tests_cant": "Concerns all paths through the whole graph before and after saving, including links that loading drops as duplicates.", "anchors": ["pyprom/dividetree.py: DivideTree.run, DivideTree.localProminentRegion, DivideTree.branchChaser", "pyprom/domain_map.py: DomainMap.to_dict, DomainMap.from_dict", "pyprom/lib/containers/linker.py: Linker.from_dict, Linker.add_to_remote_saddle_and_summit"]}
{"id": "C75", "title": "Only the order of heights matters", "statement": "Which summits, saddles and runoffs discovery finds, where, with which points and pieces of higher ground, depends only on which of two cells is higher: in a raster with the same shape and the same data cells in the same order of height, e.g. in other units or above another datum, it finds the same features with the elevations of that raster. Likewise detection marks the same basin and single-summit saddles with the same alternatives, and the divide tree is the same, in two graphs whose features are in the same order of height. The steepest neighbour of a cell, and so where a climb goes, is not determined by the order.", "quantifier": "all pairs of rasters and graphs in the same order of height; every strictly increasing change of the elevations", "why_tests_cant": "Relates the results for two different inputs; a threshold or an absolute elevation anywhere in the comparisons would only show on particular values.", "anchors": ["pyprom/lib/logic/equalheight.py: equalHeightBlob", "pyprom/feature_discovery.py: AnalyzeData.analyze, analyze_multipoint, summit_and_saddle, consolidatedFeatureLogic", "pyprom/lib/logic/basin_saddle_finder.py: BasinSaddleFinder.disqualify_basin_saddles, find_lowest_cycle_members", "pyprom/dividetree.py: DivideTree.run", "pyprom/lib/datamaps/base_datamap.py: BaseDataMap.steepestNeighbor"]}
{"id": "C76", "title": "The analysis in another unit or above another datum", "statement": "If the cells of two rasters are in the same order of height, and the steps up from each cell in the same order of steepness, the whole analysis goes the same way: it makes the same objects at the same places with the same links, domains, parents, children and marks, each with the elevations of its raster, or raises the same exception. In exact arithmetic this holds for elevations k*e + c with k > 0, so the unit and the datum of the elevations do not matter. Missing cells must be marked by a value below all elevations: otherwise the same raster with another marker can fail, because the walk climbs towards the missing cells.", "quantifier": "all pairs of such rasters, all positive scales and all offsets, all arguments of run, all answers of the nearest-neighbour trees, searches and shortest paths that do not look at elevations", "why_tests_cant": "Relates whole runs for two different inputs; an absolute elevation anywhere in discovery, the walk or detection would only show on particular values.", "anchors": ["pyprom/domain_map.py: DomainMap.run, DomainMap.walk, DomainMap.detect_basin_saddles", "pyprom/lib/logic/summit_domain_walk.py: Walk.climb_from_saddles, Walk.climb_points, Walk.climb, Walk.generate_synthetic_saddles", "pyprom/lib/containers/saddles.py: SaddlesContainer.rebuildSaddles", "pyprom/lib/logic/internal_saddle_network.py: InternalSaddleNetwork", "pyprom/lib/datamaps/base_datamap.py: BaseDataMap.steepestNeighbor"]}
{"id": "C77", "title": "Tiles of a raster", "statement": "Discovery on a rectangle cut out of a raster finds the same summits and saddles as on the whole raster for every flat area that does not touch the border of the rectangle, each exactly once, with the same position and elevation, the same cells and the same pieces of higher ground, shifted by the offset. Every summit of the whole raster shows as a summit in the rectangle, even at its border. Two overlapping rectangles agree on the features that touch the border of neither. A frame of nodata cells around a raster changes no summit and no saddle, and no runoffs are found then. At the border of the rectangle a saddle can become a summit.", "quantifier": "all rasters, all rectangles, all offsets and values of the marker, every order of the sets, every path search that finds existing paths", "why_tests_cant": "Relates the results for two inputs of different size; dependence on absolute cell positions or on far-away cells shows only on particular rasters.", "anchors": ["pyprom/feature_discovery.py: AnalyzeData.analyze, summit_and_saddle, analyze_multipoint, consolidatedFeatureLogic", "pyprom/lib/logic/equalheight.py: equalHeightBlob", "pyprom/lib/logic/contiguous_neighbors.py: contiguous_neighbors", "pyprom/lib/datamaps/base_datamap.py: BaseDataMap.iterateFull, is_map_edge"]}
{"id": "C78", "title": "Where a feature is placed", "statement": "The position of a summit or saddle of one cell is that cell. For a larger flat area it is, seen from the area's first cell in row-major order, the right neighbour if it belongs to the area, else the lower right, the lower, the lower left one. So positions and elevations of all summits and saddles, and their order, do not depend on the iteration order of sets or on the shortest-path search.", "quantifier": "all rasters, every order of the sets, every path search that finds existing paths", "why_tests_cant": "The choice follows from the order of the scan and of the neighbours; tests only see the positions of the flat areas they contain.", "anchors": ["pyprom/feature_discovery.py: AnalyzeData.analyze, summit_and_saddle, analyze_multipoint, consolidatedFeatureLogic, edge_feature_analysis", "pyprom/lib/datamaps/base_datamap.py: BaseDataMap.iterateFull"]}
{"id": "C79", "title": "Hashes of grid-point containers, summit domains and linkers agree with their equality", "statement": "Equal grid-point containers have equal hashes and, if the hash functions for tuples have no collisions, containers with equal hashes are equal; points of one elevation in another order make containers of the same points unequal, with different hashes. Domains of equal summits, so in particular equal domains, have equal hashes; if only equal inputs have the same hash, domains with equal hashes have summits of one elevation whose coordinates agree to six decimals. Linkers are equal exactly if their summits and their saddles are; equal linkers whose saddles have no higher groups have equal hashes; a linker whose saddle has higher groups cannot be hashed (TypeError).", "quantifier": "All lists of grid points, all summit domains, all summits and saddles with rational coordinates and elevations, all hash functions of numbers and tuples.", "why_tests_cant": "The tests compare a few hashes with recorded numbers; the contract relates all pairs of objects and must hold for any hash function of numbers (it depends on the interpreter).", "anchors": ["pyprom/lib/containers/base_gridpoint.py: BaseGridPointContainer.__hash__, __eq__", "pyprom/lib/containers/summit_domain.py: SummitDomain.__hash__, __eq__", "pyprom/lib/containers/linker.py: Linker.__hash__, __eq__", "pyprom/lib/locations/saddle.py: Saddle.__hash__"]}
{"id": "C80", "title": "Climbing in a part of a raster is climbing in the raster", "statement": "For a cell inside a part of a raster (none of its neighbours missing from the part) the steepest neighbour in the part is that in the raster. If the records of a walk on the part agree with those of a walk on the raster, and all cells that a climb on the part adds lie inside the part and tie with no neighbour, then the climb on the raster from the same cell ends in the same domain, adds the same cells in the same order, and the records agree again. For cells on the border of the part this is false: the climb can end in another domain.", "quantifier": "All rasters, all rectangular parts, all start cells, all states of the records, all slope functions and nearest-point searches.", "why_tests_cant": "Comparing runs on a raster and on its parts needs all rasters and all cuttings; the tests only use fixed rasters, whole.", "anchors": ["pyprom/lib/logic/summit_domain_walk.py: Walk.climb", "pyprom/lib/datamaps/base_datamap.py: BaseDataMap.steepestNeighbor", "pyprom/lib/containers/summit_domain.py: SummitDomain.append, extend"]}
