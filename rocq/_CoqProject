-Q theories Verif
theories/Base_model.v
theories/Raster_model.v
theories/Raster_spec.v
theories/Contig_model.v
theories/Blob_model.v
theories/Raster_proof.v
theories/Contig_proof.v
theories/Touch_proof.v
theories/Blob_proof.v
theories/Example_maps.v
theories/Raster_facts.v
theories/P_raster.v
theories/P_groups.v
theories/P_flat.v
theories/Analyze_model.v
theories/Feature_spec.v
theories/Analyze_proof.v
theories/Area_proof.v
theories/Scan_proof.v
theories/Feature_facts.v
theories/Nodata_proof.v
theories/P_features.v
theories/Closest_model.v
theories/Network_model.v
theories/Closest_spec.v
theories/Closest_proof.v
theories/Tree_spec.v
theories/Tree_proof.v
theories/Network_proof.v
theories/Network_spec.v
theories/Rebuild_proof.v
theories/P_closest.v
theories/Rebuild_facts.v
theories/P_network.v
theories/Climb_model.v
theories/Climb_spec.v
theories/Climb_proof.v
theories/Climb_facts.v
theories/P_climb.v
theories/Graph_model.v
theories/Walk_model.v
theories/Graph_spec.v
theories/Graph_proof.v
theories/Purge_proof.v
theories/Graph_example.v
theories/P_graph.v
theories/Walk_spec.v
theories/Walk_proof.v
theories/Synth_proof.v
theories/Links_proof.v
theories/Steps_proof.v
theories/One_proof.v
theories/Walk_facts.v
theories/Found_proof.v
theories/Again_proof.v
theories/Walked_proof.v
theories/Walk_example.v
theories/P_walk.v
theories/Basin_model.v
theories/Basin_spec.v
theories/Basin_proof.v
theories/Search_proof.v
theories/Basin_facts.v
theories/Cycle_proof.v
theories/Forest_proof.v
theories/Loop_proof.v
theories/Detect_proof.v
theories/Basin_example.v
theories/P_basin.v
theories/Container_model.v
theories/Container_spec.v
theories/Container_proof.v
theories/Pseudo_model.v
theories/Pseudo_spec.v
theories/Pseudo_proof.v
theories/P_containers.v
theories/Util_model.v
theories/Util_spec.v
theories/Util_proof.v
theories/Kml_model.v
theories/Kml_spec.v
theories/Kml_proof.v
theories/Perimeter_model.v
theories/Perimeter_proof.v
theories/Perimeter_spec.v
theories/P_util.v
theories/Divide_model.v
theories/Divide_spec.v
theories/Divide_proof.v
theories/Divide_example.v
theories/Limit_proof.v
theories/P_divide.v
theories/Loader_model.v
theories/Loader_spec.v
theories/Loader_proof.v
theories/P_loader.v
theories/Persist_model.v
theories/Persist_spec.v
theories/Persist_proof.v
theories/Persist_load_proof.v
theories/Persist_example.v
theories/P_persist.v
theories/Mesh_proof.v
theories/Terrain_spec.v
theories/Terrain_proof.v
theories/Run_model.v
theories/Run_spec.v
theories/Run_proof.v
theories/Run_example.v
theories/P_terrain.v
theories/Float_model.v
theories/Float_spec.v
theories/Float_proof.v
theories/P_float.v
theories/Points_model.v
theories/Points_spec.v
theories/Points_proof.v
theories/P_points.v
theories/Views_model.v
theories/Views_spec.v
theories/Views_proof.v
theories/Views_example.v
theories/P_views.v
theories/Start_proof.v
theories/Rebuilt_proof.v
theories/Rebuilt_spec.v
theories/P_rebuilt.v
theories/Family_proof.v
theories/Alts_proof.v
theories/Store_model.v
theories/Store_spec.v
theories/Store_proof.v
theories/Stored_proof.v
theories/Store_example.v
theories/P_store.v
theories/Like_proof.v
theories/Slope_model.v
theories/Slope_spec.v
theories/Slope_proof.v
theories/Slope_example.v
theories/P_slope.v
theories/Region_spec.v
theories/Region_proof.v
theories/Region_list_proof.v
theories/Region_run_proof.v
theories/P_region.v
theories/Feet_model.v
theories/Feet_spec.v
theories/Feet_proof.v
theories/Feet_run_proof.v
theories/P_feet.v
theories/Nan_model.v
theories/Nan_spec.v
theories/Nan_group_proof.v
theories/Nan_proof.v
theories/Nan_run_proof.v
theories/P_nan.v
theories/Near_model.v
theories/Near_spec.v
theories/Near_proof.v
theories/Near_run_proof.v
theories/Near_example.v
theories/P_near.v
theories/Fsearch_model.v
theories/Fsearch_spec.v
theories/Fsearch_proof.v
theories/Fnet_spec.v
theories/Fnet_proof.v
theories/Frun_example.v
theories/P_fsearch.v
theories/Placed_spec.v
theories/Placed_proof.v
theories/Shelf_spec.v
theories/Shelf_proof.v
theories/Fplaced_proof.v
theories/Twice_store_proof.v
theories/Twice_proof.v
theories/Cull_spec.v
theories/Cull_proof.v
theories/Cull_run_proof.v
theories/Cull_example.v
theories/P_cull.v
theories/Register_spec.v
theories/Register_proof.v
theories/Written_proof.v
theories/Store_written_proof.v
theories/Keep_alts_proof.v
theories/Keep_walk_proof.v
theories/Keep_purge_proof.v
theories/Keep_run_proof.v
theories/Keep_example.v
theories/P_keep.v
theories/Collect_proof.v
theories/Off_map_proof.v
theories/Settle_proof.v
theories/Settle_purge_proof.v
theories/Settle_run_proof.v
theories/P_settle.v
theories/Part_model.v
theories/Part_spec.v
theories/Part_proof.v
theories/Part_run_proof.v
theories/P_part.v
theories/Nan_lower_proof.v
theories/Reach_proof.v
theories/Lprkml_model.v
theories/Lprkml_spec.v
theories/Lprkml_proof.v
theories/P_lprkml.v
theories/Revive_model.v
theories/Revive_spec.v
theories/Revive_proof.v
theories/Late_proof.v
theories/Revive_run_proof.v
theories/Revive_example.v
theories/P_revive.v
theories/Order_proof.v
theories/Relief_spec.v
theories/Relief_proof.v
theories/Heights_spec.v
theories/Heights_proof.v
theories/Heights_tree.v
theories/P_relief.v
theories/Datum_spec.v
theories/Datum_climb.v
theories/Datum_net.v
theories/Datum_walk.v
theories/Datum_list.v
theories/Datum_run.v
theories/Datum_blind.v
theories/P_datum.v
theories/Tile_spec.v
theories/Tile_proof.v
theories/P_tile.v
theories/Anchor_spec.v
theories/Anchor_proof.v
theories/P_anchor.v
theories/Hash_model.v
theories/Hash_spec.v
theories/Hash_proof.v
theories/P_hash.v
theories/Ascent_spec.v
theories/Ascent_proof.v
theories/P_ascent.v
theories/Overlap_spec.v
theories/Overlap_proof.v
