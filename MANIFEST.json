{
 "claims": [
  {
   "property": "C01",
   "status": "proved",
   "theorems": [
    "C01_fill_terminates",
    "C01_fill_never_lowers"
   ],
   "note": ""
  },
  {
   "property": "C02",
   "status": "proved",
   "theorems": [
    "C02_fill_is_escape_level",
    "C02_fill_is_least",
    "C02_fill_is_elevation"
   ],
   "note": ""
  },
  {
   "property": "C03",
   "status": "proved",
   "theorems": [
    "C03_fill_depressionless"
   ],
   "note": ""
  },
  {
   "property": "C04",
   "status": "proved",
   "theorems": [
    "C04_fill_idempotent",
    "C04_fill_monotone"
   ],
   "note": ""
  },
  {
   "property": "C05",
   "status": "partial",
   "theorems": [
    "C05_float64_refuted",
    "C05_float32_partial"
   ],
   "note": "REFUTED for float64 DEMs: C05_float64_refuted gives a finite 3x3 float64 DEM on which the loop never ends (the float32 store rounds the value, so the cell reports a change for ever). Proved for float32 representable elevations."
  },
  {
   "property": "C06",
   "status": "partial",
   "theorems": [
    "C06_speedups_differ_refuted",
    "C06_no_flats_differ_refuted",
    "C06_compiled_three_rows_raise"
   ],
   "note": "REFUTED: the compiled sweeps leave out the last row and column of their range and the loop stops at the first sweep without change; C06_speedups_differ_refuted and C06_no_flats_differ_refuted are 4x4 witnesses; three-row rasters raise ValueError."
  },
  {
   "property": "C07",
   "status": "proved",
   "theorems": [
    "C07_compiled_terminates",
    "C07_compiled_safe"
   ],
   "note": ""
  },
  {
   "property": "C08",
   "status": "proved",
   "theorems": [
    "C08_no_flats_strict",
    "C08_no_flats_strict_compiled",
    "C08_float32_in_range"
   ],
   "note": ""
  },
  {
   "property": "C09",
   "status": "proved",
   "theorems": [
    "C09_no_flats_terminates",
    "C09_no_flats_cheapest",
    "C09_no_flats_above_fill",
    "C09_no_flats_zero_is_fill"
   ],
   "note": ""
  },
  {
   "property": "C10",
   "status": "proved",
   "theorems": [
    "C10_flowdir_total",
    "C10_steepest",
    "C10_steepest_compiled"
   ],
   "note": ""
  },
  {
   "property": "C11",
   "status": "proved",
   "theorems": [
    "C11_edges_flow_off",
    "C11_edges_straight"
   ],
   "note": ""
  },
  {
   "property": "C12",
   "status": "proved",
   "theorems": [
    "C12_dem_drains",
    "C12_dem_terminates"
   ],
   "note": "Up to 2^50 columns (pure Python; rows with speedups). Speedups: from 4x4 cells (smaller rasters raise ValueError, see C06)."
  },
  {
   "property": "C13",
   "status": "proved",
   "theorems": [
    "C13_upstream_is_converse"
   ],
   "note": ""
  },
  {
   "property": "C14",
   "status": "proved",
   "theorems": [
    "C14_accum_terminates",
    "C14_accum_counts_upstream",
    "C14_accum_total"
   ],
   "note": ""
  },
  {
   "property": "C15",
   "status": "proved",
   "theorems": [
    "C15_accum_increases"
   ],
   "note": ""
  },
  {
   "property": "C16",
   "status": "proved",
   "theorems": [
    "C16_accum_compiled_terminates",
    "C16_accum_compiled_agrees",
    "C16_accum_compiled_counts"
   ],
   "note": ""
  },
  {
   "property": "C17",
   "status": "partial",
   "theorems": [
    "C17_nodir_raises_refuted",
    "C17_nodir_never_returns"
   ],
   "note": "REFUTED: C17_nodir_raises_refuted; moreover C17_nodir_never_returns: one cell without direction anywhere in a raster with valid codes and accumulated_flow never returns a raster."
  },
  {
   "property": "C18",
   "status": "proved",
   "theorems": [
    "C18_watersheds_terminate",
    "C18_watersheds_first_label",
    "C18_first_label_unique",
    "C18_watersheds_compiled_same"
   ],
   "note": ""
  },
  {
   "property": "C19",
   "status": "proved",
   "theorems": [
    "C19_edge_cells",
    "C19_edge_cells_once"
   ],
   "note": ""
  },
  {
   "property": "C20",
   "status": "proved",
   "theorems": [
    "C20_label_stats",
    "C20_label_stats_sums",
    "C20_counts_total"
   ],
   "note": ""
  },
  {
   "property": "C21",
   "status": "proved",
   "theorems": [
    "C21_label_min_index",
    "C21_label_max_index"
   ],
   "note": ""
  },
  {
   "property": "C22",
   "status": "proved",
   "theorems": [
    "C22_label_data",
    "C22_label_data_out_of_range",
    "C22_label_count",
    "C22_label_count_total"
   ],
   "note": ""
  },
  {
   "property": "C23",
   "status": "partial",
   "theorems": [
    "C23_label_data_compiled_zero",
    "C23_background_refuted",
    "C23_nlabels_zero_refuted"
   ],
   "note": "REFUTED for other backgrounds: C23_background_refuted (the compiled loops compare with 0), and for nlabels=0: C23_nlabels_zero_refuted. Proved for background 0: C23_label_data_compiled_zero."
  },
  {
   "property": "C24",
   "status": "proved",
   "theorems": [
    "C24_filter_keeps_passing_bluespots",
    "C24_tool_succeeds"
   ],
   "note": ""
  },
  {
   "property": "C25",
   "status": "partial",
   "theorems": [
    "C25_rejected_capacity_refuted",
    "C25_own_cells_only_partial"
   ],
   "note": "REFUTED: C25_rejected_capacity_refuted: all depths that carry no label are summed into the node written for label 0. C25_own_cells_only_partial: the record of label l is computed from the cells of that label only, so no other node is affected."
  },
  {
   "property": "C26",
   "status": "partial",
   "theorems": [
    "C26_level_water_table",
    "C26_depths",
    "C26_compiled_step_refuted"
   ],
   "note": "Proved for the pure Python functions; REFUTED with speedups (C26_compiled_step_refuted, a 4x4 terrain). Sign and edge of the depths hold with and without speedups (C26_depths)."
  },
  {
   "property": "C27",
   "status": "proved",
   "theorems": [
    "C27_chain_pour_points",
    "C27_lowest_cell_rule",
    "C27_largest_accumulation_rule"
   ],
   "note": "The accumulated flow rule up to 2^53 cells (the raster is float64)."
  },
  {
   "property": "C28",
   "status": "proved",
   "theorems": [
    "C28_chain_network_acyclic",
    "C28_lowest_cell_rule",
    "C28_largest_accumulation_rule"
   ],
   "note": "Tool chain with both pour point rules, and each rule for any labelling numbered 1..n."
  },
  {
   "property": "C29",
   "status": "proved",
   "theorems": [
    "C29_background_alone",
    "C29_chain_points"
   ],
   "note": "Any labelling with interior labels; the tool chain meets the hypotheses (C29_chain_points). StreamTool passes background_label=0."
  },
  {
   "property": "C30",
   "status": "proved",
   "theorems": [
    "C30_first_foreign_label"
   ],
   "note": ""
  },
  {
   "property": "C31",
   "status": "proved",
   "theorems": [
    "C31_junctions_preserve_network"
   ],
   "note": "For pour points meeting pourpoints_ok (background pour point flows directly off), which C29_chain_points proves of the tool chain. Python's recursion limit is not modelled."
  },
  {
   "property": "C32",
   "status": "proved",
   "theorems": [
    "C32_no_parallel_streams"
   ],
   "note": ""
  },
  {
   "property": "C33",
   "status": "proved",
   "theorems": [
    "C33_junctions_transparent"
   ],
   "note": "Exact arithmetic; any water and capacities."
  },
  {
   "property": "C34",
   "status": "proved",
   "theorems": [
    "C34_no_overflow",
    "C34_overflow_refuted",
    "C34_water_conserved",
    "C34_rain_event_conserves",
    "C34_conserved_rounded",
    "C34_exactly_rounded_refuted"
   ],
   "note": ""
  },
  {
   "property": "C35",
   "status": "proved",
   "theorems": [
    "C35_solver_terminates",
    "C35_settled_by_balance",
    "C35_balance_unique",
    "C35_order_irrelevant"
   ],
   "note": ""
  },
  {
   "property": "C36",
   "status": "proved",
   "theorems": [
    "C36_no_overfill",
    "C36_no_overfill_rounded",
    "C36_percentage_rounded_refuted"
   ],
   "note": "The percentage bound holds in exact arithmetic; C36_percentage_rounded_refuted shows a float capacity for which the stored percentage exceeds 100 by one unit in the last place."
  },
  {
   "property": "C37",
   "status": "proved",
   "theorems": [
    "C37_more_rain_more_water",
    "C37_more_rain_rounded"
   ],
   "note": ""
  },
  {
   "property": "C38",
   "status": "partial",
   "theorems": [
    "C38_all_written",
    "C38_process_terminates",
    "C38_skipped_exactly",
    "C38_dangling_refuted",
    "C38_cycle_refuted"
   ],
   "note": "REFUTED as stated: a node with a dangling downstream reference (C38_dangling_refuted) or on a cycle (C38_cycle_refuted) is written without final values, and of several features with one id only the last is written. Proved: in a closed acyclic network with distinct ids every node is written (C38_all_written), and in general exactly which nodes are left out (C38_skipped_exactly)."
  },
  {
   "property": "C39",
   "status": "proved",
   "theorems": [
    "C39_rain_shares"
   ],
   "note": "StreamTool.process and SimpleVolumeTool.process in exact arithmetic on the output of the modelled DemTool/BluespotTool chain: volumes add up to cells x cell area x mm/1000, each node gets its watershed's share, junctions 0; with or without junction insertion."
  },
  {
   "property": "C40",
   "status": "partial",
   "theorems": [
    "C40_raster_rain_refuted",
    "C40_own_cells_partial",
    "C40_watershed_raster_partial"
   ],
   "note": "REFUTED: RasterVolumeTool sums over the bluespot raster, not over watersheds (C40_raster_rain_refuted). Proved: each node gets exactly the water on the cells carrying its id, and given the watershed raster the tools agree."
  },
  {
   "property": "C41",
   "status": "partial",
   "theorems": [
    "C41_histogram_partial",
    "C41_negative_refuted",
    "C41_rounding_refuted"
   ],
   "note": "REFUTED for negative elevations (int() truncates towards zero, C41_negative_refuted) and under float rounding (C41_rounding_refuted). C41_histogram_partial: exact arithmetic, complete for non-negative elevations; for any sign the upper bound encloses and at most cells within one bin below the lower bound are lost."
  },
  {
   "property": "C42",
   "status": "proved",
   "theorems": [
    "C42_roundtrip",
    "C42_produced_roundtrip"
   ],
   "note": ""
  },
  {
   "property": "C43",
   "status": "proved",
   "theorems": [
    "C43_water_level"
   ],
   "note": "Exact arithmetic, np.interp by contract; cells non-negative as in the statement."
  },
  {
   "property": "C44",
   "status": "proved",
   "theorems": [
    "C44_two_bins",
    "C44_exact_level",
    "C44_exact_level_unique"
   ],
   "note": "Exact arithmetic; existence and uniqueness of the exact level are separate theorems."
  },
  {
   "property": "C45",
   "status": "proved",
   "theorems": [
    "C45_depths_extents",
    "C45_depths_extents_float",
    "C45_total",
    "C45_io"
   ],
   "note": "Exact and binary64; totality and the file variant included."
  },
  {
   "property": "C46",
   "status": "partial",
   "theorems": [
    "C46_background_depth_refuted",
    "C46_background_depth_partial"
   ],
   "note": "REFUTED for terrain below -999 (the level given to the background); proved where the terrain is not below -999."
  },
  {
   "property": "C47",
   "status": "partial",
   "theorems": [
    "C47_write_partial",
    "C47_write_total",
    "C47_unbound_refuted"
   ],
   "note": "REFUTED in part: integers are always stored in a type that represents every value (proved), and write succeeds exactly when a GDAL integer type holds all values; but when none does, UnboundLocalError is raised instead of NotImplementedError (C47_unbound_refuted)."
  },
  {
   "property": "C48",
   "status": "partial",
   "theorems": [
    "C48_read_partial",
    "C48_zero_refuted",
    "C48_close_refuted"
   ],
   "note": "REFUTED: a nodata value of 0 is ignored and cells merely close to nodata (within 1e-8 + 1e-5*|nodata|) are replaced too. Proved: with non-zero nodata every equal cell is replaced and only cells within the tolerance are."
  },
  {
   "property": "C49",
   "status": "proved",
   "theorems": [
    "C49_charset",
    "C49_parse_charset",
    "C49_expressions"
   ],
   "note": "eval itself is not modelled; the theorems are about the text handed to it."
  },
  {
   "property": "C50",
   "status": "proved",
   "theorems": [
    "C50_switch",
    "C50_last_call"
   ],
   "note": "all call sequences of enable, disable and import of hyps, with and without compiled modules."
  },
  {
   "property": "C51",
   "status": "partial",
   "theorems": [
    "C51_hyps_partial",
    "C51_hyps_refuted",
    "C51_enable_refuted"
   ],
   "note": "REFUTED for hyps.py, which binds label_stats and label_data by name at import. Proved for lookups through the modules (C50_last_call) and what hyps binds is characterised exactly."
  },
  {
   "property": "C52",
   "status": "proved",
   "theorems": [
    "C52_cell_centre",
    "C52_injective"
   ],
   "note": "exact rational arithmetic."
  },
  {
   "property": "C53",
   "status": "proved",
   "theorems": [
    "C53_complete_water_balance"
   ],
   "note": "Model of complete.py up to the final volumes; raster decisions in IEEE arithmetic, volume arithmetic exact. Success for every sufficiently large fuel."
  },
  {
   "property": "C54",
   "status": "partial",
   "theorems": [
    "C54_no_filter_refuted"
   ],
   "note": "REFUTED: C54_no_filter_refuted: UnboundLocalError for every valid input."
  },
  {
   "property": "C55",
   "status": "partial",
   "theorems": [
    "C55_compiled_directions_refuted"
   ],
   "note": "REFUTED: C55_compiled_directions_refuted is a 3x3 witness (division by sqrt 2 against multiplication by its rounded inverse). C10_steepest_compiled says what the compiled version does guarantee."
  },
  {
   "property": "C56",
   "status": "partial",
   "theorems": [
    "C56_zero_rain_refuted",
    "C56_exactly_one_partial"
   ],
   "note": "REFUTED for -mm 0: the command tests truthiness, so 0 mm alone is rejected and 0 mm with -pr ignored. Holds for every other rain depth."
  },
  {
   "property": "C57",
   "status": "proved",
   "theorems": [
    "C57_hypsometry_sound",
    "C57_hypsometry_total",
    "C57_own_histogram"
   ],
   "note": ""
  },
  {
   "property": "C58",
   "status": "partial",
   "theorems": [
    "C58_two_bins_refuted"
   ],
   "note": "REFUTED: a flat bluespot 100 m deep and 99 % full gets level zmin instead of 99."
  },
  {
   "property": "C59",
   "status": "proved",
   "theorems": [
    "C59_levels_sound",
    "C59_levels_total"
   ],
   "note": "Soundness for any arithmetic, totality in exact arithmetic."
  },
  {
   "property": "C60",
   "status": "proved",
   "theorems": [
    "C60_write_floats",
    "C60_write_floats_total",
    "C60_write_bool"
   ],
   "note": ""
  },
  {
   "property": "C61",
   "status": "partial",
   "theorems": [
    "C61_cell_area_partial",
    "C61_rotated_refuted"
   ],
   "note": "REFUTED for rotated transforms; proved when transform[2] or transform[4] is 0."
  },
  {
   "property": "C62",
   "status": "partial",
   "theorems": [
    "C62_reassembled_refuted"
   ],
   "note": "REFUTED: oarear is accepted."
  },
  {
   "property": "C63",
   "status": "proved",
   "theorems": [
    "C63_complete_succeeds"
   ],
   "note": "Volumes, hypsometry and levels in exact arithmetic; raster decisions on IEEE numbers."
  },
  {
   "property": "C64",
   "status": "partial",
   "theorems": [
    "C64_final_depths",
    "C64_rounding_refuted",
    "C64_below_zero_refuted"
   ],
   "note": "Proved for the pure Python functions and DEMs whose elevations are non-negative whole multiples (below 2^24) of a power of two, where float32 depths are exact. REFUTED for other DEMs (C64_rounding_refuted), where depths are rounded to float32, and for terrain below zero (C64_below_zero_refuted)."
  },
  {
   "property": "C65",
   "status": "partial",
   "theorems": [
    "C65_more_rain_deeper_partial",
    "C65_compiled_refuted",
    "C65_below_zero_refuted"
   ],
   "note": "REFUTED for terrain below zero (C65_below_zero_refuted) and with the compiled functions (C65_compiled_refuted). Proved for the pure Python functions and DEMs whose elevations are non-negative whole multiples (below 2^24) of a power of two."
  },
  {
   "property": "C66",
   "status": "partial",
   "theorems": [
    "C66_water_lost_refuted",
    "C66_full_and_empty_partial"
   ],
   "note": "REFUTED for partly filled bluespots (C66_water_lost_refuted). Proved: the raster never holds more than the capacity and the right amount in full and empty bluespots."
  },
  {
   "property": "C67",
   "status": "partial",
   "theorems": [
    "C67_dry_cells_marked_refuted",
    "C67_wet_cells_marked_partial"
   ],
   "note": "REFUTED: cells of depth 0 at the level are marked (C67_dry_cells_marked_refuted). Proved: cells under water are marked, marked cells belong to the bluespot."
  },
  {
   "property": "C68",
   "status": "proved",
   "theorems": [
    "C68_raster_rain_balance",
    "C68_raster_total"
   ],
   "note": "Exact arithmetic. C68_raster_total: any labelling whose labels each have one node; C68_raster_rain_balance: the nodes of every processed DEM, down to the final state."
  },
  {
   "property": "C69",
   "status": "partial",
   "theorems": [
    "C69_same_results_partial",
    "C69_both_succeed_partial",
    "C69_levels_unmistakable",
    "C69_no_filter",
    "C69_near_nodata_refuted",
    "C69_pourpts_dem_refuted",
    "C69_not_square_refuted"
   ],
   "note": "REFUTED as stated: filled levels within 0.01 of -999 are read back as nodata by the depths command; pourpts -dem reads the DEM without nodata substitution; the step commands accept cells that are not square. Proved: exact agreement of all rasters and pour points otherwise, both succeed with enough fuel, no -filter equals the filter that keeps everything."
  },
  {
   "property": "C70",
   "status": "partial",
   "theorems": [
    "C70_single_threshold_refuted",
    "C70_single_outlet_partial"
   ],
   "note": "REFUTED as stated: a bluespot with one threshold cell but two cells flowing to it gets different pour points. Proved: same record when one cell of the bluespot drains out; labels and watersheds never depend on the rule."
  },
  {
   "property": "C71",
   "status": "partial",
   "theorems": [
    "C71_open_holes_dry_partial",
    "C71_open_holes_unlabelled_partial",
    "C71_enclosed_holes_flooded",
    "C71_enclosed_refuted",
    "C71_compiled_open_refuted"
   ],
   "note": "REFUTED for nodata cells enclosed by terrain (C71_enclosed_refuted; C71_enclosed_holes_flooded: always flooded when the terrain is above -999) and for the compiled version (C71_compiled_open_refuted). Proved for the Python version when the nodata cells reach the edge."
  },
  {
   "property": "C72",
   "status": "partial",
   "theorems": [
    "C72_holes_counted_partial",
    "C72_nodata_refuted"
   ],
   "note": "REFUTED: initvolumes reads the precipitation without nodatasubst, a nodata cell of -9999 gives a negative volume (C72_nodata_refuted). Proved: the exact volume, which is right if and only if the nodata cells of the area add up to 0 (none, for instance)."
  },
  {
   "property": "C73",
   "status": "partial",
   "theorems": [
    "C73_reads_all_written_partial",
    "C73_missing_layer_raises",
    "C73_written_again_refuted",
    "C73_last_rain_counts_partial",
    "C73_pourpts_again_refuted"
   ],
   "note": "REFUTED: writers append, so writing again doubles every layer (C73_written_again_refuted, for all features), and the network command fails after a second pourpts (C73_pourpts_again_refuted). Proved: what a reader gets after any history of writes; finalvolumes after a second initvolumes uses the last volumes. OGR is modelled as a GeoPackage-like database."
  },
  {
   "property": "C74",
   "status": "partial",
   "theorems": [
    "C74_levels_rise_partial",
    "C74_depths_stay",
    "C74_below_zero_refuted"
   ],
   "note": "REFUTED for terrain below zero (C74_below_zero_refuted): int() truncates towards zero, so bins below zero are shifted by one. Proved in exact arithmetic for terrain of which no cell changes sign."
  },
  {
   "property": "C75",
   "status": "partial",
   "theorems": [
    "C75_steps_as_complete_partial",
    "C75_attribute_refuted",
    "C75_no_rain_refuted"
   ],
   "note": "REFUTED for no rain (the step command refuses -mm 0) and for -out_attribute bspot_vol, which overwrites the capacities. Proved for all other inputs: layers and final rasters as the complete command. Exact arithmetic; rain given as a raster is C97."
  },
  {
   "property": "C76",
   "status": "partial",
   "theorems": [
    "C76_valid_partial",
    "C76_counts_and_bounds",
    "C76_rounded_refuted"
   ],
   "note": "REFUTED in rounded arithmetic: one cell at 8192 with bins of 1/200000 fails the seven decimals. Proved in exact arithmetic for every produced hypsometry; number of counts and order of bounds in any arithmetic."
  },
  {
   "property": "C77",
   "status": "partial",
   "theorems": [
    "C77_approx_volume",
    "C77_hyps_volume_partial",
    "C77_hyps_volume_refuted"
   ],
   "note": "REFUTED for hyps.cumulative_volume (not called by the commands): off by the first bin and one bin ahead; its exact value is proved. Proved for approx._cumulative_volume."
  },
  {
   "property": "C78",
   "status": "proved",
   "theorems": [
    "C78_rasters_after_any_history"
   ],
   "note": "Exact arithmetic; kills leave whole layers or empty ones (transactions)."
  },
  {
   "property": "C79",
   "status": "partial",
   "theorems": [
    "C79_layers_after_any_history_partial",
    "C79_doubled_refuted",
    "C79_empty_refuted"
   ],
   "note": "Proved: layers hold only whole copies of the right features. REFUTED: exactly one copy (killed and repeated network doubles the nodes; an interrupted network leaves an empty layer on which later commands succeed)."
  },
  {
   "property": "C80",
   "status": "proved",
   "theorems": [
    "C80_pour_point_accuracy",
    "C80_exact_refuted"
   ],
   "note": "Relative error bounds for the computed attributes; that the volume is not always exact is C80_exact_refuted (not part of the claim)."
  },
  {
   "property": "C81",
   "status": "proved",
   "theorems": [
    "C81_final_state_accuracy"
   ],
   "note": "Error bound against exact arithmetic, summed over exactly the upstream nodes."
  },
  {
   "property": "C82",
   "status": "proved",
   "theorems": [
    "C82_complete_accuracy",
    "C82_balance_exact_refuted",
    "C82_no_overflow"
   ],
   "note": "Binary64 throughout, relative to PipelineModel on the same inputs; numbers stored as Real in OGR layers are kept. Exact balance is refuted (C82_balance_exact_refuted)."
  },
  {
   "property": "C83",
   "status": "proved",
   "theorems": [
    "C83_complete_directory",
    "C83_killed_directory",
    "C83_final_depths_last"
   ],
   "note": "Whole runs, killed runs, and order of the last files. Values of volumes, levels and final depths in exact arithmetic as in C63-C66; polygons are a parameter; a kill leaves the output being written torn (raster) or without new features (layer)."
  },
  {
   "property": "C84",
   "status": "proved",
   "theorems": [
    "C84_other_files_safe",
    "C84_never_mixed"
   ],
   "note": "Any sequence of whole, killed and raising runs with any options."
  },
  {
   "property": "C85",
   "status": "proved",
   "theorems": [
    "C85_steps_finish_killed_run"
   ],
   "note": "Builds on C78; exact arithmetic; rain other than 0."
  },
  {
   "property": "C86",
   "status": "proved",
   "theorems": [
    "C86_floats_complete"
   ],
   "note": "All finite float32 terrains of sane size, both code variants; np.histogram with the float32 edges of numpy 1.x."
  },
  {
   "property": "C87",
   "status": "partial",
   "theorems": [
    "C87_dry_refuted",
    "C87_dyadic_partial",
    "C87_away_partial"
   ],
   "note": "REFUTED by C87_dry_refuted: zresolution 0.1 and a lowest cell at float32 0.7 leave the first bin of the histogram empty, and a bluespot without water gets 5 cm. Proved for terrain that is nowhere below zero and a resolution that is a power of two (C87_dyadic_partial) or a lowest cell away from the multiples of the resolution (C87_away_partial)."
  },
  {
   "property": "C88",
   "status": "proved",
   "theorems": [
    "C88_every_cell_counted"
   ],
   "note": "Float32 terrains, both code variants. Terrain below zero is the subject of C41_negative_refuted and excluded by the statement."
  },
  {
   "property": "C89",
   "status": "proved",
   "theorems": [
    "C89_levels_below"
   ],
   "note": "Float32 terrains nowhere below zero. The bounds on all cells and on the depths are for the code without speedups, whose fill is flat within a bluespot."
  },
  {
   "property": "C90",
   "status": "proved",
   "theorems": [
    "C90_streams_drawn"
   ],
   "note": ""
  },
  {
   "property": "C91",
   "status": "partial",
   "theorems": [
    "C91_background_refuted",
    "C91_others_partial"
   ],
   "note": "REFUTED: the stream of the background (node 0) has one point on every terrain; all other streams have at least two"
  },
  {
   "property": "C92",
   "status": "proved",
   "theorems": [
    "C92_filter_meaning",
    "C92_filter_selects"
   ],
   "note": "eval is modelled for the documented expressions; every comparison has a property on one side, integers are at most 2^53"
  },
  {
   "property": "C93",
   "status": "partial",
   "theorems": [
    "C93_stricter_filter",
    "C93_higher_threshold",
    "C93_threshold_real_partial",
    "C93_threshold_real_refuted"
   ],
   "note": "monotonicity proved; REFUTED that the comparison is that of the real numbers when the figure is the double closest to a threshold that is no double; proved otherwise"
  },
  {
   "property": "C94",
   "status": "proved",
   "theorems": [
    "C94_bluespot_polygons",
    "C94_watershed_polygons",
    "C94_polygons_exist"
   ],
   "note": "polygons by the contract of gdal.Polygonize; a polygonization exists for every raster of ids"
  },
  {
   "property": "C95",
   "status": "partial",
   "theorems": [
    "C95_final_split_refuted",
    "C95_final_inside_partial",
    "C95_final_full_partial"
   ],
   "note": "REFUTED that there is one polygon: a bluespot with two hollows gives two while it is not full; proved that a full bluespot has one, equal to its bluespot polygon, that final polygons lie in the polygon of their bluespot and that they cover the cells under water (at or above -999)"
  },
  {
   "property": "C96",
   "status": "proved",
   "theorems": [
    "C96_layers_join"
   ],
   "note": "on the datasource as read back; polygons by the contract of gdal.Polygonize"
  },
  {
   "property": "C97",
   "status": "proved",
   "theorems": [
    "C97_raster_rain_chain",
    "C97_raster_refused"
   ],
   "note": "initvolumes -pr in the chain of commands: volumes, balance, levels and rasters; refused calls"
  },
  {
   "property": "C98",
   "status": "partial",
   "theorems": [
    "C98_fill_turned",
    "C98_no_flats_turned",
    "C98_fill_converted",
    "C98_chain_turned_partial",
    "C98_ties_refuted",
    "C98_compiled_refuted"
   ],
   "note": "REFUTED for directions and watersheds on terrain with ties (C98_ties_refuted) and for the compiled filling (C98_compiled_refuted). Proved for the Python functions: filled terrain, surface, depths and bluespots turn with the terrain; directions, accumulated flow and watersheds too when every inner cell has one steepest way down; filling commutes with monotone conversions."
  },
  {
   "property": "C99",
   "status": "partial",
   "theorems": [
    "C99_limit_exact",
    "C99_chain_room",
    "C99_room_enough",
    "C99_any_size_refuted"
   ],
   "note": "REFUTED as first stated: for every recursion limit there is a network that exceeds it (C99_any_size_refuted, for all limits, one bluespot more than fits). Proved: the exact condition (C99_limit_exact, any input) and that the number of bluespots bounds what is needed (C99_room_enough, C99_chain_room). Room is counted in nested calls of _untangle; the frames of its callers and helpers are not modelled. For any limit the failing input is a pair of rasters; a terrain that fails is given for a limit of two."
  },
  {
   "property": "C100",
   "status": "proved",
   "theorems": [
    "C100_initvolumes",
    "C100_finalvolumes",
    "C100_hyps",
    "C100_finallevels",
    "C100_finalbluespots",
    "C100_finalvolumes_float_refuted"
   ],
   "note": "finalvolumes in exact arithmetic; in binary64 the order of the sums shows (C100_finalvolumes_float_refuted)."
  },
  {
   "property": "C101",
   "status": "partial",
   "theorems": [
    "C101_network_refuted",
    "C101_network_features"
   ],
   "note": "REFUTED: C101_network_refuted - StreamTool passes the cells of the features, so that the position in the layer takes the place of bspot_id; with two pour points exchanged the commands run and a dry bluespot is drawn under 5 m of water. pourpoint_network on the features themselves, which its _pourpoint_enumerator supports, does not depend on the order (C101_network_features)."
  },
  {
   "property": "C102",
   "status": "proved",
   "theorems": [
    "C102_upstream_change",
    "C102_upstream_marked",
    "C102_elsewhere",
    "C102_total_change",
    "C102_complete_change"
   ],
   "note": "exact arithmetic; the complete command for rain given as a depth"
  },
  {
   "property": "C103",
   "status": "proved",
   "theorems": [
    "C103_cell_size",
    "C103_fixed_filter_refuted"
   ],
   "note": "For the exact (Q) volumes of the complete command; C103_fixed_filter_refuted shows that the hypothesis on the filter is needed."
  },
  {
   "property": "C104",
   "status": "proved",
   "theorems": [
    "C104_largest_surplus",
    "C104_worse_input",
    "C104_worse_input_rounded",
    "C104_convex",
    "C104_complete"
   ],
   "note": "Closed form, convexity and the complete command in exact arithmetic; monotonicity in rain and capacity also in binary64."
  },
  {
   "property": "C105",
   "status": "proved",
   "theorems": [
    "C105_rain_adds",
    "C105_more_rain",
    "C105_units_convert",
    "C105_rounded_refuted"
   ],
   "note": "Exact arithmetic; in binary64 linearity is refuted (C105_rounded_refuted)."
  },
  {
   "property": "C106",
   "status": "proved",
   "theorems": [
    "C106_stricter_filter_enlarges",
    "C106_dropped_whole_refuted",
    "C106_runoff_refuted"
   ],
   "note": "C106_dropped_whole_refuted shows what does not hold for the dropped bluespots."
  },
  {
   "property": "C107",
   "status": "partial",
   "theorems": [
    "C107_fill",
    "C107_no_flats",
    "C107_directions",
    "C107_depths",
    "C107_compiled_refuted"
   ],
   "note": "REFUTED with speedups (C107_compiled_refuted). Proved for the Python functions in C107_fill, C107_no_flats, C107_directions and C107_depths; without flats and for directions with the same increments in both runs."
  },
  {
   "property": "C108",
   "status": "proved",
   "theorems": [
    "C108_cut",
    "C108_dry_edge",
    "C108_accum",
    "C108_watersheds"
   ],
   "note": "C108_dry_edge (parts of a terrain) is for filling in pure Python with the same increments; the other theorems hold for any directions, with and without speedups (compiled watersheds by C18_watersheds_compiled_same)."
  },
  {
   "property": "C109",
   "status": "partial",
   "theorems": [
    "C109_fill",
    "C109_deep_water",
    "C109_directions_refuted",
    "C109_compiled_refuted"
   ],
   "note": "REFUTED with speedups (C109_compiled_refuted) and for flow directions (C109_directions_refuted). Proved for the filled surface and deep water of the Python functions (C109_fill, C109_deep_water)."
  },
  {
   "property": "C110",
   "status": "proved",
   "theorems": [
    "C110_saved",
    "C110_volumes",
    "C110_together"
   ],
   "note": "Exact arithmetic."
  },
  {
   "property": "C111",
   "status": "partial",
   "theorems": [
    "C111_depths",
    "C111_level_kept",
    "C111_compiled_refuted"
   ],
   "note": "REFUTED with speedups (C111_compiled_refuted). Proved for the Python functions (C111_depths, C111_level_kept)."
  },
  {
   "property": "C112",
   "status": "proved",
   "theorems": [
    "C112_fill",
    "C112_no_flats",
    "C112_depths"
   ],
   "note": "Same increments for filling without flats; DemTool derives them from the extreme heights."
  },
  {
   "property": "C113",
   "status": "partial",
   "theorems": [
    "C113_two_rains",
    "C113_many_rains",
    "C113_times",
    "C113_volumes_refuted"
   ],
   "note": "REFUTED for volumes (C113_volumes_refuted). Proved for rains in a row (C113_two_rains, C113_many_rains) and for spills (C113_times), in exact arithmetic."
  }
 ]
}