{
 "C05": [
  "partial",
  "REFUTED for float64 DEMs: C05_float64_refuted gives a finite 3x3 float64 DEM on which the loop never ends (the float32 store rounds the value, so the cell reports a change for ever). Proved for float32 representable elevations."
 ],
 "C06": [
  "partial",
  "REFUTED: the compiled sweeps leave out the last row and column of their range and the loop stops at the first sweep without change; C06_speedups_differ_refuted and C06_no_flats_differ_refuted are 4x4 witnesses; three-row rasters raise ValueError."
 ],
 "C38": [
  "partial",
  "REFUTED as stated: a node with a dangling downstream reference (C38_dangling_refuted) or on a cycle (C38_cycle_refuted) is written without final values, and of several features with one id only the last is written. Proved: in a closed acyclic network with distinct ids every node is written (C38_all_written), and in general exactly which nodes are left out (C38_skipped_exactly)."
 ],
 "C36": [
  "proved",
  "The percentage bound holds in exact arithmetic; C36_percentage_rounded_refuted shows a float capacity for which the stored percentage exceeds 100 by one unit in the last place."
 ],
 "C17": [
  "partial",
  "REFUTED: C17_nodir_raises_refuted; moreover C17_nodir_never_returns: one cell without direction anywhere in a raster with valid codes and accumulated_flow never returns a raster."
 ],
 "C12": [
  "proved",
  "Up to 2^50 columns (pure Python; rows with speedups). Speedups: from 4x4 cells (smaller rasters raise ValueError, see C06)."
 ],
 "C55": [
  "partial",
  "REFUTED: C55_compiled_directions_refuted is a 3x3 witness (division by sqrt 2 against multiplication by its rounded inverse). C10_steepest_compiled says what the compiled version does guarantee."
 ],
 "C23": [
  "partial",
  "REFUTED for other backgrounds: C23_background_refuted (the compiled loops compare with 0), and for nlabels=0: C23_nlabels_zero_refuted. Proved for background 0: C23_label_data_compiled_zero."
 ],
 "C25": [
  "partial",
  "REFUTED: C25_rejected_capacity_refuted: all depths that carry no label are summed into the node written for label 0. C25_own_cells_only_partial: the record of label l is computed from the cells of that label only, so no other node is affected."
 ],
 "C26": [
  "partial",
  "Proved for the pure Python functions; REFUTED with speedups (C26_compiled_step_refuted, a 4x4 terrain). Sign and edge of the depths hold with and without speedups (C26_depths)."
 ],
 "C27": [
  "proved",
  "The accumulated flow rule up to 2^53 cells (the raster is float64)."
 ],
 "C54": [
  "partial",
  "REFUTED: C54_no_filter_refuted: UnboundLocalError for every valid input."
 ],
 "C28": [
  "proved",
  "Tool chain with both pour point rules, and each rule for any labelling numbered 1..n."
 ],
 "C29": [
  "proved",
  "Any labelling with interior labels; the tool chain meets the hypotheses (C29_chain_points). StreamTool passes background_label=0."
 ],
 "C30": [
  "proved",
  ""
 ],
 "C31": [
  "proved",
  "For pour points meeting pourpoints_ok (background pour point flows directly off), which C29_chain_points proves of the tool chain. Python's recursion limit is not modelled."
 ],
 "C32": [
  "proved",
  ""
 ],
 "C33": [
  "proved",
  "Exact arithmetic; any water and capacities."
 ],
 "C39": [
  "proved",
  "StreamTool.process and SimpleVolumeTool.process in exact arithmetic on the output of the modelled DemTool/BluespotTool chain: volumes add up to cells x cell area x mm/1000, each node gets its watershed's share, junctions 0; with or without junction insertion."
 ],
 "C40": [
  "partial",
  "REFUTED: RasterVolumeTool sums over the bluespot raster, not over watersheds (C40_raster_rain_refuted). Proved: each node gets exactly the water on the cells carrying its id, and given the watershed raster the tools agree."
 ],
 "C53": [
  "proved",
  "Model of complete.py up to the final volumes; raster decisions in IEEE arithmetic, volume arithmetic exact. Success for every sufficiently large fuel."
 ],
 "C56": [
  "partial",
  "REFUTED for -mm 0: the command tests truthiness, so 0 mm alone is rejected and 0 mm with -pr ignored. Holds for every other rain depth."
 ],
 "C41": [
  "partial",
  "REFUTED for negative elevations (int() truncates towards zero, C41_negative_refuted) and under float rounding (C41_rounding_refuted). C41_histogram_partial: exact arithmetic, complete for non-negative elevations; for any sign the upper bound encloses and at most cells within one bin below the lower bound are lost."
 ],
 "C43": [
  "proved",
  "Exact arithmetic, np.interp by contract; cells non-negative as in the statement."
 ],
 "C44": [
  "proved",
  "Exact arithmetic; existence and uniqueness of the exact level are separate theorems."
 ],
 "C45": [
  "proved",
  "Exact and binary64; totality and the file variant included."
 ],
 "C46": [
  "partial",
  "REFUTED for terrain below -999 (the level given to the background); proved where the terrain is not below -999."
 ],
 "C58": [
  "partial",
  "REFUTED: a flat bluespot 100 m deep and 99 % full gets level zmin instead of 99."
 ],
 "C59": [
  "proved",
  "Soundness for any arithmetic, totality in exact arithmetic."
 ],
 "C47": [
  "partial",
  "REFUTED in part: integers are always stored in a type that represents every value (proved), and write succeeds exactly when a GDAL integer type holds all values; but when none does, UnboundLocalError is raised instead of NotImplementedError (C47_unbound_refuted)."
 ],
 "C48": [
  "partial",
  "REFUTED: a nodata value of 0 is ignored and cells merely close to nodata (within 1e-8 + 1e-5*|nodata|) are replaced too. Proved: with non-zero nodata every equal cell is replaced and only cells within the tolerance are."
 ],
 "C49": [
  "proved",
  "eval itself is not modelled; the theorems are about the text handed to it."
 ],
 "C50": [
  "proved",
  "all call sequences of enable, disable and import of hyps, with and without compiled modules."
 ],
 "C51": [
  "partial",
  "REFUTED for hyps.py, which binds label_stats and label_data by name at import. Proved for lookups through the modules (C50_last_call) and what hyps binds is characterised exactly."
 ],
 "C52": [
  "proved",
  "exact rational arithmetic."
 ],
 "C60": [
  "proved",
  ""
 ],
 "C61": [
  "partial",
  "REFUTED for rotated transforms; proved when transform[2] or transform[4] is 0."
 ],
 "C62": [
  "partial",
  "REFUTED: oarear is accepted."
 ],
 "C63": [
  "proved",
  "Volumes, hypsometry and levels in exact arithmetic; raster decisions on IEEE numbers."
 ],
 "C64": [
  "partial",
  "Proved for the pure Python functions and DEMs whose elevations are non-negative whole multiples (below 2^24) of a power of two, where float32 depths are exact. REFUTED for other DEMs (C64_rounding_refuted), where depths are rounded to float32, and for terrain below zero (C64_below_zero_refuted)."
 ],
 "C65": [
  "partial",
  "REFUTED for terrain below zero (C65_below_zero_refuted) and with the compiled functions (C65_compiled_refuted). Proved for the pure Python functions and DEMs whose elevations are non-negative whole multiples (below 2^24) of a power of two."
 ],
 "C66": [
  "partial",
  "REFUTED for partly filled bluespots (C66_water_lost_refuted). Proved: the raster never holds more than the capacity and the right amount in full and empty bluespots."
 ],
 "C67": [
  "partial",
  "REFUTED: cells of depth 0 at the level are marked (C67_dry_cells_marked_refuted). Proved: cells under water are marked, marked cells belong to the bluespot."
 ],
 "C68": [
  "proved",
  "Exact arithmetic. C68_raster_total: any labelling whose labels each have one node; C68_raster_rain_balance: the nodes of every processed DEM, down to the final state."
 ],
 "C69": [
  "partial",
  "REFUTED as stated: filled levels within 0.01 of -999 are read back as nodata by the depths command; pourpts -dem reads the DEM without nodata substitution; the step commands accept cells that are not square. Proved: exact agreement of all rasters and pour points otherwise, both succeed with enough fuel, no -filter equals the filter that keeps everything."
 ],
 "C70": [
  "partial",
  "REFUTED as stated: a bluespot with one threshold cell but two cells flowing to it gets different pour points. Proved: same record when one cell of the bluespot drains out; labels and watersheds never depend on the rule."
 ],
 "C71": [
  "partial",
  "REFUTED for nodata cells enclosed by terrain (C71_enclosed_refuted; C71_enclosed_holes_flooded: always flooded when the terrain is above -999) and for the compiled version (C71_compiled_open_refuted). Proved for the Python version when the nodata cells reach the edge."
 ],
 "C72": [
  "partial",
  "REFUTED: initvolumes reads the precipitation without nodatasubst, a nodata cell of -9999 gives a negative volume (C72_nodata_refuted). Proved: the exact volume, which is right if and only if the nodata cells of the area add up to 0 (none, for instance)."
 ],
 "C73": [
  "partial",
  "REFUTED: writers append, so writing again doubles every layer (C73_written_again_refuted, for all features), and the network command fails after a second pourpts (C73_pourpts_again_refuted). Proved: what a reader gets after any history of writes; finalvolumes after a second initvolumes uses the last volumes. OGR is modelled as a GeoPackage-like database."
 ],
 "C74": [
  "partial",
  "REFUTED for terrain below zero (C74_below_zero_refuted): int() truncates towards zero, so bins below zero are shifted by one. Proved in exact arithmetic for terrain of which no cell changes sign."
 ],
 "C75": [
  "partial",
  "REFUTED for no rain (the step command refuses -mm 0) and for -out_attribute bspot_vol, which overwrites the capacities. Proved for all other inputs: layers and final rasters as the complete command. Exact arithmetic; rain given as a raster is C97."
 ],
 "C76": [
  "partial",
  "REFUTED in rounded arithmetic: one cell at 8192 with bins of 1/200000 fails the seven decimals. Proved in exact arithmetic for every produced hypsometry; number of counts and order of bounds in any arithmetic."
 ],
 "C77": [
  "partial",
  "REFUTED for hyps.cumulative_volume (not called by the commands): off by the first bin and one bin ahead; its exact value is proved. Proved for approx._cumulative_volume."
 ],
 "C78": [
  "proved",
  "Exact arithmetic; kills leave whole layers or empty ones (transactions)."
 ],
 "C79": [
  "partial",
  "Proved: layers hold only whole copies of the right features. REFUTED: exactly one copy (killed and repeated network doubles the nodes; an interrupted network leaves an empty layer on which later commands succeed)."
 ],
 "C80": [
  "proved",
  "Relative error bounds for the computed attributes; that the volume is not always exact is C80_exact_refuted (not part of the claim)."
 ],
 "C81": [
  "proved",
  "Error bound against exact arithmetic, summed over exactly the upstream nodes."
 ],
 "C82": [
  "proved",
  "Binary64 throughout, relative to PipelineModel on the same inputs; numbers stored as Real in OGR layers are kept. Exact balance is refuted (C82_balance_exact_refuted)."
 ],
 "C83": [
  "proved",
  "Whole runs, killed runs, and order of the last files. Values of volumes, levels and final depths in exact arithmetic as in C63-C66; polygons are a parameter; a kill leaves the output being written torn (raster) or without new features (layer)."
 ],
 "C84": [
  "proved",
  "Any sequence of whole, killed and raising runs with any options."
 ],
 "C85": [
  "proved",
  "Builds on C78; exact arithmetic; rain other than 0."
 ],
 "C86": [
  "proved",
  "All finite float32 terrains of sane size, both code variants; np.histogram with the float32 edges of numpy 1.x."
 ],
 "C87": [
  "partial",
  "REFUTED by C87_dry_refuted: zresolution 0.1 and a lowest cell at float32 0.7 leave the first bin of the histogram empty, and a bluespot without water gets 5 cm. Proved for terrain that is nowhere below zero and a resolution that is a power of two (C87_dyadic_partial) or a lowest cell away from the multiples of the resolution (C87_away_partial)."
 ],
 "C88": [
  "proved",
  "Float32 terrains, both code variants. Terrain below zero is the subject of C41_negative_refuted and excluded by the statement."
 ],
 "C89": [
  "proved",
  "Float32 terrains nowhere below zero. The bounds on all cells and on the depths are for the code without speedups, whose fill is flat within a bluespot."
 ],
 "C90": [
  "proved",
  ""
 ],
 "C91": [
  "partial",
  "REFUTED: the stream of the background (node 0) has one point on every terrain; all other streams have at least two"
 ],
 "C92": [
  "proved",
  "eval is modelled for the documented expressions; every comparison has a property on one side, integers are at most 2^53"
 ],
 "C93": [
  "partial",
  "monotonicity proved; REFUTED that the comparison is that of the real numbers when the figure is the double closest to a threshold that is no double; proved otherwise"
 ],
 "C94": [
  "proved",
  "polygons by the contract of gdal.Polygonize; a polygonization exists for every raster of ids"
 ],
 "C95": [
  "partial",
  "REFUTED that there is one polygon: a bluespot with two hollows gives two while it is not full; proved that a full bluespot has one, equal to its bluespot polygon, that final polygons lie in the polygon of their bluespot and that they cover the cells under water (at or above -999)"
 ],
 "C96": [
  "proved",
  "on the datasource as read back; polygons by the contract of gdal.Polygonize"
 ],
 "C97": [
  "proved",
  "initvolumes -pr in the chain of commands: volumes, balance, levels and rasters; refused calls"
 ],
 "C98": [
  "partial",
  "REFUTED for directions and watersheds on terrain with ties (C98_ties_refuted) and for the compiled filling (C98_compiled_refuted). Proved for the Python functions: filled terrain, surface, depths and bluespots turn with the terrain; directions, accumulated flow and watersheds too when every inner cell has one steepest way down; filling commutes with monotone conversions."
 ],
 "C99": [
  "partial",
  "REFUTED as first stated: for every recursion limit there is a network that exceeds it (C99_any_size_refuted, for all limits, one bluespot more than fits). Proved: the exact condition (C99_limit_exact, any input) and that the number of bluespots bounds what is needed (C99_room_enough, C99_chain_room). Room is counted in nested calls of _untangle; the frames of its callers and helpers are not modelled. For any limit the failing input is a pair of rasters; a terrain that fails is given for a limit of two."
 ],
 "C101": [
  "partial",
  "REFUTED: C101_network_refuted - StreamTool passes the cells of the features, so that the position in the layer takes the place of bspot_id; with two pour points exchanged the commands run and a dry bluespot is drawn under 5 m of water. pourpoint_network on the features themselves, which its _pourpoint_enumerator supports, does not depend on the order (C101_network_features)."
 ],
 "C100": [
  "proved",
  "finalvolumes in exact arithmetic; in binary64 the order of the sums shows (C100_finalvolumes_float_refuted)."
 ],
 "C102": [
  "proved",
  "exact arithmetic; the complete command for rain given as a depth"
 ],
 "C103": [
  "proved",
  "For the exact (Q) volumes of the complete command; C103_fixed_filter_refuted shows that the hypothesis on the filter is needed."
 ],
 "C104": [
  "proved",
  "Closed form, convexity and the complete command in exact arithmetic; monotonicity in rain and capacity also in binary64."
 ],
 "C105": [
  "proved",
  "Exact arithmetic; in binary64 linearity is refuted (C105_rounded_refuted)."
 ],
 "C106": [
  "proved",
  "C106_dropped_whole_refuted shows what does not hold for the dropped bluespots."
 ],
 "C107": [
  "partial",
  "REFUTED with speedups (C107_compiled_refuted). Proved for the Python functions in C107_fill, C107_no_flats, C107_directions and C107_depths; without flats and for directions with the same increments in both runs."
 ],
 "C108": [
  "proved",
  "C108_dry_edge (parts of a terrain) is for filling in pure Python with the same increments; the other theorems hold for any directions, with and without speedups (compiled watersheds by C18_watersheds_compiled_same)."
 ],
 "C109": [
  "partial",
  "REFUTED with speedups (C109_compiled_refuted) and for flow directions (C109_directions_refuted). Proved for the filled surface and deep water of the Python functions (C109_fill, C109_deep_water)."
 ],
 "C110": [
  "proved",
  "Exact arithmetic."
 ],
 "C111": [
  "partial",
  "REFUTED with speedups (C111_compiled_refuted). Proved for the Python functions (C111_depths, C111_level_kept)."
 ],
 "C112": [
  "proved",
  "Same increments for filling without flats; DemTool derives them from the extreme heights."
 ],
 "C113": [
  "partial",
  "REFUTED for volumes (C113_volumes_refuted). Proved for rains in a row (C113_two_rains, C113_many_rains) and for spills (C113_times), in exact arithmetic."
 ]
}