{"id": "C01", "title": "Filling terminates and never lowers the terrain", "statement": "For every NaN-free float32 DEM with at least two rows and two columns, fill_terrain (pure Python) returns; the returned raster is nowhere below the DEM and equals the DEM on every edge cell.", "quantifier": "every raster size >= 2x2, every assignment of non-NaN float32 elevations", "why_tests_cant": "Termination of the while-loop and the pointwise bound must hold for all DEMs; a finite set of DEMs cannot exclude a DEM on which the loop never settles.", "anchors": ["malstroem/algorithms/fill.py:fill_terrain,_fill_terrain,_fill_cell,_initialize_filled"]}
{"id": "C02", "title": "The filled surface is exactly the lowest escape level", "statement": "For every cell c and every level L, the value fill_terrain returns at c is <= L if and only if there is an 8-connected route from c to some edge cell along which the DEM nowhere exceeds L. Hence the filled raster is the least surface that is >= the DEM and depressionless, and does not depend on the sweep order.", "quantifier": "every DEM, every cell, every level, all 8-connected routes", "why_tests_cant": "Quantifies over all routes through the raster (exponentially many) and over all competing surfaces.", "anchors": ["malstroem/algorithms/fill.py:fill_terrain"]}
{"id": "C03", "title": "The filled surface is depressionless", "statement": "From every cell of the raster returned by fill_terrain there is an 8-connected path to an edge cell that never goes uphill.", "quantifier": "every DEM and every start cell; with the pure-Python sweep and with the compiled sweep", "why_tests_cant": "Existence of a drainage path for every cell of every DEM, including ties and plateaus.", "anchors": ["malstroem/algorithms/fill.py:fill_terrain", "malstroem/algorithms/speedups/_fill.pyx:_fill_terrain"]}
{"id": "C04", "title": "Filling is idempotent and monotone", "statement": "Filling an already filled raster changes nothing, and raising some elevations of the DEM never lowers any cell of the filled raster.", "quantifier": "every DEM, every pair of pointwise ordered DEMs", "why_tests_cant": "Relates results on two arbitrary inputs.", "anchors": ["malstroem/algorithms/fill.py:fill_terrain"]}
{"id": "C05", "title": "Filling terminates for float64 DEMs too", "statement": "fill_terrain returns for every 2D array of finite elevations, also when the array is float64 while the filled raster is stored as float32.", "quantifier": "every DEM dtype and value", "why_tests_cant": "Non-termination cannot be observed by a test, and depends on a rounding coincidence.", "anchors": ["malstroem/algorithms/fill.py:fill_terrain,_fill_cell,_initialize_filled", "malstroem/scripts/dem.py:process_filled"]}
{"id": "C06", "title": "Compiled and pure-Python filling agree", "statement": "With speedups enabled fill_terrain and fill_terrain_no_flats return the same raster as with speedups disabled.", "quantifier": "every DEM on which both variants return", "why_tests_cant": "Equality must hold for all DEMs; existing tests compare one DEM only.", "anchors": ["malstroem/algorithms/speedups/_fill.pyx:_fill_terrain,_fill_terrain_no_flats", "malstroem/algorithms/fill.py:_fill_terrain,_fill_terrain_no_flats", "malstroem/algorithms/speedups/__init__.py:enable"]}
{"id": "C07", "title": "Compiled filling is still safe", "statement": "With speedups enabled and at least four rows and columns, fill_terrain returns a raster that is finite where the DEM is, nowhere below the DEM, equal to it on edge cells, depressionless, and nowhere below the pure-Python result.", "quantifier": "every DEM with at least 4 rows and 4 columns", "why_tests_cant": "Needs an invariant of arbitrary many partial sweeps.", "anchors": ["malstroem/algorithms/speedups/_fill.pyx:_fill_terrain", "malstroem/algorithms/fill.py:fill_terrain"]}
{"id": "C08", "title": "No-flats filling gives every cell a strictly downslope path", "statement": "With the values returned by minimum_safe_short_and_diag for the DEM, fill_terrain_no_flats returns, and in the float64 raster it returns every interior cell has an 8-neighbour whose stored value is strictly lower, so from every cell there is a strictly downslope path to an edge cell, in spite of rounding.", "quantifier": "every finite float32 DEM, every raster size that fits in memory, every start cell", "why_tests_cant": "A floating point absorption failure (x+short == x) depends on the magnitude of the DEM and the length of the flow path.", "anchors": ["malstroem/algorithms/fill.py:fill_terrain_no_flats,_fill_cell_no_flats,minimum_safe_short_and_diag"]}
{"id": "C09", "title": "No-flats filling is the cheapest raised route", "statement": "The value fill_terrain_no_flats returns at a cell is the minimum over all 8-connected routes to the edge of the route cost, where the cost of a route is obtained from the edge cell inwards by adding short (or diag on a diagonal step) and taking the maximum with the DEM. It is nowhere below the DEM, nowhere below fill_terrain, equals the DEM on edges, and with short=diag=0 it equals fill_terrain.", "quantifier": "every DEM, every non-negative short and diag, every route", "why_tests_cant": "Quantifies over all routes and all DEMs.", "anchors": ["malstroem/algorithms/fill.py:fill_terrain_no_flats"]}
{"id": "C10", "title": "Flow goes down the steepest slope", "statement": "terrain_flowdirection assigns to each interior cell the first direction in the order up, up-right, right, down-right, down, down-left, left, up-left that attains the largest slope among the eight neighbours (drop, divided by sqrt 2 on diagonals, as computed in float64); it assigns 'no direction' exactly when no neighbour is strictly lower. Water never flows up or level.", "quantifier": "every finite float64 terrain, every interior cell", "why_tests_cant": "Ties, rounding and all 8 neighbour configurations for all terrains.", "anchors": ["malstroem/algorithms/flow.py:_terrain_flow,terrain_flowdirection"]}
{"id": "C11", "title": "Edge cells flow off the raster", "statement": "With edges_flow_outward every edge cell gets a direction that leaves the raster in one step, straight across the edge and diagonally at the corners, and interior cells are unaffected.", "quantifier": "every raster shape with at least one row and column", "why_tests_cant": "All shapes including one-row and one-column rasters and corners.", "anchors": ["malstroem/algorithms/flow.py:set_edges_flow_outward,terrain_flowdirection"]}
{"id": "C12", "title": "Every cell of a processed DEM drains off the raster", "statement": "For every finite float32 DEM with at least 3 rows and columns, following the flow directions computed by DemTool from any cell visits each cell at most once, strictly descends in the no-flats surface and leaves the raster after finitely many steps; trace_downstream therefore ends and never meets 'no direction'.", "quantifier": "every DEM, every start cell", "why_tests_cant": "Acyclicity of the flow graph for all DEMs.", "anchors": ["malstroem/dem.py:DemTool.process", "malstroem/algorithms/flow.py:terrain_flowdirection,trace_downstream", "malstroem/algorithms/fill.py:fill_terrain_no_flats"]}
{"id": "C13", "title": "Upstream and downstream are converse", "statement": "upstream_cells(c) lists exactly the raster cells whose flow direction points to c, each exactly once.", "quantifier": "every flow direction raster with codes 0..8, every cell", "why_tests_cant": "All 9^n direction rasters.", "anchors": ["malstroem/algorithms/flow.py:upstream_cells,is_upstream_cell,cell_in_direction,direction_to_delta"]}
{"id": "C14", "title": "Accumulated flow counts the upstream cells", "statement": "On a flow direction raster that drains off the raster everywhere, accumulated_flow returns and stores at each cell the number of cells whose downstream trace passes through it, itself included; the values over the cells that flow off the raster add up to the number of cells.", "quantifier": "every fully draining flow direction raster of every size", "why_tests_cant": "The result depends on the interleaving of traces over arbitrary trees.", "anchors": ["malstroem/algorithms/flow.py:accumulated_flow,trace_accumulated_flow"]}
{"id": "C15", "title": "Accumulated flow strictly increases downstream", "statement": "Along a downstream trace the accumulated flow strictly increases.", "quantifier": "every fully draining flow raster, every flow step", "why_tests_cant": "All flow trees.", "anchors": ["malstroem/algorithms/flow.py:accumulated_flow"]}
{"id": "C16", "title": "Compiled accumulated flow agrees", "statement": "The compiled accumulated_flow returns the same raster as the pure-Python one on every fully draining flow raster.", "quantifier": "every fully draining flow direction raster", "why_tests_cant": "The two programs start traces from different cells; equality for all trees is an induction.", "anchors": ["malstroem/algorithms/speedups/_flow.pyx:accumulated_flow,trace_accumulated_flow_cython", "malstroem/algorithms/flow.py:accumulated_flow"]}
{"id": "C17", "title": "Accumulated flow copes with cells without direction", "statement": "accumulated_flow returns a raster (or leaves unresolved cells at 0) also when the flow raster contains 'no direction' cells.", "quantifier": "every flow direction raster with codes 0..8", "why_tests_cant": "Only the presence of a particular code on a trace triggers it.", "anchors": ["malstroem/algorithms/flow.py:accumulated_flow,trace_accumulated_flow,cell_in_direction"]}
{"id": "C18", "title": "Watersheds follow the first label downstream", "statement": "After watersheds_from_labels every labelled cell keeps its label, and every unlabelled cell carries the first label met on its downstream trace, or stays unlabelled when its trace leaves the raster without meeting a label.", "quantifier": "every fully draining flow raster, every labelling, every cell", "why_tests_cant": "Depends on stack traversal order over arbitrary trees and in-place updates from several edge cells.", "anchors": ["malstroem/algorithms/flow.py:watersheds_from_labels,assign_watersheds_upstream", "malstroem/algorithms/_raster_utils.py:edge_cell_indexes"]}
{"id": "C19", "title": "Edge cell enumeration is complete", "statement": "edge_cell_indexes yields exactly the edge cells of the raster, and for rasters with at least two rows and columns yields each once.", "quantifier": "every shape with at least one row and one column", "why_tests_cant": "All shapes.", "anchors": ["malstroem/algorithms/_raster_utils.py:edge_cell_indexes,cell_in_raster"]}
{"id": "C20", "title": "Label statistics are exact per label", "statement": "label_stats returns for each label 0..nlabels the number of its cells, the minimum and maximum of the data over its cells (+inf/-inf when it has none) and the left-to-right raster-order sum of the data over its cells; counts over all labels add up to the number of cells.", "quantifier": "every data raster, every non-negative labelling, every label", "why_tests_cant": "All rasters and labellings.", "anchors": ["malstroem/algorithms/label.py:label_stats", "malstroem/algorithms/speedups/_label.pyx:label_stats"]}
{"id": "C21", "title": "Extreme cell per label", "statement": "label_min_index (label_max_index) returns for each label the first cell in raster order at which the data attains its minimum (maximum) over that label, and (-1,-1) for a label without cells.", "quantifier": "every data raster without NaN/infinite extremes, every labelling, every label", "why_tests_cant": "All rasters, labellings and ties.", "anchors": ["malstroem/algorithms/label.py:label_min_index,label_max_index", "malstroem/algorithms/speedups/_label.pyx:label_min_index"]}
{"id": "C22", "title": "Label data partitions the raster", "statement": "label_data returns for each non-background label the data of its cells in raster order, so that together with the background cells every cell is accounted for exactly once; label_count counts the cells of each label.", "quantifier": "every raster and labelling", "why_tests_cant": "All rasters and labellings.", "anchors": ["malstroem/algorithms/label.py:label_data,label_count"]}
{"id": "C23", "title": "Compiled label_data agrees", "statement": "With speedups enabled label_data returns the same lists as with speedups disabled, for every background label.", "quantifier": "every raster, labelling and background argument", "why_tests_cant": "The default background hides the difference.", "anchors": ["malstroem/algorithms/speedups/_label.pyx:label_data", "malstroem/algorithms/label.py:label_data"]}
{"id": "C24", "title": "Filtering keeps exactly the passing bluespots", "statement": "The bluespots BluespotTool writes are exactly those 8-connected components of non-zero depth whose statistics (area and volume in metric units) pass the filter function: a cell is labelled iff its raw bluespot passes, two cells share a final label iff they shared a raw label, and labels are numbered 1..n.", "quantifier": "every depth raster, every filter function, every correct connected-component labelling", "why_tests_cant": "All component shapes and adjacencies, all predicates.", "anchors": ["malstroem/bluespots.py:filterbluespots,BluespotTool.process", "malstroem/algorithms/label.py:keep_labels,connected_components,label_stats"]}
{"id": "C25", "title": "Filtered-out bluespots are ignored", "statement": "Bluespots that do not pass the filter do not contribute capacity to any node of the network.", "quantifier": "every depth raster and filter", "why_tests_cant": "Needs looking at the background record for all rasters.", "anchors": ["malstroem/bluespots.py:BluespotTool.process,assemble_pourpoints", "malstroem/scripts/bluespot.py"]}
{"id": "C26", "title": "A bluespot is full to a level water table", "statement": "All cells of one bluespot (8-connected component of positive depth) have the same filled elevation, so lowest terrain plus largest depth is the spill level; depths are never negative and zero on edge cells.", "quantifier": "every DEM, every bluespot", "why_tests_cant": "Property of the global minimax surface on every connected component.", "anchors": ["malstroem/algorithms/fill.py:fill_terrain", "malstroem/dem.py:DemTool.process"]}
{"id": "C27", "title": "Water leaves the bluespot at its pour point", "statement": "For both pour point rules (lowest cell of the no-flats surface, highest accumulated flow) the cell downstream of a bluespot's pour point is outside the bluespot, and the downstream trace never comes back to that bluespot.", "quantifier": "every DEM, every labelling of its cells, every label", "why_tests_cant": "Relates fill, flow direction and argmin over arbitrary regions.", "anchors": ["malstroem/bluespots.py:BluespotTool.process", "malstroem/algorithms/label.py:label_min_index,label_max_index"]}
{"id": "C28", "title": "The bluespot network is acyclic and closed", "statement": "Every bluespot's downstream node, when it has one, is another bluespot of the network, and following downstream nodes always ends at a node without downstream node; there are no cycles.", "quantifier": "every DEM, every labelling with labels 1..n, both pour point rules", "why_tests_cant": "Global acyclicity for all DEMs.", "anchors": ["malstroem/algorithms/net.py:pourpoint_network,next_downstream_label", "malstroem/bluespots.py:BluespotTool.process"]}
{"id": "C29", "title": "The background node stands alone", "statement": "The pour point record written for label 0 (background) lies on the raster edge, has no downstream node, and no bluespot has it as its downstream node.", "quantifier": "every DEM, every labelling whose labelled cells are interior", "why_tests_cant": "Argmin over the complement of all bluespots for all DEMs.", "anchors": ["malstroem/bluespots.py:assemble_pourpoints", "malstroem/algorithms/net.py:next_downstream_label", "malstroem/streams.py:StreamTool.process"]}
{"id": "C30", "title": "Next downstream label is the first foreign label on the trace", "statement": "next_downstream_label returns the label of the first cell on the downstream trace whose label differs from the start label and from the background, together with the trace up to and including that cell; or None and the whole trace when there is none.", "quantifier": "every flow raster whose trace from the cell ends, every labelling, every cell", "why_tests_cant": "All traces and labellings.", "anchors": ["malstroem/algorithms/net.py:next_downstream_label"]}
{"id": "C31", "title": "Junction insertion preserves the network", "statement": "geometric_pourpoint_network returns without exception; it contains each pour point exactly once plus junctions, all ids are distinct, each junction id is larger than every label, each stream starts at its node's cell and, when its downstream node is a junction, ends at that junction's cell; following downstream nodes through junctions from a pour point leads to the same downstream bluespot as pourpoint_network, along the same cells.", "quantifier": "every fully draining flow raster, every labelling and pour points lying in their bluespots and flowing out of them", "why_tests_cant": "Recursion over arbitrary merging trees.", "anchors": ["malstroem/algorithms/net.py:geometric_pourpoint_network,_untangle,_prune_common_flow,_split_into_common_flow_groups"]}
{"id": "C32", "title": "Streams do not run in parallel after junction insertion", "statement": "In the result of geometric_pourpoint_network every step between two consecutive cells of a stream belongs to exactly one stream.", "quantifier": "every network as above", "why_tests_cant": "Global property of the recursion result.", "anchors": ["malstroem/algorithms/net.py:geometric_pourpoint_network"]}
{"id": "C33", "title": "Junctions are transparent", "statement": "The final water volume and spill of every bluespot are the same whether the network was built with or without junctions.", "quantifier": "every network, every initial volumes", "why_tests_cant": "Equivalence of two recursions over arbitrary trees.", "anchors": ["malstroem/algorithms/net.py:geometric_pourpoint_network,pourpoint_network", "malstroem/network.py:Network.rain_event"]}
{"id": "C34", "title": "Water is conserved", "statement": "For every acyclic closed network (exact arithmetic) the initial volumes over all nodes equal the final volumes over all nodes plus the spill leaving the network at nodes without downstream node. With binary64 numbers the difference is at most 2^-52 times, summed over the nodes, one plus the number of direct upstream nodes times the water at the node.", "quantifier": "every network size and topology, all volumes and capacities", "why_tests_cant": "All forests.", "anchors": ["malstroem/network.py:Network.rain_event,FinalStateCalculator.process"]}
{"id": "C35", "title": "Every node is settled by the local balance", "statement": "rain_event returns exactly one event per node; its final volume is min(total, capacity) and its spill max(0, total-capacity), where total is its initial volume plus the spill of exactly the nodes directly upstream. These equations have a unique solution, so the outcome is independent of the order in which nodes are supplied.", "quantifier": "every acyclic closed network, every supply order", "why_tests_cant": "All topologies and permutations.", "anchors": ["malstroem/network.py:Network"]}
{"id": "C36", "title": "Bluespots never overfill and spill only when full", "statement": "With non-negative initial volumes and capacities: 0 <= volume <= capacity, spill >= 0, spill > 0 only when the bluespot is full, percentage within 0..100 and absent exactly when capacity is zero. The volume bounds and the spill rule also hold with IEEE rounding.", "quantifier": "every network, all volumes", "why_tests_cant": "All networks and magnitudes.", "anchors": ["malstroem/network.py:Network._calc_node"]}
{"id": "C37", "title": "More rain never means less water", "statement": "Increasing initial volumes never decreases the volume or the spill of any node. This holds in exact arithmetic and with binary64 rounding.", "quantifier": "every network, every pair of ordered volume assignments", "why_tests_cant": "Relational property over two executions.", "anchors": ["malstroem/network.py:Network.rain_event"]}
{"id": "C38", "title": "No node is silently skipped", "statement": "FinalStateCalculator writes final volumes for every input node.", "quantifier": "every list of nodes", "why_tests_cant": "Depends on dangling downstream references or cycles in the input.", "anchors": ["malstroem/network.py:FinalStateCalculator.process,Network.rain_event"]}
{"id": "C39", "title": "Rain volumes add up to rain on the raster", "statement": "SimpleVolumeTool's volumes over all nodes of a processed DEM add up to number of cells x cell area x mm/1000, and each node's volume is its watershed's share.", "quantifier": "every DEM, filter, rain depth (exact arithmetic)", "why_tests_cant": "Sum over arbitrary watershed partitions.", "anchors": ["malstroem/rain.py:SimpleVolumeTool.process", "malstroem/bluespots.py:assemble_pourpoints", "malstroem/streams.py:StreamTool.process"]}
{"id": "C40", "title": "Raster rain equals uniform rain", "statement": "A precipitation raster with constant x mm gives each node the same initial volume as -mm x.", "quantifier": "every labelling and x", "why_tests_cant": "Depends on which cells are summed for each node.", "anchors": ["malstroem/rain.py:RasterVolumeTool.process,SimpleVolumeTool.process", "malstroem/scripts/initvolume.py"]}
{"id": "C41", "title": "The elevation histogram accounts for every cell", "statement": "For each bluespot the histogram counts of bluespot_hypsometry_stats add up to the number of its cells; the bounds enclose [zmin,zmax].", "quantifier": "every set of elevations and every resolution > 0", "why_tests_cant": "Depends on sign of elevations and on rounding of the bounds.", "anchors": ["malstroem/hyps.py:histogram_bins,bluespot_hypsometry_stats"]}
{"id": "C42", "title": "Hypsometry survives serialisation", "statement": "hypsometrystats_from_flatdict(_hypsometrystats_to_flatdict(h)) gives back h for every h produced by bluespot_hypsometry_stats.", "quantifier": "every histogram", "why_tests_cant": "All count lists and decimal representations.", "anchors": ["malstroem/hyps.py:_hypsometrystats_to_flatdict,hypsometrystats_from_flatdict"]}
{"id": "C43", "title": "Approximate water level is sane", "statement": "For a bluespot of non-negative elevations (exact arithmetic) the approximate water level lies between the lowest terrain and the spill level, equals the spill level when the bluespot is full, equals zmin when it is empty, and never decreases when the volume increases.", "quantifier": "every bluespot, every resolution > 0, every volume", "why_tests_cant": "All histograms and volumes.", "anchors": ["malstroem/approx.py:approx_water_level_io,_cumulative_volume,_bin_waterlevel_z"]}
{"id": "C44", "title": "Approximate water level is within two bins of the exact one", "statement": "For volumes up to the cumulative volume of the second to last bin, and not above 99.99 % of the capacity (above that the code answers the spill level), the approximate level differs from the exact level holding that volume by at most two histogram bins.", "quantifier": "every bluespot of non-negative elevations, every resolution > 0, every such volume (exact arithmetic)", "why_tests_cant": "Error bound over all terrain shapes.", "anchors": ["malstroem/approx.py:approx_water_level_io"]}
{"id": "C45", "title": "Approximate depths and extents", "statement": "approx_bluespots returns depth max(0, level - terrain) in every labelled cell, keeps a label exactly where the level is not below the terrain, and never extends a bluespot.", "quantifier": "every label raster, level map and DEM", "why_tests_cant": "All rasters.", "anchors": ["malstroem/approx.py:approx_bluespots,approx_bluespots_io,_labelvaluedict_to_list", "malstroem/algorithms/label.py:set_label_to_value"]}
{"id": "C46", "title": "Approximate depth is zero off the bluespots", "statement": "approx_bluespots returns depth 0 on every background cell.", "quantifier": "every DEM", "why_tests_cant": "Depends on a magic level (-999) being below all terrain.", "anchors": ["malstroem/approx.py:approx_bluespots,_labelvaluedict_to_list"]}
{"id": "C47", "title": "Raster writer preserves integer values", "statement": "RasterWriter.write stores integer data in a type that represents every value, or raises NotImplementedError.", "quantifier": "every integer dtype and value range", "why_tests_cant": "All value ranges at type boundaries.", "anchors": ["malstroem/io.py:RasterWriter.write"]}
{"id": "C48", "title": "Nodata cells are substituted", "statement": "RasterReader.read replaces exactly the cells equal to the nodata value by nodatasubst.", "quantifier": "every raster, every nodata value", "why_tests_cant": "Depends on particular nodata values.", "anchors": ["malstroem/io.py:RasterReader.read"]}
{"id": "C49", "title": "Filter expressions are confined", "statement": "parse_filter passes to eval only strings made of the characters of the allowed words and symbols plus whitespace; every expression made of the documented words, numbers, comparison symbols and parentheses separated by blanks is accepted.", "quantifier": "every string", "why_tests_cant": "All strings.", "anchors": ["malstroem/scripts/_utils.py:check_filter,parse_filter"]}
{"id": "C50", "title": "Speedups can be switched on and off", "statement": "After any sequence of enable() and disable() all nine switched functions are either all compiled (after enable) or all original (after disable), and the enabled flag says which.", "quantifier": "every call sequence", "why_tests_cant": "All histories.", "anchors": ["malstroem/algorithms/speedups/__init__.py:enable,disable"]}
{"id": "C51", "title": "Disabling speedups affects every tool", "statement": "After disable() no malstroem tool uses compiled label functions.", "quantifier": "every call sequence", "why_tests_cant": "Depends on import-time binding.", "anchors": ["malstroem/algorithms/speedups/__init__.py:disable", "malstroem/hyps.py:label_stats,label_data"]}
{"id": "C52", "title": "Cell to world transform is the cell centre and injective", "statement": "transform_cell_to_world returns the affine image of the cell centre; different cells get different coordinates whenever the transform is invertible.", "quantifier": "every transform, every pair of cells (exact arithmetic)", "why_tests_cant": "All transforms.", "anchors": ["malstroem/vector.py:transform_cell_to_world"]}
{"id": "C53", "title": "End to end water balance", "statement": "For every finite float32 DEM, any filter and any rain depth, the network built by the tools is acyclic and closed and the final volumes plus spill leaving the raster equal the rain on the raster (exact volume arithmetic).", "quantifier": "every DEM, filter, rain depth, both pour point rules", "why_tests_cant": "Composition of all steps over all DEMs.", "anchors": ["malstroem/scripts/complete.py:process_all", "malstroem/network.py", "malstroem/rain.py", "malstroem/bluespots.py", "malstroem/streams.py", "malstroem/dem.py"]}
{"id": "C54", "title": "Bluespot processing works without a filter", "statement": "BluespotTool.process succeeds when no filter function is given.", "quantifier": "every depth raster", "why_tests_cant": "A code path that no test exercises.", "anchors": ["malstroem/bluespots.py:BluespotTool.process"]}
{"id": "C55", "title": "Compiled flow directions agree", "statement": "With speedups enabled terrain_flowdirection returns the same directions as with speedups disabled.", "quantifier": "every finite float64 terrain", "why_tests_cant": "The two programs differ only by rounding of diagonal slopes (division by sqrt 2 against multiplication by its rounded inverse), which matters only at near-ties.", "anchors": ["malstroem/algorithms/flow.py:_terrain_flow", "malstroem/algorithms/speedups/_flow.pyx:terrain_flow"]}
{"id": "C56", "title": "Exactly one rain source", "statement": "The initvolumes command accepts its options iff exactly one of -mm and -pr (with -bluespots) is given, and then uses that one.", "quantifier": "every rain depth including 0, every combination of options", "why_tests_cant": "All option values; the command tests truthiness of a number.", "anchors": ["malstroem/scripts/initvolume.py:process_volumes"]}
{"id": "C57", "title": "Every bluespot gets its own histogram", "statement": "When bluespot_hypsometry_io finishes, the pour points are unchanged in number and order, every label 0..max has a pour point, and each pour point carries the cell area and the serialised histogram of the bluespot with its own bspot_id; it does finish whenever the shapes agree, the resolution is positive, the bspot_ids are exactly 0..max and the histograms can be computed.", "quantifier": "every label raster, DEM, order of pour points", "why_tests_cant": "All orders of features and label sets; missing pour points.", "anchors": ["malstroem/hyps.py:bluespot_hypsometry_io"]}
{"id": "C58", "title": "Approximate water level is within two bins for every volume", "statement": "The approximate level differs from the exact level by at most two histogram bins for every volume, also when the water stands above the highest cell of the bluespot.", "quantifier": "every bluespot of non-negative elevations, every resolution > 0, every volume", "why_tests_cant": "Needs a bluespot whose spill level is far above its highest cell.", "anchors": ["malstroem/approx.py:approx_water_level_io"]}
{"id": "C59", "title": "Each pour point gets the level of its own bluespot", "statement": "approx_water_level_io writes exactly the pour points, in order, with unchanged ids and volumes; each level is computed from the hypsometry with the same bspot_id and approx_dmax is the level minus zmin; it succeeds when every pour point has a hypsometry.", "quantifier": "every list of final states and hypsometry features with distinct ids", "why_tests_cant": "All joins of two feature files.", "anchors": ["malstroem/approx.py:approx_water_level_io"]}
{"id": "C60", "title": "Raster writer keeps float values", "statement": "RasterWriter.write stores every float array (float16, float32, float64) in a type that represents every value exactly and never fails on a non-empty float array; bool arrays are written as 0 and 1.", "quantifier": "every float dtype and every array of values, including NaN and infinities", "why_tests_cant": "All values; a narrowing cast only shows at particular values.", "anchors": ["malstroem/io.py:RasterWriter.write"]}
{"id": "C61", "title": "Cell area is the area of a cell", "statement": "abs(transform[1]) * abs(transform[5]) equals the area of the world image of one cell, for every geotransform.", "quantifier": "every transform, including rotated ones (exact arithmetic)", "why_tests_cant": "Tests use north-up rasters; the formula fails only for rotated transforms.", "anchors": ["malstroem/bluespots.py:assemble_pourpoints"]}
{"id": "C62", "title": "Accepted filters are words and symbols", "statement": "Every string check_filter accepts is a sequence of allowed words separated by allowed symbols and whitespace.", "quantifier": "every string", "why_tests_cant": "All strings; deleting one word can assemble another.", "anchors": ["malstroem/scripts/_utils.py:check_filter"]}
{"id": "C63", "title": "The complete command reaches the end", "statement": "For every finite float32 DEM of admissible size with square cells, any filter, rain depth and positive z resolution, the complete command runs through all steps; every bluespot gets exactly one water level, computed from its final volume, and final depths and final bluespots are level minus terrain cut off at zero, and the labels of the cells not above the level.", "quantifier": "every DEM, filter, rain depth, resolution, both pour point rules, with and without speedups", "why_tests_cant": "A missing id, label or attribute in any DEM would raise or mix up bluespots late in the chain.", "anchors": ["malstroem/scripts/complete.py:process_all", "malstroem/hyps.py", "malstroem/approx.py", "malstroem/network.py", "malstroem/rain.py", "malstroem/bluespots.py", "malstroem/streams.py", "malstroem/dem.py"]}
{"id": "C64", "title": "Final depths stay within the full depths", "statement": "Final depths lie between 0 and the depths of the filled DEM; a bluespot filled to capacity gets exactly its full depths, an empty one depth 0.", "quantifier": "every DEM, filter, rain depth, resolution", "why_tests_cant": "Depends on level water tables, hypsometry and the interpolation for every shape of bluespot.", "anchors": ["malstroem/scripts/complete.py:process_all", "malstroem/hyps.py", "malstroem/approx.py"]}
{"id": "C65", "title": "More rain never gives smaller final depths", "statement": "With more rain, no cell of the final depths raster gets smaller and no cell drops out of the final bluespots.", "quantifier": "every DEM, filter, pair of rain depths, resolution", "why_tests_cant": "Compares two runs through spill, levels and extents for every DEM.", "anchors": ["malstroem/scripts/complete.py:process_all", "malstroem/hyps.py", "malstroem/approx.py", "malstroem/network.py"]}
{"id": "C66", "title": "Final depths hold the final volumes", "statement": "Cell area times the final depths of a bluespot is its final volume.", "quantifier": "every DEM, filter, rain depth, resolution", "why_tests_cant": "Holds in full and empty bluespots, fails in between depending on resolution and shape.", "anchors": ["malstroem/scripts/complete.py:process_all", "malstroem/hyps.py", "malstroem/approx.py"]}
{"id": "C67", "title": "Final bluespots are the cells under water", "statement": "A cell is marked in the final bluespots raster exactly if its final depth is positive.", "quantifier": "every DEM, filter, rain depth, resolution", "why_tests_cant": "Boundary cases of depth zero.", "anchors": ["malstroem/scripts/complete.py:process_all", "malstroem/hyps.py", "malstroem/approx.py"]}
{"id": "C68", "title": "Raster rain is fully accounted for", "statement": "For every finite float32 DEM and every precipitation raster of the same shape, in any of the three units, the volumes RasterVolumeTool gives to the nodes add up to the total of the raster converted to m3, and the final state computed from them (water standing in bluespots plus water leaving at nodes without downstream node) adds up to the same total, whether the volumes are collected per bluespot or per watershed.", "quantifier": "all DEM sizes and elevations, all filters, both pour point rules, all precipitation rasters and units", "why_tests_cant": "A cell whose label has no node, or a node counted twice, only shows on particular terrains; the totals range over unbounded rasters.", "anchors": ["malstroem/rain.py:RasterVolumeTool.process", "malstroem/network.py:FinalStateCalculator.process", "malstroem/streams.py:StreamTool.process"]}
{"id": "C69", "title": "Step-by-step commands give what complete gives", "statement": "Running filled, depths, flowdir, accum, bspots, wsheds and pourpts one after the other, each on the files the previous ones wrote, gives the same filled DEM, depths, flow directions, accumulated flow, bluespots, watersheds and pour points as the complete command on the same DEM with the same filter.", "quantifier": "all float32 DEM files and nodata values, all filters, both pour point rules, with and without speedups", "why_tests_cant": "The commands differ in how they read nodata and in which intermediate values are stored and read back; the differences show only for particular elevations and nodata layouts.", "anchors": ["malstroem/scripts/dem.py:process_filled", "malstroem/scripts/dem.py:process_depths", "malstroem/scripts/dem.py:process_flowdir", "malstroem/scripts/bluespot.py:process_bspots", "malstroem/scripts/bluespot.py:process_wsheds", "malstroem/scripts/bluespot.py:process_pourpoints", "malstroem/scripts/complete.py:process_all"]}
{"id": "C70", "title": "The pour point rules differ only with several candidates", "statement": "The pour points found from the DEM and those found from accumulated flow are the same for every bluespot that has a single threshold cell (a neighbouring cell outside the bluespot at the level of its water table), as the pourpts help text says.", "quantifier": "all finite float32 DEMs, all filters, all bluespots", "why_tests_cant": "The rules differ only for bluespots whose inflow is distributed in a particular way over the cells next to the outlet.", "anchors": ["malstroem/scripts/bluespot.py:process_pourpoints", "malstroem/bluespots.py:BluespotTool.process", "malstroem/label.py:label_max_index", "malstroem/label.py:label_min_index"]}
{"id": "C71", "title": "Cells without data hold no water", "statement": "A cell where the DEM has no data (read as -999) is not part of a bluespot and has depth 0.", "quantifier": "all finite float32 DEMs with a nodata value other than 0, Python and compiled", "why_tests_cant": "Depends on the shape of the nodata areas and on how they touch the edge of the raster.", "anchors": ["malstroem/scripts/complete.py:process_all", "malstroem/io.py:RasterReader.read", "malstroem/dem.py:DemTool.process", "malstroem/algorithms/fill.py:fill_terrain"]}
{"id": "C72", "title": "Precipitation cells without data add no water", "statement": "With a precipitation raster the initial volume of a node is the water on those cells of its area that have data.", "quantifier": "all precipitation rasters, nodata values, label rasters and units", "why_tests_cant": "A precipitation raster has nodata cells anywhere, with any nodata value.", "anchors": ["malstroem/scripts/initvolume.py:process_volumes", "malstroem/rain.py:RasterVolumeTool.process", "malstroem/io.py:RasterReader.read"]}
{"id": "C73", "title": "Running a command again changes nothing", "statement": "A vector layer holds what the last command wrote to it: writing the same features again leaves the layer as it was, and later commands give the same results.", "quantifier": "all sequences of writes, all layers and features", "why_tests_cant": "Tests write to fresh files; the histories of a datasource are unbounded.", "anchors": ["malstroem/io.py:VectorWriter", "malstroem/io.py:VectorReader", "malstroem/network.py:FinalStateCalculator.process", "malstroem/algorithms/net.py:_prune_common_flow"]}
{"id": "C74", "title": "Results do not depend on the height datum", "statement": "Raising the whole terrain by a whole number of histogram bins leaves the histograms, the final depths and the final extents as they are and raises every water level by the same amount.", "quantifier": "every labelled terrain, bin width, whole number of bins, volume", "why_tests_cant": "Tests use terrain above zero; the truncation towards zero only shows below it, and the claim compares two terrains for all inputs.", "anchors": ["malstroem/hyps.py:histogram_bins", "malstroem/approx.py:approx_water_level_io", "malstroem/approx.py:approx_bluespots"]}
{"id": "C75", "title": "The vector commands on files give the complete command's results", "statement": "network, initvolumes, finalvolumes, hyps, finallevels and finalbluespots, run one after the other on the layers of a datasource with any layer names and any name for the volume attribute, write layers with the values of the complete command and the same final rasters.", "quantifier": "all terrains, filters, rain depths, bin widths, layer names, attribute names and other layers in the datasource", "why_tests_cant": "Values travel by attribute name through five layers; tests use the default names on one terrain.", "anchors": ["malstroem/streams.py:StreamTool.process", "malstroem/rain.py:SimpleVolumeTool.process", "malstroem/network.py:FinalStateCalculator.process", "malstroem/hyps.py:bluespot_hypsometry_io", "malstroem/approx.py:approx_water_level_io", "malstroem/approx.py:approx_bluespots_io", "malstroem/scripts/initvolume.py", "malstroem/scripts/stream.py", "malstroem/scripts/complete.py"]}
{"id": "C76", "title": "Generated hypsometry is valid by the module's own check", "statement": "Every hypsometry that bluespot_hypsometry_stats generates passes assert_hypsometrystats_valid: as many counts as bins, ordered bounds, and bounds that are num_bins times the resolution apart to seven decimals.", "quantifier": "all label rasters, DEMs, positive resolutions, label counts and background labels", "why_tests_cant": "Tests call the check on one DEM; rounding of the bounds depends on elevation and resolution.", "anchors": ["malstroem/hyps.py:assert_hypsometrystats_valid", "malstroem/hyps.py:histogram_bins", "malstroem/hyps.py:bluespot_hypsometry_stats"]}
{"id": "C77", "title": "Cumulative volumes are the water below each bin", "statement": "Both functions that turn a histogram into cumulative volumes give, at every bin, the volume of the water standing below that bin.", "quantifier": "all histograms, cell areas and bins", "why_tests_cant": "Neither function is tested alone, and the histograms are unbounded in length.", "anchors": ["malstroem/hyps.py:cumulative_volume", "malstroem/approx.py:_cumulative_volume"]}
{"id": "C78", "title": "Killed and repeated vector commands never give wrong final rasters", "statement": "Whatever was run, repeated, raised or killed before among network, initvolumes, finalvolumes, hyps and finallevels on one datasource, finalbluespots either raises or gives exactly the rasters of the complete command; and running the five commands once more always makes it give them.", "quantifier": "all terrains, options, names and histories of any length, with kills before, between and during the writing of layers", "why_tests_cant": "Histories are unbounded and tests run every command once, to its end, in a new datasource.", "anchors": ["malstroem/io.py:VectorWriter.write_geojson_features", "malstroem/scripts/stream.py", "malstroem/scripts/initvolume.py", "malstroem/scripts/finalstate.py", "malstroem/scripts/hyps.py", "malstroem/network.py:FinalStateCalculator.process", "malstroem/approx.py:approx_water_level_io"]}
{"id": "C79", "title": "Layers after killed and repeated commands", "statement": "After any history of the vector commands a layer written by a command that has succeeded has exactly the features of the complete command, each once.", "quantifier": "all terrains, options, names and histories of any length, with kills before, between and during the writing of layers", "why_tests_cant": "Histories are unbounded and tests run every command once, to its end, in a new datasource.", "anchors": ["malstroem/io.py:VectorWriter.write_geojson_features", "malstroem/io.py:VectorWriter.close", "malstroem/scripts/stream.py", "malstroem/scripts/initvolume.py", "malstroem/scripts/finalstate.py"]}
{"id": "C80", "title": "Accuracy of pour point attributes in floating point", "statement": "The area and watershed area of every pour point are right up to 3 roundings to 53 bits, the volume up to one more than the number of cells of the bluespot, and the rain needed to fill it up to nine more, relative to exact arithmetic on the same depths and cell size.", "quantifier": "all depth rasters of non-negative float32 values, draining flow rasters, cell sizes of at least 2^-300, filters, and both pour point rules, as long as the computed value is finite", "why_tests_cant": "Tests compare a few values with decimals up to a tolerance; the accumulated rounding depends on the number of cells and on every depth.", "anchors": ["malstroem/bluespots.py:assemble_pourpoints", "malstroem/bluespots.py:BluespotTool.process", "malstroem/algorithms/label.py:label_stats"]}
{"id": "C81", "title": "Accuracy of the final state in floating point", "statement": "The volume and the spilled volume computed for a node differ from those of exact arithmetic on exact inputs by at most the sum, over the nodes from which water can reach it, of the errors of their inputs and of 2^-52 of the water they hold and spill times one plus their number of direct upstream nodes; nodes elsewhere contribute nothing.", "quantifier": "all networks with unique ids and without cycles or dangling links, non-negative finite volumes and capacities, and all exact networks of the same shape, as long as no spill overflows", "why_tests_cant": "Errors add up along paths of any length; tests run small networks whose volumes are exact in binary.", "anchors": ["malstroem/network.py:Network.rain_event", "malstroem/network.py:FinalStateCalculator.process"]}
{"id": "C82", "title": "Accuracy of the complete command in floating point", "statement": "Computed with floating point numbers throughout, the complete command finishes with the nodes of exact arithmetic; unless a number overflows, every initial volume is right up to six roundings to 53 bits, every capacity up to one more than the number of cells, the water held and lost differs from the rain by at most ((1 + 2^-53)^6 - 1) of it plus the rounding of the balances, and the volume and spill of every node differ from the exact ones by at most what the nodes from which water reaches it contribute. Nothing overflows on terrains below 2^126 m, cells below 2^300 m and less than 2^300 mm of rain.", "quantifier": "all finite float32 terrains of up to 2^53 cells, square cell sizes and rain of ordinary magnitude, filters, both pour point rules and both implementations", "why_tests_cant": "The repository's tests compare totals of a few example terrains up to a tolerance; how rounding errors add up depends on the number of cells and on the whole network.", "anchors": ["malstroem/scripts/complete.py", "malstroem/rain.py:SimpleVolumeTool.process", "malstroem/streams.py:StreamTool.process", "malstroem/bluespots.py:assemble_pourpoints", "malstroem/network.py:FinalStateCalculator.process"]}
{"id": "C83", "title": "Contents of the output directory, also after a kill", "statement": "A complete run in an empty directory ends normally and leaves exactly the raster files filled, bs_depths, flowdir, accum if asked for, bluespots, watersheds, finaldepths and finalbluespots with the computed values, and layers with the computed features. If it is killed at any time, every raster file that is there and was not being written is right, none is there without those before it, every layer is missing, empty or right, and where there is a file of final depths all layers but the last are right.", "quantifier": "all terrains and options on which the tools succeed, and every point in time at which the run can be killed, before or while writing any of its outputs", "why_tests_cant": "The repository's tests run the command to its end and look at few of its outputs; none kills it.", "anchors": ["malstroem/scripts/complete.py:process_all", "malstroem/dem.py:DemTool.process", "malstroem/bluespots.py:BluespotTool.process"]}
{"id": "C84", "title": "Runs in one directory are never mixed", "statement": "The complete command leaves a directory that is not empty as it is. After any sequence of runs in one directory everything in it comes from a single run, even if runs were killed and the options differ.", "quantifier": "all directories, all sequences of whole and killed runs with any terrains and options, also ones that raise", "why_tests_cant": "Quantifies over sequences of runs and kill times; the tests run the command once.", "anchors": ["malstroem/scripts/complete.py:process_all"]}
{"id": "C85", "title": "The step commands finish a killed complete run", "statement": "In the directory of a complete run killed after its pour points were written, the flow directions and bluespots are readable, and whatever step commands are run there, killed or repeated, finalbluespots raises or gives the final rasters of the whole run; it gives them after network, initvolumes, finalvolumes, hyps and finallevels have been run once more.", "quantifier": "all terrains, options with rain, kill times after the pour points, and histories of the five vector commands with the layer names of the complete command", "why_tests_cant": "Nothing in the tests mixes the complete command with the step commands, or kills one.", "anchors": ["malstroem/scripts/complete.py:process_all", "malstroem/scripts/stream.py", "malstroem/scripts/initvolume.py", "malstroem/scripts/finalstate.py", "malstroem/scripts/hyps.py"]}
{"id": "C86", "title": "The complete command finishes in floating point", "statement": "With float arithmetic throughout, the complete command runs to its end on every finite float32 terrain of sane size: no volume overflows, there is one level of finite height for each bluespot, for the volume the final state gives it, and a cell of a bluespot is background and dry when above the level and else keeps its label under a finite non-negative depth, the difference of level and terrain.", "quantifier": "all finite float32 terrains up to 2^126 m and 2^40 resolution steps high or low, cell sizes and resolutions between 2^-100 and 2^100, up to 2^300 mm of rain, all filters, both code variants, any component labelling", "why_tests_cant": "The tests run one terrain; a division by an underflown volume or an infinite level needs unusual sizes.", "anchors": ["malstroem/scripts/complete.py:process_all", "malstroem/hyps.py:bluespot_hypsometry_io", "malstroem/approx.py:approx_water_level_io", "malstroem/approx.py:approx_bluespots_io"]}
{"id": "C87", "title": "Bluespots without water are drawn dry", "statement": "A bluespot to which the final state gives no water has depth 0 in all its cells of the final depths raster.", "quantifier": "all finite float32 terrains, resolutions and filters", "why_tests_cant": "Depends on how the elevation of the lowest cell is rounded relative to the edges of the histogram; the test terrain happens not to hit an edge.", "anchors": ["malstroem/hyps.py:bluespot_hypsometry_stats", "malstroem/hyps.py:histogram_bins", "malstroem/approx.py:approx_water_level_io"]}
{"id": "C88", "title": "The hypsometry counts every cell of a bluespot once", "statement": "In a float32 run of the complete command, the hypsometry of each bluespot has exactly the lowest and the highest elevation of its cells. Where no cell lies below zero, each cell is counted in exactly one bin and the edges of the bins are within a relative 2^-23 of consecutive multiples of the vertical resolution.", "quantifier": "all finite float32 terrains of sane size, resolutions, filters and amounts of rain, both code variants", "why_tests_cant": "np.histogram drops values outside its range without a message, and the range and the edges are computed with rounding in two formats; only a proof excludes that the lowest or highest cell is rounded out of the range.", "anchors": ["malstroem/hyps.py:bluespot_hypsometry_stats", "malstroem/hyps.py:histogram_bins", "malstroem/hyps.py:bluespot_hypsometry_io"]}
{"id": "C89", "title": "Levels stay between the bottom and the filled terrain", "statement": "In a float32 run of the complete command on terrain that is nowhere below zero, the level of a bluespot is at least the elevation of one of its cells and at most its filled elevation, up to a relative 2^-23. Without the compiled code no final depth exceeds the depth of the completely filled bluespot by more than a relative 2^-22 of the elevation.", "quantifier": "all finite float32 terrains of sane size, resolutions, filters and amounts of rain", "why_tests_cant": "The level comes from interpolation in a table of rounded sums and edges; whether rounding can push it over the pour point depends on the values.", "anchors": ["malstroem/approx.py:approx_water_level_io", "malstroem/approx.py:_cumulative_volume", "malstroem/approx.py:approx_bluespots"]}
{"id": "C90", "title": "Every node gets the line of its stream", "statement": "In a run on terrain, the streams layer has exactly one line per node, with the same id and downstream id. The line joins cell centres, starts in the node's cell, follows the flow without visiting a cell twice and ends in the junction's cell, in the downstream bluespot or where the flow leaves the terrain. A node lies in its cell's centre; a bluespot's node carries the attributes of its pour point and a junction none.", "quantifier": "all finite float32 terrains, geotransforms, filters, both pour point rules and both code variants", "why_tests_cant": "The lines are cut and regrouped at every confluence; which pieces belong to which node depends on the whole flow tree, and a piece lost or drawn twice only shows in rare configurations.", "anchors": ["malstroem/streams.py:StreamTool.process", "malstroem/algorithms/net.py:geometric_pourpoint_network", "malstroem/algorithms/net.py:pourpoint_network"]}
{"id": "C91", "title": "Streams are lines", "statement": "Every stream written is a line of at least two points.", "quantifier": "all finite float32 terrains, geotransforms, filters, both pour point rules and both code variants", "why_tests_cant": "A line with one point is invalid as geometry but is written without a message; that the background is the only case needs the structure of all networks.", "anchors": ["malstroem/streams.py:StreamTool.process", "malstroem/algorithms/net.py:geometric_pourpoint_network"]}
{"id": "C92", "title": "A filter means what it says", "statement": "Every filter text made of area, maxdepth, volume, decimal numbers, the six comparisons (also in a row), and, or and parentheses, with any blanks, is accepted, and the function obtained from it is true exactly where the formula holds: and binds closer than or, numbers are the doubles closest to the decimals, comparisons are those of IEEE doubles. Run with that function the bluespot tool labels exactly the cells of the bluespots whose figures satisfy the formula.", "quantifier": "all formulas of any size and nesting, all their spellings, all rasters and both code variants", "why_tests_cant": "The filter is rewritten by deleting and replacing substrings and then evaluated by Python; tests can only try a few of the unboundedly many texts.", "anchors": ["malstroem/scripts/_utils.py:parse_filter", "malstroem/scripts/_utils.py:check_filter", "malstroem/bluespots.py:filterbluespots"]}
{"id": "C93", "title": "Thresholds in filters", "statement": "A filter that implies another keeps no bluespot that the other one drops; in particular raising a threshold, however it is written, never adds a bluespot. A figure is compared with the decimal number of the threshold as real numbers.", "quantifier": "all filters and thresholds below 10^300, all rasters and both code variants", "why_tests_cant": "Thresholds are decimals and figures are binary; whether rounding can reverse a comparison needs an argument for all decimals.", "anchors": ["malstroem/scripts/_utils.py:parse_filter", "malstroem/bluespots.py:filterbluespots"]}
{"id": "C94", "title": "One polygon per bluespot and per watershed", "statement": "Polygonizing the raster of bluespots (of watersheds) after the filter gives exactly one polygon for each bluespot from 1 to the number of bluespots; the polygon with bluespot i's id covers exactly the cells labelled i.", "quantifier": "all terrains, filters, shapes and both code variants; all polygonizations that meet GDAL's contract (8-connected regions of equal id)", "why_tests_cant": "A watershed split in two parts or joined with another one shows up only on particular terrains; tests look at a few.", "anchors": ["malstroem/vector.py:vectorize_labels_file", "malstroem/vector.py:vectorize_labels_file_io", "malstroem/bluespots.py:BluespotTool.process"]}
{"id": "C95", "title": "One final polygon per flooded bluespot", "statement": "The layer of final bluespots has one polygon per flooded bluespot; it lies within the bluespot's polygon and the polygons cover all cells under water.", "quantifier": "all finite float32 terrains, filters, rain depths and resolutions; all polygonizations that meet GDAL's contract", "why_tests_cant": "Whether a partly filled bluespot falls into parts depends on its shape and on the rain.", "anchors": ["malstroem/scripts/complete.py:process_all", "malstroem/approx.py:approx_bluespots_io", "malstroem/vector.py:vectorize_labels_file_io"]}
{"id": "C96", "title": "Layers can be joined on their ids", "statement": "After the complete command, bspot_id is a key of pourpoints, hypsometry and finallevels with the values 0 to n and of bluespots and watersheds with the values 1 to n; finalbluespots has only ids from 1 to n; nodes, streams, initvolumes and finalstate have the same node ids in the same order, each once; a node with an id up to n has its id as bspot_id, others have none; every dstrnodeid is the id of a node.", "quantifier": "all finite float32 terrains with square cells, filters, rain depths and resolutions, both code variants, with and without accumulation and vectorization", "why_tests_cant": "Ids pass through six tools and a datasource; a missing or doubled id needs a particular terrain to show up.", "anchors": ["malstroem/scripts/complete.py:process_all", "malstroem/streams.py:StreamTool.process", "malstroem/hyps.py:bluespot_hypsometry_io", "malstroem/approx.py:approx_water_level_io", "malstroem/vector.py:vectorize_labels_file_io"]}
{"id": "C97", "title": "Rain given as a raster, through the commands", "statement": "After dem and bluespots, the commands network, initvolumes -pr, finalvolumes, hyps, finallevels and finalbluespots succeed with a precipitation raster of the terrain's shape, in each unit, for the bluespot raster and for the watershed raster as -bluespots. Every node gets the water on the cells with its id, converted to m3. Final volumes plus the spill of the outlets equal the water of the whole raster. Every bluespot gets one final level, of its final volume, and the final rasters are the water below these levels. -pr together with -mm, without -bluespots or with rasters of different shapes is refused and nothing is written; -mm 0 counts as no -mm.", "quantifier": "all finite float32 terrains with square cells, filters, precipitation rasters of the same shape, units, resolutions, layer names and attribute names that do not collide, both code variants, with and without accumulation", "why_tests_cant": "Rain that differs from cell to cell reaches the nodes through ids of two rasters and of layers written by other commands; a wrong id needs a particular terrain and raster to show up.", "anchors": ["malstroem/rain.py:RasterVolumeTool.process", "malstroem/scripts/initvolume.py:process_volumes", "malstroem/network.py:FinalStateCalculator.process", "malstroem/scripts/finalstate.py:process_net"]}
{"id": "C98", "title": "Results do not depend on how the terrain is turned", "statement": "Turning or mirroring the terrain turns or mirrors the filled terrain, the surface without flats, the depths, the bluespots (up to their numbers), the flow directions, the accumulated flow and the watersheds. Filling commutes with every conversion of elevations that keeps their order.", "quantifier": "all finite float32 terrains of at least two rows and columns, all eight symmetries of the grid, all monotone conversions, all filters that do not read sums of depths", "why_tests_cant": "The sweeps visit the cells in a fixed order and the eight directions are compared in a fixed order; a dependence on it shows only on particular terrains, turned a particular way.", "anchors": ["malstroem/algorithms/fill.py:fill_terrain", "malstroem/algorithms/fill.py:fill_terrain_no_flats", "malstroem/algorithms/flow.py:terrain_flowdirection", "malstroem/dem.py:DemTool.process", "malstroem/bluespots.py:BluespotTool.process"]}
{"id": "C99", "title": "Junctions are inserted in networks of any size", "statement": "Inserting junctions does not run into Python's recursion limit: geometric_pourpoint_network returns the network whatever the number of bluespots. Where this is false, it fails exactly when the network has as many junctions in a row as nested calls of _untangle fit under the limit, and otherwise the limit changes nothing; as many bluespots as nested calls that fit never fail.", "quantifier": "all flow direction and label rasters, all lists of pour points, all recursion limits; the bound by the number of bluespots for all terrains the tool chain accepts", "why_tests_cant": "The limit is about a thousand nested calls; a test would need a terrain with a thousand bluespots side by side along one stream, and shows nothing about how many are needed in general.", "anchors": ["malstroem/algorithms/net.py:_untangle", "malstroem/algorithms/net.py:geometric_pourpoint_network", "malstroem/streams.py:StreamTool.process"]}
{"id": "C100", "title": "The order of the features in a layer does not matter", "statement": "initvolumes, finalvolumes (in exact arithmetic), hyps and finallevels give the same features, in an order that may differ, and finalbluespots gives the same rasters, whatever the order of the features in the layers they read, as long as no two features have the same id.", "quantifier": "all layers, all permutations of their features, all rasters and parameters", "why_tests_cant": "Test layers are written and read in one order; an n-feature layer has n! orders, and GIS programs reorder features freely.", "anchors": ["malstroem/rain.py:62-73", "malstroem/network.py:41-75", "malstroem/hyps.py:26-52", "malstroem/approx.py:25-123"]}
{"id": "C101", "title": "The order of the pour points does not matter to the network", "statement": "network gives the same nodes, up to their order, whatever the order of the features in the layer of pour points.", "quantifier": "all terrains and all permutations of the layer of pour points", "why_tests_cant": "Tests use the layer as bluespots writes it, where position and bspot_id coincide; with another order nothing fails, the nodes only get the wrong bluespots.", "anchors": ["malstroem/streams.py:66-103", "malstroem/algorithms/net.py:21-40"]}
{"id": "C102", "title": "A change of rain acts downstream only, and never more than itself", "statement": "Let two runs of the final state calculation have the same nodes and edges but different rain or capacities. A node keeps its final volume and spill if no node that drains to it (itself included) has changed. For every node, the changes of all final volumes upstream of it plus the change of its own spill are at most the change of the rain plus twice the change of the capacities upstream of it. The same holds for the whole network with the spill of the nodes without downstream node. In the complete command, changing the rain depth changes no node by more than the difference in rain on the area draining to it. Exact arithmetic.", "quantifier": "for all networks with distinct ids whose downstream references lead to a root, all rain and capacity values, all pairs of runs; for all float32 DEMs with square cells and all pairs of rain depths", "why_tests_cant": "The bound relates two runs over arbitrary trees; a solver that leaks a change sideways (a shared upstream list, a stale event) or amplifies it does so only on particular shapes.", "anchors": ["malstroem/network.py:112-168", "malstroem/network.py:41-75", "malstroem/rain.py:54-76", "malstroem/scripts/complete.py:108-124"]}
{"id": "C103", "title": "The cell size only scales the results", "statement": "Let the complete command succeed on a DEM with cells of one size. With cells whose area is r times as large, and a filter that treats the scaled areas and volumes as the first one treats the unscaled ones, it succeeds too: filled terrain, flow, depths, bluespots, watersheds and the network are identical, areas and volumes (also final volumes, spill and water) are r times as large, and percentages, the rain that fills a bluespot, water levels, final depths and final bluespots are the same. Volumes in exact arithmetic. With an unscaled filter this is false.", "quantifier": "for all DEMs, geotransforms with square cells, positive ratios r, filters, rain depths and hypsometry resolutions, both code paths", "why_tests_cant": "Test data have one cell size (and unit cells hide a forgotten or doubled factor); the claim relates two runs over all terrains.", "anchors": ["malstroem/scripts/complete.py:39-146", "malstroem/bluespots.py:23-88", "malstroem/streams.py:60-103", "malstroem/rain.py:54-76", "malstroem/network.py:112-168", "malstroem/hyps.py:26-52", "malstroem/approx.py:25-123"]}
{"id": "C104", "title": "A node spills the largest surplus of a part of the network above it", "statement": "Call a set of nodes a part above node n if every node in it is n or has its downstream node in the set. In the final state, the rain on any part above n exceeds what its nodes can hold by at most the spill of n, and if n spills there is a part above n for which the excess is exactly the spill. So n spills if and only if some part above it gets more rain than it can hold. Hence more rain and smaller bluespots never make any node spill less (also with binary64 rounding), and the spill is a convex function of the rain. For the complete command the same holds with the rain depth times the area drained. Exact arithmetic unless said otherwise.", "quantifier": "for all networks with distinct ids whose downstream references lead to a root, all rain and capacity values, all sets of nodes, all weights in [0,1]; for all float32 DEMs with square cells and all rain depths", "why_tests_cant": "The claim ranges over all of the exponentially many parts of every network; tests compare a few small trees with numbers worked out in the same order as the code does.", "anchors": ["malstroem/network.py:112-186", "malstroem/network.py:41-75", "malstroem/rain.py:54-76", "malstroem/scripts/complete.py:108-124"]}
{"id": "C105", "title": "Rain given as a raster adds up", "statement": "The initial volumes RainTool computes from a raster are linear in the raster: the volumes for a*w1 + b*w2 are a times the volumes for w1 plus b times those for w2. More rain on every cell gives no node less. The same rain written in millimetres, in litres per cell and in cubic metres per cell gives the same volumes. All in exact arithmetic; with binary64 numbers linearity fails (C105_rounded_refuted).", "quantifier": "for all label rasters, all pairs of rain rasters of the same shape, all weights, all geotransforms, all lists of nodes with non-negative bluespot ids", "why_tests_cant": "A test runs one rain raster on one terrain and compares the result with a stored number; that the result depends linearly on every cell of every raster cannot be sampled.", "anchors": ["malstroem/rain.py:121-174", "malstroem/rain.py:144-157", "malstroem/algorithms/label.py:label_stats"]}
{"id": "C106", "title": "A stricter filter only enlarges the watersheds it keeps", "statement": "Take two runs of BluespotTool on the same depths and flow directions, where the filter of the second implies that of the first. A bluespot that the second run keeps has the same area and volume in both, and its watershed in the first run is contained in its watershed in the second, so its watershed area does not shrink. Cells that lie in no watershed stay so. The labels are renumbered, so bluespots are compared by their cells. A dropped bluespot's watershed need not go to one other bluespot as a whole (C106_dropped_whole_refuted). Nor need the runoff at the outlets grow when bluespots are dropped (C106_runoff_refuted).", "quantifier": "for all depth rasters, all draining flow direction rasters of the same shape, all pairs of filters of which one implies the other, both pour point rules, with and without speedups", "why_tests_cant": "The claim relates two runs of the tool with different filters; the tests look at single runs with one filter on one small terrain.", "anchors": ["malstroem/bluespots.py:filterbluespots,BluespotTool.process", "malstroem/algorithms/flow.py:watersheds_from_labels,assign_watersheds_upstream", "malstroem/algorithms/label.py:keep_labels,connected_components,label_stats", "malstroem/scripts/complete.py:complete"]}
{"id": "C107", "title": "Processing part of a terrain by itself", "statement": "Cut a rectangular part out of a terrain and process it by itself. It is filled no higher than the whole is there. The two agree on the whole part exactly when the whole has no water on the edge of the part. The same holds for filling without flats with the same increments, and then the flow directions inside the part are those of the whole. For the DEM tool: depths in the part are no larger, each of its bluespots lies in a bluespot of the whole, and the depths agree exactly when no cell on the edge of the part is under water in the whole. With the compiled functions a part may be filled higher than the whole (C107_compiled_refuted).", "quantifier": "for all terrains of any size and all rectangular parts with at least two rows and columns, at any place", "why_tests_cant": "The claim compares runs on a terrain and on any of its parts; the tests process one terrain and never part of it.", "anchors": ["malstroem/algorithms/fill.py:fill_terrain,fill_terrain_no_flats", "malstroem/algorithms/flow.py:terrain_flowdirection", "malstroem/dem.py:DemTool.process", "malstroem/algorithms/speedups/_fill.pyx:_fill_terrain"]}
{"id": "C108", "title": "Accumulated flow and watersheds on part of a raster", "statement": "Take the flow directions of a rectangular part of a draining raster, with the edge of the part flowing outward; this is also what processing part of a terrain by itself gives when the whole is dry on the edge of the part. The part drains. At each cell the flow accumulates to no more than in the whole, and to as much exactly when in the whole no cell other than itself from outside the inner cells of the part flows through it. With the same labels each cell gets the watershed it has in the whole or none, and none only if its flow reaches the edge of the part at a cell without label.", "quantifier": "for all draining flow direction rasters, all labels, all rectangular parts at any place, with and without speedups", "why_tests_cant": "The claim compares runs on a raster and on any of its parts; the tests process one small raster and never part of it.", "anchors": ["malstroem/algorithms/flow.py:set_edges_flow_outward,accumulated_flow,watersheds_from_labels", "malstroem/algorithms/speedups/_flow.pyx:accumulated_flow,assign_watersheds_upstream", "malstroem/dem.py:DemTool.process"]}
{"id": "C109", "title": "Errors in the terrain are not amplified by filling", "statement": "If two terrains differ by at most e at each cell, their filled surfaces differ by at most e at each cell. So a cell under more than 2 e of water in one run of the DEM tool is under water in the other. Flow directions are not stable in this way: a change of a millionth at one cell may turn the flow around (C109_directions_refuted). Nor is filling with the compiled functions: a change of a thousandth may change the filled surface by 3 (C109_compiled_refuted).", "quantifier": "for all pairs of finite float32 terrains of the same size, at least 2 by 2, and all real e", "why_tests_cant": "The claim bounds the effect of any change of the terrain; the tests fill one terrain and never compare two.", "anchors": ["malstroem/algorithms/fill.py:fill_terrain,_fill_terrain", "malstroem/algorithms/speedups/_fill.pyx:_fill_terrain", "malstroem/dem.py:DemTool.process", "malstroem/algorithms/flow.py:_terrain_flow"]}
{"id": "C110", "title": "What measures against flooding save", "statement": "Give nodes of the network less rain (by r) or larger bluespots (by c). Then each node spills no more than before, and what it saves is at most the sum of r and c over the nodes upstream of it and itself. No bluespot holds more than before plus what it was enlarged by. Two measures together save no more at any node than the sum of what each saves alone.", "quantifier": "for all networks of any size and shape, all rain and capacities, all reductions r and enlargements c, at every node, in exact arithmetic", "why_tests_cant": "The claim compares runs for any pair of measures on any network; the tests run one network with given volumes.", "anchors": ["malstroem/network.py:FinalStateCalculator.process,Network._calc_node,Network.rain_event"]}
{"id": "C111", "title": "Raising the ground never makes water shallower elsewhere", "statement": "Raise a terrain in any cells, as by a dike. At every cell where the ground is as before, the DEM tool finds a depth no smaller than before. If after any change no changed cell is above the former surface at a cell c, the surface at c does not rise; so raising the bottom of a bluespot below its surface leaves the surface as it is. With the compiled functions raising a corner by 1 may lower the surface elsewhere (C111_compiled_refuted).", "quantifier": "for all pairs of finite float32 terrains of the same size, at least 2 by 2", "why_tests_cant": "The claim is about any change of any terrain; the tests process one terrain and never change it.", "anchors": ["malstroem/algorithms/fill.py:fill_terrain,_fill_terrain", "malstroem/algorithms/speedups/_fill.pyx:_fill_terrain", "malstroem/dem.py:DemTool.process"]}
{"id": "C112", "title": "Water standing in the terrain does not change the surface", "statement": "Let water stand in the hollows of a terrain, nowhere above its filled surface. Filling the terrain with this water in it needs no more rounds of sweeps than filling the bare one and gives the same surface. The same holds for filling without flats with the same increments. So the DEM tool finds the same surface, depths no larger than for the bare terrain, and water exactly where the standing water is below the surface; none at all when every hollow is full.", "quantifier": "for all pairs of float32 terrains (float64 without flats) of any size the functions accept, all water levels between the terrain and its filled surface, with and without speedups", "why_tests_cant": "The claim compares runs on a terrain and on all terrains between it and its filled surface; the tests fill one terrain.", "anchors": ["malstroem/algorithms/fill.py:fill_terrain,fill_terrain_no_flats,_fill_terrain,_fill_terrain_no_flats", "malstroem/algorithms/speedups/_fill.pyx:_fill_terrain,_fill_terrain_no_flats", "malstroem/dem.py:DemTool.process"]}
{"id": "C113", "title": "Rain in parts fills and spills as the same rain at once", "statement": "Let any number of rains fall on the network one after the other, where each bluespot has for each rain the room the ones before it left. Each node then holds in all what it holds after all rains at once, and spills in all what it spills then. k times the rain (k at least 1) makes each node spill at least k times as much. This does not hold for volumes: after twice the rain a bluespot may hold more than twice as much (C113_volumes_refuted).", "quantifier": "for all networks of any size and shape, all first rains and capacities, any number of further rains that are not negative, all k >= 1 (with capacities that are not negative), at every node, in exact arithmetic", "why_tests_cant": "The claim relates any number of runs on any network; the tests run one network with one rain.", "anchors": ["malstroem/network.py:FinalStateCalculator.process,Network._calc_node,Network.rain_event"]}
