# Design of the formal model of malstroem

The model is written in Rocq/Coq 8.16 (`rocq/theories`, logical name `Verif`). It is
read off the Python and Cython sources in `/repo/malstroem` function by function; every
model definition cites the file and lines it models and says where it simplifies.

## 1. Layout

| files | content |
|---|---|
| `Base.v`, `Dict.v` | result monad (value / exception / out of fuel), cells, rasters, Python `range`, `min`/`max`, dicts in insertion order |
| `Num.v`, `Float64.v` | number operations: a record of operations, exact instances (Z, Q), and IEEE binary64 (Flocq `binary_float 53 1024`, round to nearest even) with rounding to float32 |
| `FillModel.v` ... `SpeedupsModel.v` | executable model, no proofs |
| `*Spec.v` | small independent specifications (routes, drainage, first label downstream, balance equations, ...) |
| `*Proofs.v`, `*Thms.v`, `Float64Arith.v`, `Float64Scale.v`, `LabelFloat.v`, `UntangleFacts.v` | lemmas |
| `P_*.v` | the property theorems: statement, `exact`, `Print Assumptions`, and an `Example` showing a non-trivial instance that meets the hypotheses |

`tools/manifest.py` writes `_CoqProject` and `MANIFEST.json` from the theorem names
(`C25_...` belongs to property C25) and `tools/claims.json`; `tools/axioms.py` writes section 5.

Conventions
* Python exceptions are values (`Exc IndexError`); an unbounded `while` takes fuel and gives
  `Timeout` on exhaustion. Total correctness is stated as "there is a fuel from which on the
  result is `Ok ...`"; non-termination as "for every fuel the result is `Timeout`".
* Rasters are a shape plus a function on indices; reads and writes check bounds and wrap
  negative indices like numpy.
* Elevations are IEEE binary64 values. A float32 raster is a raster of binary64 values that
  are float32 representable; a store into a float32 array rounds (`store`). Volumes are exact
  rationals in the conservation theorems; the same (number generic) model is also
  instantiated at binary64 where a claim survives rounding, and refuted there where it does not.
* Cell counts, labels, directions are unbounded integers (numpy: uint8, int32, int64, float64
  counts below 2^53).
* A property that is false of the code is kept as stated; its refutation is a theorem
  `..._refuted` with a witness computed by the kernel, the true part is `..._partial`, and the
  manifest says `partial` with a note starting with REFUTED.

## 2. Properties

For each property: what is modelled, and how it is proved.

* **C01** `fill_terrain` with Python sweeps on binary64 values that the float32 store keeps.
  Termination: each change strictly lowers one cell in the finite order of floats (rank in Z).
  Bounds: sweep invariant.
* **C02** Specification `escapes dem L c` (inductive route with terrain <= L to an edge cell).
  Invariant: every finite value is backed by a route; a sweep without change is a fixpoint;
  induction over the route gives the other direction.
* **C03** Inductive `drains` (non-uphill path) from the characterisation (Python sweep) and as a
  sweep invariant (compiled sweep).
* **C04** from C02.
* **C05** refuted: a float64 DEM on which the Python sweep reports a change for ever.
* **C06** refuted by a 4x4 DEM (compiled sweeps skip the last row and column, and the loop stops
  at the first sweep without change); also compiled filling raises on 3-row rasters.
* **C07** sweep invariants that do not need a fixpoint.
* **C08** Flocq: absorption-freeness of `x + short` for all values reachable; the bound on
  reachable values is an induction over the first sweep. Both the Python and the compiled sweep.
* **C09** general relaxation theory (`RelaxProofs.v`), instantiated with rounded additions.
* **C10** fold over the eight neighbours; sign of rounded differences and quotients (Flocq).
* **C11** direct, all shapes.
* **C12** composition of C08, C10, C11.
* **C13** direct.
* **C14, C15, C16** invariant of the trace loops on draining flow rasters; counting.
* **C17** refuted with a witness (`TypeError`), and in general for every raster with such a cell.
* **C18** invariant of the stack loop; first label downstream as an inductive spec.
* **C19** direct.
* **C20, C21, C22** folds over the raster-order cell list; exact and binary64 versions.
* **C23** true for background 0, refuted otherwise.
* **C24** connected-component labelling (SciPy) is modelled by its contract (`CompSpec.v`); the
  theorems hold for every labelling function that meets it; a flood fill in `CompProofs.v` shows
  the contract can be met.
* **C25** refuted with a witness; what each record is computed from is proved.
* **C26** from C02 (pure Python); refuted for compiled filling.
* **C27, C28, C29** from C08/C10/C14 and C21.
* **C30** induction on the trace.
* **C31, C32** recursion of `_untangle` with fuel; invariants on groups of nodes.
* **C33** uniqueness of the balance equations (C35).
* **C34, C35, C36, C37** invariant of the depth first order; balance equations as an independent
  spec (`NetworkSpec.v`). The solver needs as much fuel as there are nodes. Binary64 versions
  (`NetworkFloatThms.v`): rounded additions and subtractions are monotone (C37) and have relative
  error at most 2^-53 (C34, error bound; exact conservation is refuted).
* **C38** refuted for dangling references and cycles; true for acyclic closed networks.
* **C39** partition of cells into watersheds.
* **C40** refuted with the bluespot raster the tool asks for; true with the watershed raster.
* **C41** true for non-negative elevations in exact arithmetic, refuted for negative ones and
  under rounding.
* **C42** decimal printing and parsing of integers, `|`-join and split.
* **C43, C44** exact arithmetic over Q: `np.interp` on knots, histogram counts.
* **C45, C46** pointwise; C46 refuted below -999.
* **C47, C60** case analysis over value ranges; the out-of-range branch raises `UnboundLocalError`.
* **C48** refuted for nodata 0 and for values close to nodata; exact description of what is replaced
  (error analysis of `np.isclose` with Flocq).
* **C49** string rewriting on lists of characters: deleting words deletes nothing else; words
  between symbols are rewritten one by one.
* **C50** state machine over all call sequences.
* **C51** refuted: `hyps` binds the functions at import time.
* **C52** linear algebra over Q.
* **C53** composition of C12, C24, C28, C31, C34, C39.
* **C54** refuted: `UnboundLocalError`.
* **C55** refuted: a 3x3 float terrain where dividing by sqrt 2 and multiplying by its rounded
  inverse choose different neighbours.
* **C56** refuted for 0 mm; true otherwise.
* **C57** dict folds; uses C42.
* **C58** refuted: above the highest cell the interpolation runs to zmax.
* **C59** dict index by id.
* **C61** refuted for rotated transforms.
* **C62** refuted: `oarear`.
* **C63** composition of C24, C39, C34, C57, C59, C45.
* **C64, C65, C66** from C26, C43, C37; needs exact float32 depths, hence DEMs on a binary grid
  (every filled level is an elevation, C02). REFUTED for other DEMs (C64), for terrain below zero (C64, C65: the last interior point of the interpolation can be above the spill level) and with the compiled functions (C65: a bluespot without a common level).
* **C67** refuted: depth 0 counts as under water.
* **C68** exchange of summation: every cell belongs to the watershed of exactly one node; then C34.
* **C69** the commands call the same functions in the same order; what is left is that reading the filled DEM back changes nothing unless a level is close to -999 (C48), that passing the number of labels on or not makes no difference (numbered labels), and that the DEM is read the same. REFUTED where one of these fails.
* **C70** both rules choose a cell whose trace never returns to the bluespot (C27), so a single such cell decides. REFUTED for a single threshold cell: two bluespot cells next to it can both flow to it.
* **C71** escape levels (C02): water on a nodata cell escapes at -999 exactly if the nodata cells reach the edge. REFUTED for enclosed nodata cells (a bluespot as deep as the terrain is high above -999) and for compiled filling.
* **C72** sum over the labels (C21), split into cells with and without data. REFUTED: the precipitation raster is read without nodatasubst, so nodata cells count with their nodata value (negative volumes).
* **C73** invariant over all histories of writes, on a model of OGR; dict index by id. REFUTED: writers append to an existing layer; twice the pour points end the network command with an IndexError.
* **C74** truncation commutes with whole shifts on either side of zero; levels by interpolation over shifted points. REFUTED across zero.
* **C75** features as dicts read and written by attribute name; the tools keep the attributes of their input, so every layer shows the records of the complete command. REFUTED: rain 0 is a usage error in steps, and volumes written to `bspot_vol` overwrite the capacities.
* **C76** the bounds are a whole number of bins apart. REFUTED rounded: 8192 m with bins of 5 micrometres fails the seven decimals.
* **C77** double sums as weighted sums. REFUTED for the unused `hyps.cumulative_volume`: it leaves out the first bin and is one bin ahead.
* **C78** invariant over histories (HistoryModel): every layer holds some number of copies of the right features, the pour points once. Filling a dictionary again with the same entries changes nothing, so the solver, the levels and the rasters do not see the copies; without levels finalbluespots raises.
* **C79** the same invariant. REFUTED: network killed after its nodes and run again doubles the nodes; killed while writing the nodes it leaves an empty layer, on which initvolumes, finalvolumes and finallevels succeed. That a killed writer leaves an empty layer, or none, and never some features is taken from the transaction (io.py 290, 346); files without transactions (shapefiles) are not covered.
* **C80** standard model of floating point: every operation is exact up to a factor within 2^-53 of 1 unless it underflows. Sums of non-negative floats never underflow to an inaccurate value; float32 depths are at least 2^-149 and the cell sizes at least 2^-300, so the products do not either. The relation "up to k roundings" is closed under sums (maximum of k plus one), products and quotients. That the volume is not always exact is proved by a witness.
* **C81** the error of one balance (Lipschitz property of min and max, error of the sum of the spills) and an induction over the settling order; the set of nodes that contribute is the disjoint union of the sets of the direct upstream nodes, as there are no parallel paths. C34 and the other theorems on exact volumes thereby carry over to the computed ones with a bound.
* **C82** FloatPipeModel runs the chain of PipelineModel with floats. Both runs have the same filled terrain, labels and graph (their pour points are at the same cells), so their nodes pair up; the watershed area of C80 gains three roundings on the way to an initial volume (rain, 0.001 itself and its product), and C81 and C34's rounded balance give the rest. 'no_overflow' is about the computed result; C82_no_overflow derives it for terrains up to 2^126 m high or low, cells up to 2^300 m and up to 2^300 mm of rain: every capacity, area and initial volume is a sum of at most 2^53 terms below a power of two, and so is every spill (C34_no_overflow). Without a bound two nodes can overflow (C34_overflow_refuted).
* **C83** OutdirModel is the command as a program that looks at the directory and writes one output after the other; its trace in an empty directory is the list of outputs with the values of CompleteModel, the reads in between giving back what was written (OgrThms). A killed run leaves a prefix of the trace and perhaps one torn output. Modelled of a kill: a raster file that was being written is unreadable, a layer that was being written has no features (its transaction is not committed). Numbers exact from the volumes on, as in CompleteModel.
* **C84** the command looks once, first, whether the directory is empty; a run that wrote anything leaves it non-empty. It follows that a killed run can only be repeated after its files are removed. The function returns 1 but click drops the value, so the exit status does not tell.
* **C85** the layers a killed run leaves satisfy the invariant of C78 as soon as the pour points are there; bluespots.tif and flowdir.tif come before them.
* **C86** FloatFinishModel continues FloatPipeModel with the hypsometry, levels and final rasters in floats. The DEM is float32, so numpy 1.x computes the bin edges of `np.histogram` in float64, stores them as float32 and compares in float32 (np_histogram32). Error bounds for the bins (FinishBins), volumes that are 0 or at least 2^-350, hence a slope of `np.interp` that cannot overflow (FinishLevel), and C82's chain (FloatFinishThms).
* **C87** refuted: a hollow whose lowest cell is the float32 next to 0.7 m, resolution 0.1 m. `int(zmin * 10)` is 6, but the float32 edge between bins 6 and 7 is the cell itself, so the first bin is empty and `np.interp` gives the middle of the second bin for no water. It holds when the resolution is a power of two (and elevations at most 2^23 steps, so that float32 represents all multiples), and when the lowest cell is not within a relative 2^-22 of a multiple of the resolution.
* **C88** Rounding to float32 is monotone and the lowest and highest cell are float32 values, so the range of the histogram always encloses them although its bounds are rounded (FinishEdges); the edges as computed by numpy are within a relative 2^-23 of the multiples. For terrain below zero the range does not enclose (see C41).
* **C89** A level that is interpolated lies between the lowest cell and the highest, because the table starts and ends there and the middles of the bins in between are inside up to rounding (C88); the highest cell is at most its filled elevation. The level of a full bluespot is the lowest cell plus the rounded largest depth (FinishDry).
* **C90** Induction over the untangling of the flow tree (UntangleProofs, UntangleFacts): the pieces of a walk between junctions are walks, a piece ends where the next begins, and the walks themselves follow the flow (StreamThms). StreamSpec states "drawn along the flow" and "centre of a cell" without the model's functions.
* **C91** False for every terrain: node 0, the background, gets its own cell as its only point, and it is written as a LineString. True for every other node (a bluespot's walk leaves its cell; streams are grouped only when their last two cells agree, so a junction has a cell below it).
* **C92** FilterEvalModel is the part of Python the documentation of the filter names: tokens, precedence, chained comparisons, decimal literals rounded to the closest double (Flocq's division). FilterEvalSpec gives formulas, their meaning and their spellings without reference to it. The proof goes through the layout of the words (it is an `expression` of C49, so the translation is known), the tokens and the levels of the grammar (FilterEvalThms). Each comparison has a property on one side, and numbers without a point are at most 2^53.
* **C93** follows from C92 because rounding is monotone. The comparison with the real number is the real one unless the figure is the double closest to a threshold that is not a double: 0.1 as a double is above 0.1 but not `> 0.1` (refuted).
* **C94** A bluespot is a component of 8-adjacent cells with depth, and the filter only renumbers whole components, so cells of an id are connected through cells of that id. Within a watershed every cell is connected to the bluespot by its flow path, on which the label is constant. PolygonSpec states the contract as a predicate on lists of features, and C94_polygons_exist shows that every raster has features that meet it.
* **C95** False: a bluespot with two hollows below one outlet is one bluespot, and while the water is below the sill between the hollows its final extent is two polygons with the same id (computed on a terrain of one row of hollows). Inclusion and coverage are proved, and that a full bluespot has one final polygon, equal to that of the bluespot (on the terrains of C64, where depths are exact).
* **C96** combines C83 (what the layers show), C39, C90, C63 and C94. It is stated on the features read back from the datasource of an empty directory: JoinSpec defines a column and a key without reference to the tools.
* **C97** extends C75 and C68 to initvolumes -pr on a datasource (PrModel). The precipitation is read as it is stored, so a nodata cell counts with its nodata value (C72). With the bluespot raster, which the help text asks for, the rain outside the bluespots is all in node 0 (C40); the water is conserved all the same.
* **C98** follows from the characterisations C02 (escape level), C09 (cheapest route), C10, C14, C18 and C24, none of which mentions an order of cells. SymSpec generates the eight symmetries from two mirrorings and the transpose and compares rasters as numbers (0.0 equals -0.0). REFUTED for directions and watersheds when a cell has two equally steep ways down (the first direction wins) and for the compiled filling (C06). Filters that read the volume are left out: a sum of float depths depends on the order of the cells.
* **C99** the recursive generator `_untangle` is modelled a second time with a limit on nested calls (RecModel). By induction on the unlimited run: junctions in a row (RecSpec) of a nested call extend by the junction above it, ids tell the calls apart. REFUTED for every limit by a comb of bluespots beside a stream (RecComb); the bound by the number of bluespots is the best possible.
* **C100, C101** the tools on features (CmdModel) run on permuted lists. Looking up by id does not see the order when ids are distinct (`index_order`, `dget_perm`); for finalvolumes the balance equations of C35 have one solution, so the events of both orders agree. network takes the position of a pour point for its id, which a computed run refutes; on features (OrderModel) it is independent of the order.
* **C102** The two solutions of the balance equations (C35) are compared node by node: min and max with a capacity change by no more than their arguments. Summed over a set of nodes closed under upstream, the spill changes inside the set cancel (each node has one downstream node), which leaves the spill of its last node. LocalSpec defines upstream by following the downstream ids. Capacities may change too, so the bound also covers errors in the bluespot volumes.
* **C103** (UnitSpec/UnitThms/P_Unit): the complete command on the same DEM with cells of r times the area. Labels, watersheds and network are equal, areas and volumes r times as large, levels, percentages and final rasters the same. The origin of the grid may differ too. The filter must treat scaled areas as the first filter treats unscaled ones (a filter on depths always does); `C103_fixed_filter_refuted` shows that a fixed filter on the area does not. Volumes in Q.
* **C104** A closed form of the final state that does not follow the order of the calculation. Summing the balance equations (C35) over a part gives the bound: spills inside the part cancel, spills into it are not negative. The nodes from which the water reaches n only through spilling nodes form the part that attains it. Monotonicity in rain and capacity and convexity follow, since the surplus of a part is linear in both. The binary64 version of monotonicity follows the calculation instead, as rounding is monotone.
* **C105** The statistics are sums over the cells of a label, hence linear and monotone in the raster; `conversion_factor` only scales. The refuted version has two rasters whose binary64 sums round differently from the sum of the rasters.
* **C106** The labels of the kept bluespots agree up to renumbering (C24), and the first label on the trace of a cell (C18) is found by the same trace, which the second run can only follow further. The counterexample for dropped bluespots has outlets on two sides.
* **C107** A path to the edge of the whole leaves the part through its edge, so the part's escape level is no higher (C02); if the edge of the part is dry, a path that reaches it goes on to the edge of the whole without rising. Directions only look at a cell's neighbours, which inside the part are the same
* **C108** A trace in the part is a trace in the whole up to the edge of the part; counting (C14) and the first label (C18) follow. The part need not come from a terrain: any directions that agree inside and flow off at the edge will do
* **C109** The best route out of one terrain (C02) is a route in the other, where its highest cell is at most e higher. Stated with the real values of the floats (B2R); depths by the filled surface minus the terrain, before rounding to float32
* **C110** From the largest-surplus formula of C104: for two sets of nodes above a node that are each closed downstream towards it, union and intersection are such sets again. Exact arithmetic
* **C111** Depths: filling is monotone (C04) and so is the rounded difference for equal ground. Surface: the best route out of c before the change stays below the surface at c
* **C112** The two runs go through the same steps: values never rise again, so each written value is above the final one, where the ground and the standing water give the same maximum. This needs no fixpoint, so it covers the compiled functions too, which stop before one (C06)
* **C113** The sums of two runs in a row satisfy the balance equations of the run with both rains, whose solution is unique (C35); any number of runs by induction. The factor k follows from C104. Exact arithmetic

## 3. What is modelled

| source | modelled | not modelled |
|---|---|---|
| `algorithms/fill.py`, `speedups/_fill.pyx` | all functions, Python and compiled | C unsigned overflow; NaN (excluded by hypothesis) |
| `algorithms/flow.py`, `_raster_utils.py`, `speedups/_flow.pyx` | all functions, Python and compiled | reading an uninitialised C variable at a cell without direction (is an error value) |
| `algorithms/label.py`, `speedups/_label.pyx` | all functions except `connected_components` (contract) | out of range access in compiled code (is an error value) |
| `algorithms/net.py` | all functions (pour points given as features in OrderModel); the recursion limit as a number of nested calls of `_untangle` | frames of its callers and helpers |
| `algorithms/speedups/__init__.py` | `enable`, `disable`, import order of `hyps` | failing imports beyond "available or not" |
| `dem.py`, `bluespots.py`, `streams.py`, `rain.py`, `network.py` | the computation of each tool; `streams.py`, `rain.py` and `network.py` also on features with attributes looked up by name (CmdModel; -pr in PrModel) | readers, writers, logging, attributes no later step reads, vectorisation |
| `hyps.py` | all functions; `bluespot_hypsometry_io` also on features (CmdModel) | `np.histogram` by its documentation, with the bin edges of numpy 1.x for float64 data (HypsModel) and float32 data (FloatFinishModel); the comparison of the cell sizes of the two rasters; `int()` on strings with blanks or underscores |
| `approx.py` | all functions except `_estimate_waterlevel` (unused); the two `_io` functions also on features (CmdModel) | `np.interp` by its documentation; broadcasting of rasters of different shapes |
| `io.py` | `RasterReader.read` substitution, type choice of `RasterWriter.write`, fields and features of `VectorWriter` and `VectorReader` (OgrModel) | GDAL; OGR (assumed to behave like a GeoPackage: names, values and order kept, creating an existing field has no effect); geometries; long double and complex arrays |
| `vector.py` | `transform_cell_to_world` (GDAL's ApplyGeoTransform by its documentation); polygonisation by the contract of gdal.Polygonize (PolygonSpec: one polygon for each 8-connected region of equal id other than nodata, given by its id and cells) | how gdal.Polygonize works, outlines of polygons, order of features |
| `scripts/_utils.py` | `check_filter`, `parse_filter`; `eval` for the documented expressions (FilterEvalModel) | `eval` of other accepted texts (calls of numbers, line breaks, `1and 2`) |
| `scripts/initvolume.py` | option check; the -pr branch (StepModel), on a datasource (PrModel); the -mm branch on a datasource (CmdModel) | click |
| `scripts/stream.py`, `scripts/finalstate.py`, `scripts/hyps.py` | the commands as functions on one datasource (CmdModel), repeated, and killed between or while writing layers (HistoryModel) | click; geometries; several datasources |
| `scripts/dem.py` | all four commands, as functions from files to files (StepModel) | click; a float64 DEM (the model keeps float32 rasters) |
| `scripts/bluespot.py` | `process_bspots`, `process_wsheds`, `process_pourpoints` (StepModel) | `process_polys`, OGR options |
| `scripts/complete.py` | the chain of tools up to the final rasters (PipelineModel with exact areas and volumes, FloatPipeModel with floats; CompleteModel and FloatFinishModel: hypsometry, levels and final rasters in exact arithmetic and in floats); the emptiness check, names and order of all files and layers, reading back, kills (OutdirModel) | which polygons gdal makes of a raster (a parameter), geometries, creation options, logging |

Other scripts only parse options and call the tools.

## 4. Trusted base

The Coq kernel (`vm_compute` included); the axioms printed by `Print Assumptions` under each
theorem (section 5), all from Coq's standard library (real numbers, used by Flocq);
the reading of the sources into the model as described in the comments and in section 3.

## 5. Axioms

<!-- axioms -->

Closed under the global context (no axioms):

C100_finalbluespots, C100_finallevels, C100_finalvolumes, C100_hyps, C100_initvolumes, C102_elsewhere, C102_total_change, C102_upstream_change, C102_upstream_marked, C104_convex, C104_largest_surplus, C104_worse_input, C105_more_rain, C105_rain_adds, C105_units_convert, C108_accum, C108_cut, C108_watersheds, C110_saved, C110_together, C110_volumes, C113_many_rains, C113_times, C113_two_rains, C113_volumes_refuted, C11_edges_flow_off, C11_edges_straight, C13_upstream_is_converse, C14_accum_counts_upstream, C14_accum_terminates, C14_accum_total, C15_accum_increases, C16_accum_compiled_agrees, C16_accum_compiled_counts, C16_accum_compiled_terminates, C17_nodir_never_returns, C17_nodir_raises_refuted, C18_first_label_unique, C18_watersheds_compiled_same, C18_watersheds_first_label, C18_watersheds_terminate, C19_edge_cells, C19_edge_cells_once, C20_label_stats_sums, C22_label_count, C22_label_count_total, C22_label_data, C22_label_data_out_of_range, C23_background_refuted, C23_label_data_compiled_zero, C23_nlabels_zero_refuted, C29_background_alone, C30_first_foreign_label, C31_junctions_preserve_network, C32_no_parallel_streams, C33_junctions_transparent, C34_rain_event_conserves, C34_water_conserved, C35_balance_unique, C35_order_irrelevant, C35_settled_by_balance, C35_solver_terminates, C36_no_overfill, C37_more_rain_more_water, C38_all_written, C38_cycle_refuted, C38_dangling_refuted, C38_process_terminates, C38_skipped_exactly, C40_own_cells_partial, C41_histogram_partial, C41_negative_refuted, C42_produced_roundtrip, C42_roundtrip, C43_water_level, C44_exact_level, C44_exact_level_unique, C44_two_bins, C45_depths_extents, C45_io, C45_total, C46_background_depth_refuted, C49_charset, C49_expressions, C49_parse_charset, C50_last_call, C50_switch, C51_enable_refuted, C51_hyps_partial, C51_hyps_refuted, C52_cell_centre, C52_injective, C56_exactly_one_partial, C56_zero_rain_refuted, C57_hypsometry_sound, C57_hypsometry_total, C57_own_histogram, C58_two_bins_refuted, C59_levels_sound, C59_levels_total, C61_cell_area_partial, C61_rotated_refuted, C62_reassembled_refuted, C68_raster_total, C73_last_rain_counts_partial, C73_missing_layer_raises, C73_reads_all_written_partial, C73_written_again_refuted, C74_depths_stay, C74_levels_rise_partial, C76_counts_and_bounds, C76_valid_partial, C77_approx_volume, C77_hyps_volume_partial, C77_hyps_volume_refuted, C94_polygons_exist, C99_any_size_refuted, C99_limit_exact, C99_room_enough.

Theorems that list `ClassicalDedekindReals.sig_forall_dec`, `ClassicalDedekindReals.sig_not_dec`, `Classical_Prop.classic`, `FunctionalExtensionality.functional_extensionality_dep`:

C01_fill_never_lowers, C01_fill_terminates, C02_fill_is_elevation, C02_fill_is_escape_level, C02_fill_is_least, C03_fill_depressionless, C04_fill_idempotent, C04_fill_monotone, C05_float32_partial, C05_float64_refuted, C06_compiled_three_rows_raise, C06_no_flats_differ_refuted, C06_speedups_differ_refuted, C07_compiled_safe, C07_compiled_terminates, C08_float32_in_range, C08_no_flats_strict, C08_no_flats_strict_compiled, C09_no_flats_above_fill, C09_no_flats_cheapest, C09_no_flats_terminates, C09_no_flats_zero_is_fill, C100_finalvolumes_float_refuted, C101_network_features, C101_network_refuted, C102_complete_change, C103_cell_size, C103_fixed_filter_refuted, C104_complete, C104_worse_input_rounded, C105_rounded_refuted, C106_dropped_whole_refuted, C106_runoff_refuted, C106_stricter_filter_enlarges, C107_compiled_refuted, C107_depths, C107_directions, C107_fill, C107_no_flats, C108_dry_edge, C109_compiled_refuted, C109_deep_water, C109_directions_refuted, C109_fill, C10_flowdir_total, C10_steepest, C10_steepest_compiled, C111_compiled_refuted, C111_depths, C111_level_kept, C112_depths, C112_fill, C112_no_flats, C12_dem_drains, C12_dem_terminates, C20_counts_total, C20_label_stats, C21_label_max_index, C21_label_min_index, C24_filter_keeps_passing_bluespots, C24_tool_succeeds, C25_own_cells_only_partial, C25_rejected_capacity_refuted, C26_compiled_step_refuted, C26_depths, C26_level_water_table, C27_chain_pour_points, C27_largest_accumulation_rule, C27_lowest_cell_rule, C28_chain_network_acyclic, C28_largest_accumulation_rule, C28_lowest_cell_rule, C29_chain_points, C34_conserved_rounded, C34_exactly_rounded_refuted, C34_no_overflow, C34_overflow_refuted, C36_no_overfill_rounded, C36_percentage_rounded_refuted, C37_more_rain_rounded, C39_rain_shares, C40_raster_rain_refuted, C40_watershed_raster_partial, C41_rounding_refuted, C45_depths_extents_float, C46_background_depth_partial, C47_unbound_refuted, C47_write_partial, C47_write_total, C48_close_refuted, C48_read_partial, C48_zero_refuted, C53_complete_water_balance, C54_no_filter_refuted, C55_compiled_directions_refuted, C60_write_bool, C60_write_floats, C60_write_floats_total, C63_complete_succeeds, C64_below_zero_refuted, C64_final_depths, C64_rounding_refuted, C65_below_zero_refuted, C65_compiled_refuted, C65_more_rain_deeper_partial, C66_full_and_empty_partial, C66_water_lost_refuted, C67_dry_cells_marked_refuted, C67_wet_cells_marked_partial, C68_raster_rain_balance, C69_both_succeed_partial, C69_levels_unmistakable, C69_near_nodata_refuted, C69_no_filter, C69_not_square_refuted, C69_pourpts_dem_refuted, C69_same_results_partial, C70_single_outlet_partial, C70_single_threshold_refuted, C71_compiled_open_refuted, C71_enclosed_holes_flooded, C71_enclosed_refuted, C71_open_holes_dry_partial, C71_open_holes_unlabelled_partial, C72_holes_counted_partial, C72_nodata_refuted, C73_pourpts_again_refuted, C74_below_zero_refuted, C75_attribute_refuted, C75_no_rain_refuted, C75_steps_as_complete_partial, C76_rounded_refuted, C78_rasters_after_any_history, C79_doubled_refuted, C79_empty_refuted, C79_layers_after_any_history_partial, C80_exact_refuted, C80_pour_point_accuracy, C81_final_state_accuracy, C82_balance_exact_refuted, C82_complete_accuracy, C82_no_overflow, C83_complete_directory, C83_final_depths_last, C83_killed_directory, C84_never_mixed, C84_other_files_safe, C85_steps_finish_killed_run, C86_floats_complete, C87_away_partial, C87_dry_refuted, C87_dyadic_partial, C88_every_cell_counted, C89_levels_below, C90_streams_drawn, C91_background_refuted, C91_others_partial, C92_filter_meaning, C92_filter_selects, C93_higher_threshold, C93_stricter_filter, C93_threshold_real_partial, C93_threshold_real_refuted, C94_bluespot_polygons, C94_watershed_polygons, C95_final_full_partial, C95_final_inside_partial, C95_final_split_refuted, C96_layers_join, C97_raster_rain_chain, C97_raster_refused, C98_chain_turned_partial, C98_compiled_refuted, C98_fill_converted, C98_fill_turned, C98_no_flats_turned, C98_ties_refuted, C99_chain_room.

<!-- end axioms -->

## 6. Wrong programs

`seeded/LOG.jsonl` lists edits of the model that imitate bugs, the claims they break and the
theorems that no longer prove. Each was tried in a scratch copy: the lemmas that fail to
compile are replaced by assumptions until everything compiles again, and the theorems listed
are those that then rest on such an assumption. Later entries were made file by file: a
failing lemma is assumed and the theorems listed are those whose proofs mention it, directly or
through other lemmas; when the broken claim had failed the remaining files were not rebuilt (the
note says so).
