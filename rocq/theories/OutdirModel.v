(** * Model of malstroem/scripts/complete.py on an output directory

    CompleteModel composes the tools; here the command runs as a program that writes one file or
    layer after the other and reads back what it has written.  It can be killed at any time, and
    can be started again in the same directory.  Numbers as in CompleteModel; geometries are left
    out; the polygons of a raster are a parameter. *)

From Coq Require Import QArith String.
From Verif Require Import Base Num Float64 Dict FillModel FlowModel DemModel LabelModel VectorModel BluespotModel RainModel PipelineModel
  OgrModel CmdModel HistoryModel.
Local Open Scope Z_scope.
Local Open Scope list_scope.

(** What a raster file holds.  Torn: the program was killed while it wrote the file. *)
Inductive content := Floats (r : raster b64) | Exact (r : raster Q) | Labels (r : raster Z) | Torn.

(** The output directory: files malstroem does not know, raster files, malstroem.gpkg. *)
Record outdir := mkDir { d_others : list string; d_rasters : list (string * content); d_store : store }.

(** [os.listdir(outdir)] is empty (complete.py 47). *)
Definition is_empty (d : outdir) : bool :=
  match d_others d, d_rasters d, d_store d with [], [], None => true | _, _, _ => false end.

(** A raster or a layer is written. *)
Inductive output := RasterFile (name : string) (c : content) | Layer (name : string) (fs : list props).
Definition put (d : outdir) (w : output) : outdir :=
  match w with
  | RasterFile n c => mkDir (d_others d) (dset String.eqb (d_rasters d) n c) (d_store d)
  | Layer n fs => mkDir (d_others d) (d_rasters d) (write_features (d_store d) n fs)
  end.
(** Killed while writing it: the file is torn; a layer is written in one transaction (io.py 290,
    346) and has no new features.  (The polygons of the final bluespots are not written in a
    transaction and some of them can be there; nothing reads them.) *)
Definition tear (w : output) : output :=
  match w with RasterFile n _ => RasterFile n Torn | Layer n _ => Layer n [] end.

(** A program: it ends with the value of the function, raises, does not end, reads the
    directory, or writes and goes on. *)
Inductive prog :=
| Return (code : Z)
| Raise (e : exn)
| Hang
| Look (k : outdir -> prog)
| Write (w : output) (k : prog).

Definition lift {A} (r : res A) (k : A -> prog) : prog :=
  match r with Ok x => k x | Exc e => Raise e | Timeout => Hang end.

Inductive outcome := Returned (code : Z) | Raised (e : exn) | Hung.

(** The outputs of a program started in a directory, in order, and how it ends. *)
Fixpoint trace (m : prog) (d : outdir) : list output * outcome :=
  match m with
  | Return c => ([], Returned c)
  | Raise e => ([], Raised e)
  | Hang => ([], Hung)
  | Look k => trace (k d) d
  | Write w k => let (ws, o) := trace k (put d w) in (w :: ws, o)
  end.
Definition put_all (d : outdir) (ws : list output) : outdir := fold_left put ws d.

(** [RasterReader(file).read()]: a file that is missing or torn raises (gdal.UseExceptions). *)
Definition read_floats (d : outdir) (n : string) : res (raster b64) :=
  match dget String.eqb (d_rasters d) n with Some (Floats r) => Ok r | _ => Exc PlainException end.
Definition read_labels (d : outdir) (n : string) : res (raster Z) :=
  match dget String.eqb (d_rasters d) n with Some (Labels r) => Ok r | _ => Exc PlainException end.

(** The options of the command and the DEM as read; [o_polygons] stands for gdal.Polygonize
    (vector.py 42-87, 89-124): the labels of the polygons of a raster. *)
Record options := mkOptions {
  o_speedups : bool; o_cc : raster bool -> raster Z * Z; o_fuel : nat; o_gt : geotransform b64; o_dem : raster b64;
  o_filter : @unit_stats b64 -> bool; o_accum : bool; o_vector : bool; o_mm : Q; o_zresolution : Q;
  o_polygons : raster Z -> list Z
}.
Definition polygon_props (label : Z) : props := [("bspot_id"%string, Some (VInt label))].

(** dem.py 53-93 and complete.py 71-78; [k] goes on. *)
Definition dem_tool (p : options) (k : prog) : prog :=
  let dem := o_dem p in let sp := o_speedups p in let fuel := o_fuel p in
  if negb (square_cells (gt1 (o_gt p)) (gt5 (o_gt p))) then Raise AssertionError else
  lift ((if sp then fill64_cy else fill64) fuel dem) (fun filled =>
  Write (RasterFile "filled.tif" (Floats filled)) (
  Write (RasterFile "bs_depths.tif" (Floats (raster_sub32 filled dem))) (
  lift (minimum_safe_short_and_diag dem) (fun '(short, diag) =>
  lift ((if sp then fill_nf64_cy else fill_nf64) short diag fuel dem) (fun filled_no_flats =>
  lift ((if sp then flowdir64_cy else flowdir64) filled_no_flats true) (fun flowdir =>
  Write (RasterFile "flowdir.tif" (Labels flowdir)) (
  if o_accum p
  then lift ((if sp then accumulated_flow_cy else accumulated_flow) fuel flowdir) (fun accum =>
       Write (RasterFile "accum.tif" (Labels accum)) k)
  else k))))))).

(** bluespots.py 185-189, 199-203: vectorize_labels_file of the raster just written. *)
Definition vectorize (p : options) (file layername : string) (k : prog) : prog :=
  if o_vector p
  then Look (fun d => lift (read_labels d file) (fun r => Write (Layer layername (map polygon_props (o_polygons p r))) k))
  else k.

(** bluespots.py 138-219 and complete.py 80-102.  The attributes of the pour points are computed
    as in PipelineModel. *)
Definition bluespot_tool (p : options) (k : prog) : prog :=
  let t := o_gt p in let sp := o_speedups p in let fuel := o_fuel p in
  Look (fun d =>
  if negb (square_cells (gt1 t) (gt5 t)) then Raise AssertionError else
  lift (read_floats d "bs_depths.tif") (fun depths =>
  let area := cell_area F64Ops t in
  let stats := if sp then label_stats64_cy else label_stats64 in
  let raw_labeled := fst (o_cc p (nonzero depths)) in
  lift (stats depths raw_labeled None) (fun raw_bluespot_stats =>
  let keepers := filterbluespots F64Ops (o_filter p) area raw_bluespot_stats in
  lift (keep_labels raw_labeled keepers 0) (fun new_components =>
  let (labeled, nlabels) := o_cc p new_components in
  lift (stats depths labeled None) (fun bluespot_stats =>
  Write (RasterFile "bluespots.tif" (Labels labeled)) (
  vectorize p "bluespots.tif" "bluespots" (
  Look (fun d =>
  lift (read_labels d "flowdir.tif") (fun flowdir =>
  lift ((if sp then watersheds_from_labels_cy else watersheds_from_labels) fuel flowdir labeled 0) (fun watersheds =>
  lift (label_count watersheds) (fun watershed_stats =>
  Write (RasterFile "watersheds.tif" (Labels watersheds)) (
  vectorize p "watersheds.tif" "watersheds" (
  Look (fun d =>
  lift (if o_accum p then accum <- read_labels d "accum.tif" ;; Ok (Some (accum64 accum)) else Ok None) (fun accum =>
  lift (pour_cells sp fuel accum (Some (o_dem p)) labeled nlabels) (fun pp_pix =>
  let out := mkBO labeled nlabels watersheds (assemble_pourpoints F64Ops t pp_pix bluespot_stats watershed_stats) in
  lift (exact_pourpoints t depths out) (fun pps =>
  Write (Layer "pourpoints" (map pourpoint_props pps)) k))))))))))))))))).

(** complete.py 104-145: StreamTool, SimpleVolumeTool, FinalStateCalculator, hypsometry, levels,
    final rasters, polygons of the final bluespots.  The readers are made when they are used
    (lines 106 and 107 come before the first layer is written).  [L]: the names of the layers. *)
Definition vector_tools (L : layer_names) (p : options) : prog :=
  Look (fun d =>
  lift (read_features (d_store d) (Some (l_pourpoints L))) (fun fs =>
  lift (read_labels d "bluespots.tif") (fun bluespots =>
  lift (read_labels d "flowdir.tif") (fun flowdir =>
  lift (stream_tool (o_fuel p) flowdir bluespots fs) (fun '(nodes, streams) =>
  Write (Layer (l_nodes L) nodes) (
  Write (Layer (l_streams L) streams) (
  Look (fun d =>
  lift (read_features (d_store d) (Some (l_nodes L))) (fun fs =>
  lift (simple_volume_tool (o_mm p) "inputv" fs) (fun out =>
  Write (Layer (l_init L) out) (
  Look (fun d =>
  lift (read_features (d_store d) (Some (l_init L))) (fun fs =>
  lift (final_state_tool "inputv" fs) (fun out =>
  Write (Layer (l_final L) out) (
  Look (fun d =>
  lift (read_features (d_store d) (Some (l_pourpoints L))) (fun fs =>
  lift (hyps_tool (o_gt p) bluespots (o_dem p) (o_zresolution p) fs) (fun out =>
  Write (Layer (l_hyps L) out) (
  Look (fun d =>
  lift (read_features (d_store d) (Some (l_final L))) (fun finals =>
  lift (read_features (d_store d) (Some (l_hyps L))) (fun hs =>
  lift (levels_tool finals hs) (fun out =>
  Write (Layer (l_levels L) out) (
  Look (fun d =>
  lift (read_features (d_store d) (Some (l_levels L))) (fun fs =>
  lift (bluespots_tool bluespots fs (o_dem p)) (fun '(depths, labels) =>
  Write (RasterFile "finaldepths.tif" (Exact depths)) (
  Write (RasterFile "finalbluespots.tif" (Labels labels)) (
  Look (fun d =>
  lift (read_labels d "finalbluespots.tif") (fun labels =>
  Write (Layer "finalbluespots" (map polygon_props (o_polygons p labels))) (Return 0)))))))))))))))))))))))))))))))).

(** complete.py 39-146, [process_all]; the filter is already parsed (C49, C62).  Return 0 stands
    for the end of the function.  (click ignores the value: the exit status is 0 in both cases.) *)
Definition process_all (p : options) : prog :=
  Look (fun d =>
  if negb (is_empty d) then Return 1 else dem_tool p (bluespot_tool p (vector_tools complete_names p))).

(** The command is run to its end (or raises, or hangs), or is killed after [done] outputs,
    before or while it writes the next one. *)
Inductive run := Whole (p : options) | Cut (p : options) (done : nat) (writing : bool).
Definition options_of (r : run) : options := match r with Whole p => p | Cut p _ _ => p end.
Definition run_outputs (r : run) (d : outdir) : list output :=
  match r with
  | Whole p => fst (trace (process_all p) d)
  | Cut p done writing =>
      let ws := fst (trace (process_all p) d) in
      firstn done ws ++ match nth_error ws done with Some w => if writing then [tear w] else [] | None => [] end
  end.
Definition do_run (d : outdir) (r : run) : outdir := put_all d (run_outputs r d).
Definition do_runs (d : outdir) (rs : list run) : outdir := fold_left do_run rs d.
