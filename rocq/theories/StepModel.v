(** * Model of malstroem/scripts/dem.py and malstroem/scripts/bluespot.py

    The commands that do step by step what 'malstroem complete' does at once.  Files of
    floats are kept with their nodata value, because reading can replace values; files of
    labels, directions and counts are rasters of integers (RasterWriter keeps their values,
    C47).  The polys command and the OGR options are not modelled. *)

From Flocq Require Import IEEE754.BinarySingleNaN.
From Verif Require Import Base Num Float64 FillModel FlowModel DemModel LabelModel CompSpec VectorModel BluespotModel IoModel.
Local Open Scope Z_scope.

(** A float32 raster file. *)
Record raster_file := mkFile { rf_data : raster b64; rf_nodata : option b64 }.

(** dem.py 24 *)
Definition NODATASUBST : b64 := f64_ofZ (-999).

Definition insideb (rows cols i j : Z) : bool := (0 <=? i) && (i <? rows) && (0 <=? j) && (j <? cols).

(** [RasterReader(file, nodatasubst).read()] (io.py 60-81).  What the raster function gives
    outside the raster is never read and is left alone. *)
Definition load (nodatasubst : option b64) (f : raster_file) : raster b64 :=
  let data := rf_data f in
  let r := reader_read store32 (rf_nodata f) nodatasubst data in
  mkRaster (nrows data) (ncols data)
    (fun i j => if insideb (nrows data) (ncols data) i j then rget r i j else rget data i j).

(** scripts/dem.py 29-36, [process_filled] *)
Definition cmd_filled (speedups : bool) (fuel : nat) (dem : raster_file) : res raster_file :=
  filled_data <- (if speedups then fill64_cy else fill64) fuel (load (Some NODATASUBST) dem) ;;
  Ok (mkFile filled_data (Some NODATASUBST)).

(** scripts/dem.py 43-54, [process_depths] *)
Definition cmd_depths (dem filled : raster_file) : raster_file :=
  mkFile (raster_sub32 (load (Some NODATASUBST) filled) (load (Some NODATASUBST) dem)) (Some NODATASUBST).

(** scripts/dem.py 61-88, [process_flowdir] *)
Definition cmd_flowdir (speedups : bool) (fuel : nat) (dem : raster_file) : res (raster Z) :=
  let dem_data := load (Some NODATASUBST) dem in
  '(short, diag) <- minimum_safe_short_and_diag dem_data ;;
  filled_no_flats <- (if speedups then fill_nf64_cy else fill_nf64) short diag fuel dem_data ;;
  (if speedups then flowdir64_cy else flowdir64) filled_no_flats true.

(** scripts/dem.py 94-106, [process_accum] *)
Definition cmd_accum (speedups : bool) (fuel : nat) (flowdir : raster Z) : res (raster Z) :=
  (if speedups then accumulated_flow_cy else accumulated_flow) fuel flowdir.

(** scripts/bluespot.py 37-66, [process_bspots].  [filter_function] is None when no -filter
    is given. *)
Definition cmd_bspots (speedups : bool) (cc : raster bool -> raster Z * Z) (t : geotransform b64)
    (depths : raster_file) (filter_function : option (@unit_stats b64 -> bool)) : res (raster Z) :=
  let area := cell_area F64Ops t in
  let depths_data := load None depths in
  let raw_labeled := fst (cc (nonzero depths_data)) in
  match filter_function with
  | None => Ok raw_labeled
  | Some filter_function =>
      raw_bluespot_stats <- (if speedups then label_stats64_cy else label_stats64) depths_data raw_labeled None ;;
      let keepers := filterbluespots F64Ops filter_function area raw_bluespot_stats in
      new_components <- keep_labels raw_labeled keepers 0 ;;
      Ok (fst (cc new_components))
  end.

(** scripts/bluespot.py 73-85, [process_wsheds] *)
Definition cmd_wsheds (speedups : bool) (fuel : nat) (bluespots flowdir : raster Z) : res (raster Z) :=
  (if speedups then watersheds_from_labels_cy else watersheds_from_labels) fuel flowdir bluespots 0.

(** scripts/bluespot.py 99-144, [process_pourpoints].  The DEM is read without nodatasubst
    (line 118), the number of labels is not passed on (lines 135, 140). *)
Definition cmd_pourpts (speedups : bool) (fuel : nat) (t : geotransform b64) (bluespots : raster Z)
    (depths : raster_file) (watersheds : raster Z) (dem : option raster_file) (accum : option (raster Z))
  : res (list (@pourpoint b64)) :=
  match accum, dem with
  | None, None => Exc PlainException
  | _, _ =>
      bluespot_stats <- (if speedups then label_stats64_cy else label_stats64) (load None depths) bluespots None ;;
      pp_pix <- match accum, dem with
                | Some accum, _ => label_max_index64 (accum64 accum) bluespots None
                | None, Some dem =>
                    let dem_data := load None dem in
                    '(short, diag) <- minimum_safe_short_and_diag dem_data ;;
                    filled_no_flats <- (if speedups then fill_nf64_cy else fill_nf64) short diag fuel dem_data ;;
                    (if speedups then label_min_index64_cy else label_min_index64) filled_no_flats bluespots None
                | None, None => Exc PlainException
                end ;;
      watershed_stats <- label_count watersheds ;;
      Ok (assemble_pourpoints F64Ops t pp_pix bluespot_stats watershed_stats)
  end.

(** What the commands leave behind. *)
Record step_out := mkSO {
  so_filled : raster_file;
  so_depths : raster_file;
  so_flowdir : raster Z;
  so_accum : raster Z;
  so_bspots : raster Z;
  so_wsheds : raster Z;
  so_pourpts : list (@pourpoint b64)
}.

(** filled, depths, flowdir, accum, bspots, wsheds, pourpts, each on the files the commands
    before it wrote.  [use_accum]: pourpts is given -accum, else -dem. *)
Definition steps (speedups : bool) (cc : raster bool -> raster Z * Z) (fuel : nat) (t : geotransform b64)
    (dem : raster_file) (filter_function : option (@unit_stats b64 -> bool)) (use_accum : bool) : res step_out :=
  filled <- cmd_filled speedups fuel dem ;;
  let depths := cmd_depths dem filled in
  flowdir <- cmd_flowdir speedups fuel dem ;;
  accum <- cmd_accum speedups fuel flowdir ;;
  bspots <- cmd_bspots speedups cc t depths filter_function ;;
  wsheds <- cmd_wsheds speedups fuel bspots flowdir ;;
  pourpts <- cmd_pourpts speedups fuel t bspots depths wsheds
               (if use_accum then None else Some dem) (if use_accum then Some accum else None) ;;
  Ok (mkSO filled depths flowdir accum bspots wsheds pourpts).

(** scripts/complete.py 60-105: the same rasters and pour points computed at once by DemTool
    and BluespotTool.  [use_accum] is the -accum flag; the accumulated flow is computed
    whether it is given or not (DemModel).  The depths file has no nodata value here
    (line 76). *)
Definition at_once (speedups : bool) (cc : raster bool -> raster Z * Z) (fuel : nat) (t : geotransform b64)
    (dem : raster_file) (filter_function : @unit_stats b64 -> bool) (use_accum : bool) : res step_out :=
  let dem_data := load (Some NODATASUBST) dem in
  d <- dem_process speedups fuel (gt1 t) (gt5 t) dem_data ;;
  b <- bluespot_process speedups cc fuel t (do_depths d) (do_flowdir d) (Some filter_function)
         (if use_accum then Some (accum64 (do_accum d)) else None) (Some dem_data) ;;
  Ok (mkSO (mkFile (do_filled d) (Some NODATASUBST)) (mkFile (do_depths d) None) (do_flowdir d) (do_accum d)
        (bo_labeled b) (bo_watersheds b) (bo_pourpoints b)).

From Coq Require Import QArith.
From Verif Require Import NetModel NetworkModel RainModel PipelineModel.
Local Open Scope Z_scope.

(** scripts/initvolume.py 79-85 with -pr: the precipitation is read without nodatasubst
    (line 82).  Exact arithmetic on the values of the raster. *)
Definition cmd_initvolumes_pr (t : geotransform Q) (bluespots : raster Z) (pr : raster_file) (u : unit)
    (nodes : list (@node_feature Q)) : res (list (@node_feature Q * Q)) :=
  raster_volumes QOps 0%Q 0%Q t bluespots (raster_Q (load None pr)) u nodes.
