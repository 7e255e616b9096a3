(** * Model of malstroem/dem.py

    Reading and writing rasters, logging and [del] are left out: the tool is a
    function from the DEM that was read to the four rasters it writes. *)

From Flocq Require Import IEEE754.BinarySingleNaN.
From Verif Require Import Base Num Float64 FillModel FlowModel.

Record dem_out := mkDemOut {
  do_filled : raster b64;
  do_depths : raster b64;
  do_flowdir : raster Z;
  do_accum : raster Z
}.

(** numpy [a - b] on two float32 rasters of the same shape. *)
Definition raster_sub32 (a b : raster b64) : raster b64 :=
  mkRaster (nrows a) (ncols a) (fun i j => f32_sub (rget a i j) (rget b i j)).

(** dem.py 60: [abs(abs(transform[1]) - abs(transform[5])) < 0.01 * abs(transform[1])] *)
Definition square_cells (t1 t5 : b64) : bool :=
  Bltb (Babs (f64_sub (Babs t1) (Babs t5)))
       (f64_mul (f64_div (f64_ofZ 1) (f64_ofZ 100)) (Babs t1)).

(** dem.py 53-93, [DemTool.process], with output_accum given.  [speedups] says
    whether the compiled functions are switched in. *)
Definition dem_process (speedups : bool) (fuel : nat) (t1 t5 : b64) (dem : raster b64) : res dem_out :=
  if negb (square_cells t1 t5) then Exc AssertionError else
  filled <- (if speedups then fill64_cy else fill64) fuel dem ;;
  let depths := raster_sub32 filled dem in
  '(short, diag) <- minimum_safe_short_and_diag dem ;;
  filled_no_flats <- (if speedups then fill_nf64_cy else fill_nf64) short diag fuel dem ;;
  flowdir <- (if speedups then flowdir64_cy else flowdir64) filled_no_flats true ;;
  accum <- (if speedups then accumulated_flow_cy else accumulated_flow) fuel flowdir ;;
  Ok (mkDemOut filled depths flowdir accum).
