(** * Model of malstroem/scripts/complete.py in binary64 up to the final rasters

    As CompleteModel, but in floats, on top of FloatPipeModel.  The DEM is a float32 raster,
    so numpy computes the histograms of hyps.py in float32: see [np_histogram32].  Everything
    else of hyps.py and approx.py is float64: the statistics of the labels are float64
    (label.py 113-124, _label.pyx), attributes of vector layers and the resolution are Python
    floats, and the raster of levels (a list of Python floats indexed by an integer raster) is
    float64.  Polygonizing the final bluespots (complete.py 143-145) is not modelled. *)

From Coq Require Import List.
From Flocq Require Import IEEE754.BinarySingleNaN.
From Verif Require Import Base Num Float64 Dict DemModel LabelModel BluespotModel VectorModel NetworkModel RainModel HypsModel ApproxModel FloatPipeModel.
Import ListNotations.
Local Open Scope Z_scope.

(** [np.histogram(data, n, (lower, upper))] (hyps.py 74) for a list of float32 values and
    float bounds, numpy 1.x.  The range test and the bin edges are float32
    ([np.result_type] of a float32 array and Python floats is float32): the edges are those of
    [np.linspace], computed in float64 and stored as float32.  A value is put into the bin
    whose edges enclose it; the last bin includes its upper edge.  Less than one bin, a
    reversed and an infinite range raise ValueError; an empty range is widened by 0.5 on both
    sides. *)
Definition np_histogram32 (data : list b64) (n : Z) (lower upper : b64) : res (list Z) :=
  if n <? 1 then Exc ValueError
  else if Bltb upper lower then Exc ValueError
  else if negb (is_finite lower && is_finite upper) then Exc ValueError
  else
    let half := f64_div (f64_ofZ 1) (f64_ofZ 2) in
    let first := if Beqb lower upper then f64_sub lower half else lower in
    let last := if Beqb lower upper then f64_add upper half else upper in
    let edge32 i := store32 (edge F64Ops n first last i) in
    let kept := filter (fun x => Bleb (store32 first) x && Bleb x (store32 last)) data in
    Ok (map (fun i => Z.of_nat (List.length (filter (fun x =>
               Bleb (edge32 i) x && ((i =? n - 1) || Bltb x (edge32 (i + 1)))) kept)))
          (pyrange 0 n 1)).

(** hyps.py 54-75, [bluespot_hypsometry_stats], on a float32 DEM: as
    HypsModel.bluespot_hypsometry_stats, with labels_max given and background 0. *)
Definition hypsometry_stats32 (labels : raster Z) (dem : raster b64) (resolution : b64) (labels_max : Z)
  : res (list (Z * @hyps b64)) :=
  label_z_stats <- label_stats F64Ops f64_inf f64_ninf dem labels (Some labels_max) ;;
  label_data_values <- label_data dem labels (Some labels_max) 0 ;;
  mmap (fun '(label, data) =>
          s <- list_rd label_z_stats label ;;
          h <- (if label =? 0
                then Ok (mkHist [] (mkBins 0 (f64_ofZ 0) (f64_ofZ 0) (f64_ofZ (-1))))
                else
                  bins <- histogram_bins F64Ops b64_int (s_min s) (s_max s) resolution ;;
                  counts <- np_histogram32 data (b_num bins) (b_lower bins) (b_upper bins) ;;
                  Ok (mkHist counts bins)) ;;
          Ok (label, mkHyps h (s_min s) (s_max s)))
    (combine (pyrange 0 (Z.of_nat (List.length label_data_values)) 1) label_data_values).

(** hyps.py 26-52, [bluespot_hypsometry_io], on a float32 DEM: as
    HypsModel.bluespot_hypsometry_io. *)
Definition hypsometry_io32 (labels : raster Z) (dem : raster b64) (cell_res : b64 * b64) (pourpoints : list Z)
    (resolution : b64) : res (list (@hyps_feature b64)) :=
  if negb (Bltb (f64_ofZ 0) resolution) then Exc AssertionError
  else if negb ((nrows labels =? nrows dem) && (ncols labels =? ncols dem)) then Exc AssertionError
  else
    let area := f64_mul (fst cell_res) (snd cell_res) in
    let index := fold_left (fun d id => dset Z.eqb d id (mkHF id None None)) pourpoints [] in
    labels_max <- np_max labels ;;
    vector_labels_max <- match map fst index with
                         | [] => Exc ValueError
                         | x :: t => Ok (zmax_from x t)
                         end ;;
    if negb (labels_max =? vector_labels_max) then Exc AssertionError
    else
      stats <- hypsometry_stats32 labels dem resolution labels_max ;;
      index <- mfold (fun d '(bs_id, s) =>
                 pp <- dget_err Z.eqb d bs_id ;;
                 Ok (dset Z.eqb d bs_id (mkHF (hf_bspot pp) (Some (hyps_to_flatdict s)) (Some area))))
               stats index ;;
      Ok (map snd index).

(** As CompleteModel.hyps_input_of (approx.py 31-38). *)
Definition hyps_input64 (pp_index : list (Z * @pourpoint b64)) (f : @hyps_feature b64) : res (@hyps_input b64) :=
  p <- dget_err Z.eqb pp_index (hf_bspot f) ;;
  match hf_dict f, hf_cell_area f with
  | Some d, Some a => Ok (mkHI (hf_bspot f) d a (pp_dmax p) (pp_vol p))
  | _, _ => Exc TypeError
  end.

(** As CompleteModel.final_feature_of (approx.py 42-46). *)
Definition final_feature64 (nf_index : list (Z * @node_feature b64)) (p : @node b64 * option (@event b64))
  : res (@final_feature b64) :=
  n <- dget_err Z.eqb nf_index (n_id (fst p)) ;;
  if nf_junction n then Ok (mkFF false 0 f64_zero)
  else match nf_bspot n, snd p with
       | Some b, Some e => Ok (mkFF true b (e_vol e))
       | _, _ => Exc TypeError
       end.

Record finish64_out := mkF64 {
  ff_hyps : list (@hyps_input b64);       (* the hypsometry layer *)
  ff_levels : list (@level_feature b64);  (* finallevels *)
  ff_depths : raster b64;                 (* finaldepths.tif *)
  ff_labels : raster Z                    (* finalbluespots.tif *)
}.

(** complete.py 126-141: hypsometry, levels, final depths and bluespots. *)
Definition finish64 (t : geotransform b64) (dem : raster b64) (labels : raster Z) (pps : list (@pourpoint b64))
    (vols : list (@node_feature b64 * b64)) (final : list (@node b64 * option (@event b64))) (zresolution : b64)
  : res finish64_out :=
  hfs <- hypsometry_io32 labels dem (Babs (gt5 t), Babs (gt1 t)) (map pp_id pps) zresolution ;;
  let pp_index := fold_left (fun d p => dset Z.eqb d (pp_id p) p) pps [] in
  his <- mmap (hyps_input64 pp_index) hfs ;;
  let nf_index := fold_left (fun d nv => dset Z.eqb d (nf_id (fst nv)) (fst nv)) vols [] in
  ffs <- mmap (final_feature64 nf_index) final ;;
  levels <- approx_water_level_io F64Ops ffs his ;;
  ' (depths, final_labels) <- approx_bluespots_io F64Ops labels (map (fun o => (true, lf_bspot o, lf_z o)) levels)
                                dem true true 0 ;;
  match depths, final_labels with
  | Some depths, Some final_labels => Ok (mkF64 his levels depths final_labels)
  | _, _ => Exc PlainException
  end.

Record complete64_out := mkC64 {
  c64_dem : dem_out;
  c64_bluespots : bluespot_out;
  c64_volumes : float_out;
  c64_finish : finish64_out
}.

(** complete.py 58-141 *)
Definition complete_all64 (sp : bool) (cc : raster bool -> raster Z * Z) (fuel : nat) (t : geotransform b64)
    (dem : raster b64) (filterfunction : @unit_stats b64 -> bool) (use_accum : bool) (mm zresolution : b64)
  : res complete64_out :=
  dout <- dem_process sp fuel (gt1 t) (gt5 t) dem ;;
  out <- bluespot_process sp cc fuel t (do_depths dout) (do_flowdir dout) (Some filterfunction)
           (if use_accum then Some (accum64 (do_accum dout)) else None) (Some dem) ;;
  '(nodes, streams) <- stream_process F64Ops fuel t (do_flowdir dout) (bo_labeled out) (bo_pourpoints out) true ;;
  let vols := simple_volumes F64Ops mm nodes in
  final <- process F64Ops (length vols) (map solver_node vols) ;;
  fin <- finish64 t dem (bo_labeled out) (bo_pourpoints out) vols final zresolution ;;
  Ok (mkC64 dout out (mkFO vols streams final) fin).
