(** * Model of malstroem/bluespots.py

    Readers and writers are left out: the tool is a function from the rasters it
    reads to what it writes.  SciPy's labelling is a parameter [cc] (CompSpec.v);
    vectorisation of the labels (output_labeled_vector, output_watersheds_vector)
    is left out. *)

From Flocq Require Import IEEE754.BinarySingleNaN.
From Verif Require Import Base Num Float64 FillModel FlowModel LabelModel CompSpec VectorModel DemModel.

Section Generic.
Context {T : Type}.
Variable ops : NumOps T.

(** bluespots.py 41-43: the dict handed to the filter function. *)
Record unit_stats := mkUnit {
  u_min : T; u_max : T; u_sum : T; u_count : Z; u_volume : T; u_area : T
}.

Definition with_units (area : T) (s : @stat T) : unit_stats :=
  mkUnit (s_min s) (s_max s) (s_sum s) (s_count s)
    (nmul ops (s_sum s) area) (nmul ops (nofZ ops (s_count s)) area).

(** bluespots.py 23-46, [filterbluespots].  The filter returns a bool (other truthy
    values behave like True in keep_labels). *)
Definition filterbluespots (filterfunction : unit_stats -> bool) (area : T) (raw : list (@stat T))
  : list bool :=
  map (fun s => filterfunction (with_units area s)) raw.

Record pourpoint := mkPP {
  pp_id : Z; pp_row : Z; pp_col : Z;
  pp_dmax : T; pp_area : T; pp_vol : T; pp_wshed : T; pp_fumm : T;
  pp_coord : T * T
}.

(** bluespots.py 49-88, [assemble_pourpoints]; [zip] stops at the shortest list, ix
    counts from 0.  The division is numpy's: no exception when the watershed area
    is zero. *)
Fixpoint assemble_from (ix : Z) (t : geotransform T) (pp_pix : list (@index_record T))
    (bluespot_stats : list (@stat T)) (watershed_stats : list Z) : list pourpoint :=
  match pp_pix, bluespot_stats, watershed_stats with
  | p :: pp_pix, s :: bluespot_stats, w :: watershed_stats =>
      let a := cell_area ops t in
      let vol := nmul ops (s_sum s) a in
      let wshed := nmul ops (nofZ ops w) a in
      mkPP ix (i_row p) (i_col p) (s_max s) (nmul ops (nofZ ops (s_count s)) a) vol wshed
        (ndiv ops (nmul ops (nofZ ops 1000) vol) wshed)
        (transform_cell_to_world ops (i_row p, i_col p) t)
      :: assemble_from (ix + 1) t pp_pix bluespot_stats watershed_stats
  | _, _, _ => []
  end.
Definition assemble_pourpoints := assemble_from 0.
End Generic.
Arguments u_min {T}.
Arguments u_max {T}.
Arguments u_sum {T}.
Arguments u_count {T}.
Arguments u_volume {T}.
Arguments u_area {T}.
Arguments mkUnit {T}.
Arguments pp_id {T}.
Arguments pp_row {T}.
Arguments pp_col {T}.
Arguments pp_dmax {T}.
Arguments pp_area {T}.
Arguments pp_vol {T}.
Arguments pp_wshed {T}.
Arguments pp_fumm {T}.
Arguments pp_coord {T}.
Arguments mkPP {T}.

(** What SciPy takes as feature: non-zero (NaN is). *)
Definition nonzero (depths : raster b64) : raster bool :=
  mkRaster (nrows depths) (ncols depths) (fun i j => negb (Beqb (rget depths i j) f64_zero)).

(** The accumulated flow raster as float64. *)
Definition accum64 (a : raster Z) : raster b64 :=
  mkRaster (nrows a) (ncols a) (fun i j => f64_ofZ (rget a i j)).

Record bluespot_out := mkBO {
  bo_labeled : raster Z;
  bo_nlabels : Z;
  bo_watersheds : raster Z;
  bo_pourpoints : list (@pourpoint b64)
}.

(** bluespots.py 198-211: pour point cells, from accumulated flow when given, else
    from the DEM. *)
Definition pour_cells (speedups : bool) (fuel : nat) (accum dem : option (raster b64))
    (labeled : raster Z) (nlabels : Z) : res (list (@index_record b64)) :=
  match accum, dem with
  | Some accum, _ => label_max_index64 accum labeled (Some nlabels)
  | None, Some dem =>
      '(short, diag) <- minimum_safe_short_and_diag dem ;;
      filled_no_flats <- (if speedups then fill_nf64_cy else fill_nf64) short diag fuel dem ;;
      (if speedups then label_min_index64_cy else label_min_index64) filled_no_flats labeled (Some nlabels)
  | None, None => Exc PlainException
  end.

(** bluespots.py 134 (the assertion of [__init__]) and 138-219, [BluespotTool.process].
    Without filter function the code writes the raw labels and goes on to use the
    variable [labeled], which has not been assigned (line 186). *)
Definition bluespot_process (speedups : bool) (cc : raster bool -> raster Z * Z) (fuel : nat)
    (t : geotransform b64) (depths : raster b64) (flowdir : raster Z)
    (filterfunction : option (@unit_stats b64 -> bool)) (accum dem : option (raster b64))
  : res bluespot_out :=
  if match accum, dem with None, None => true | _, _ => false end then Exc AssertionError else
  if negb (square_cells (gt1 t) (gt5 t)) then Exc AssertionError else
  let area := cell_area F64Ops t in
  let stats := if speedups then label_stats64_cy else label_stats64 in
  let raw_labeled := fst (cc (nonzero depths)) in
  raw_bluespot_stats <- stats depths raw_labeled None ;;
  match filterfunction with
  | None => Exc UnboundLocalError
  | Some filterfunction =>
      let keepers := filterbluespots F64Ops filterfunction area raw_bluespot_stats in
      new_components <- keep_labels raw_labeled keepers 0 ;;
      let (labeled, nlabels) := cc new_components in
      bluespot_stats <- stats depths labeled None ;;
      watersheds <- (if speedups then watersheds_from_labels_cy else watersheds_from_labels)
                      fuel flowdir labeled 0 ;;
      watershed_stats <- label_count watersheds ;;
      pp_pix <- pour_cells speedups fuel accum dem labeled nlabels ;;
      Ok (mkBO labeled nlabels watersheds
            (assemble_pourpoints F64Ops t pp_pix bluespot_stats watershed_stats))
  end.
