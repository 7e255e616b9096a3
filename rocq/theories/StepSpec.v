(** * What it means that the step-by-step commands agree with 'complete' *)

From Flocq Require Import IEEE754.BinarySingleNaN.
From Verif Require Import Base Num Float64 CompSpec BluespotModel IoModel StepModel.
Local Open Scope Z_scope.

(** No value but -999 itself is so close to -999 that reading takes it for nodata. *)
Definition unmistakable (a : raster b64) : Prop :=
  forall c, inside (nrows a) (ncols a) c -> isclose (at_ a c) (f64_ofZ (-999)) = true -> at_ a c = f64_ofZ (-999).

(** Reading the DEM with nodatasubst changes no cell. *)
Definition no_nodata (f : raster_file) : Prop :=
  forall c, inside (nrows (rf_data f)) (ncols (rf_data f)) c ->
    at_ (load (Some (f64_ofZ (-999))) f) c = at_ (rf_data f) c.

(** The files hold the same values. *)
Definition same_values (o o' : step_out) : Prop :=
  rf_data (so_filled o) = rf_data (so_filled o') /\ rf_data (so_depths o) = rf_data (so_depths o') /\
  so_flowdir o = so_flowdir o' /\ so_accum o = so_accum o' /\
  so_bspots o = so_bspots o' /\ so_wsheds o = so_wsheds o' /\ so_pourpts o = so_pourpts o'.

(** The labelling depends on the values in the array only. *)
Definition cc_ext (cc : raster bool -> raster Z * Z) : Prop :=
  forall a b, same_shape a b -> (forall c, inside (nrows a) (ncols a) c -> at_ a c = at_ b c) -> cc a = cc b.

From Verif Require Import FillSpec LabelSpec.

(** c is a cell the water of area l can spill over: next to the area, outside it, and as
    high as the water table. *)
Definition threshold (dem filled : raster b64) (lab : raster Z) (l : Z) (c : cell) : Prop :=
  inside (nrows dem) (ncols dem) c /\ at_ lab c <> l /\
  exists d, has_label lab l d /\ adjacent c d /\ eq64 (at_ dem c) (at_ filled d).

(** The file has no data at c: its value is NaN if that is the nodata value, else close to it. *)
Definition nodata_at (f : raster_file) (c : cell) : Prop :=
  inside (nrows (rf_data f)) (ncols (rf_data f)) c /\
  exists nd, rf_nodata f = Some nd /\
    (if is_nan nd then is_nan (at_ (rf_data f) c) = true else isclose (at_ (rf_data f) c) nd = true).

(** The cells without data reach from c to the edge of the raster. *)
Inductive open_hole (f : raster_file) : cell -> Prop :=
| hole_edge : forall c, nodata_at f c -> on_edge (nrows (rf_data f)) (ncols (rf_data f)) c -> open_hole f c
| hole_step : forall c d, nodata_at f c -> adjacent c d -> open_hole f d -> open_hole f c.
