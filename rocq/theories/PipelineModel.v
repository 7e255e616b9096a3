(** * Model of malstroem/scripts/complete.py up to the final volumes

    Raster and flow decisions are made on IEEE numbers as in the code; areas, volumes and
    water are computed exactly (QOps).  The hypsometry and approximation steps that follow
    (complete.py 126-141) do not influence the volumes. *)

From Coq Require Import QArith.
From Flocq Require Import IEEE754.BinarySingleNaN.
From Verif Require Import Base Num Float64 FillModel FlowModel DemModel LabelModel CompSpec VectorModel BluespotModel NetModel
  NetworkModel RainModel.
Local Open Scope Z_scope.

(** The value of a float (0 for infinities and NaN). *)
Definition b64_Q (x : b64) : Q :=
  match x with
  | B754_finite s m e _ =>
      let z := if s then Z.neg m else Z.pos m in
      if 0 <=? e then inject_Z (z * 2 ^ e) else Qmake z (Z.to_pos (2 ^ (- e)))
  | _ => 0%Q
  end.
Definition raster_Q (a : raster b64) : raster Q := mkRaster (nrows a) (ncols a) (fun i j => b64_Q (rget a i j)).
Definition gt_Q (t : geotransform b64) : geotransform Q :=
  mkGT (b64_Q (gt0 t)) (b64_Q (gt1 t)) (b64_Q (gt2 t)) (b64_Q (gt3 t)) (b64_Q (gt4 t)) (b64_Q (gt5 t)).

(** bluespots.py 181-216 in exact arithmetic, for the labels, watersheds and pour point
    cells of [out]: the attributes of the pour points.  Depths are not negative, so 0 can
    stand for the infinities label_stats starts from. *)
Definition exact_pourpoints (t : geotransform b64) (depths : raster b64) (out : bluespot_out)
  : res (list (@pourpoint Q)) :=
  stats <- label_stats QOps 0%Q 0%Q (raster_Q depths) (bo_labeled out) None ;;
  watershed_stats <- label_count (bo_watersheds out) ;;
  Ok (assemble_pourpoints QOps (gt_Q t)
        (map (fun p => mkIdx 0%Q (pp_row p) (pp_col p)) (bo_pourpoints out)) stats watershed_stats).

Record complete_out := mkCO {
  co_nodes : list (@node_feature Q * Q);              (* nodes and initial volumes *)
  co_streams : list (@stream_feature Q);
  co_final : list (@node Q * option (@event Q))       (* the final state *)
}.

(** complete.py 58-124: DemTool, BluespotTool, StreamTool, SimpleVolumeTool,
    FinalStateCalculator.  The solver gets as much fuel as there are nodes, which is
    always enough (C35). *)
Definition complete (sp : bool) (cc : raster bool -> raster Z * Z) (fuel : nat) (t : geotransform b64)
    (dem : raster b64) (filterfunction : @unit_stats b64 -> bool) (use_accum : bool) (mm : Q) : res complete_out :=
  dout <- dem_process sp fuel (gt1 t) (gt5 t) dem ;;
  out <- bluespot_process sp cc fuel t (do_depths dout) (do_flowdir dout) (Some filterfunction)
           (if use_accum then Some (accum64 (do_accum dout)) else None) (Some dem) ;;
  pps <- exact_pourpoints t (do_depths dout) out ;;
  '(nodes, streams) <- stream_process QOps fuel (gt_Q t) (do_flowdir dout) (bo_labeled out) pps true ;;
  let vols := simple_volumes QOps mm nodes in
  final <- process QOps (length vols) (map solver_node vols) ;;
  Ok (mkCO vols streams final).
