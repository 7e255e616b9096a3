(** * Model of malstroem/scripts/complete.py up to the final volumes, all in binary64

    As PipelineModel, but areas, volumes and water are Python floats (numpy float64) too:
    the pour points are those BluespotTool computes, the volumes those of SimpleVolumeTool
    and the network is settled with floats.  Attributes written to and read from OGR layers
    as Real are kept. *)

From Coq Require Import List.
From Verif Require Import Base Num Float64 DemModel BluespotModel VectorModel NetworkModel RainModel.

Record float_out := mkFO {
  fo_nodes : list (@node_feature b64 * b64);            (* nodes and initial volumes *)
  fo_streams : list (@stream_feature b64);
  fo_final : list (@node b64 * option (@event b64))     (* the final state *)
}.

(** complete.py 58-124: DemTool, BluespotTool, StreamTool, SimpleVolumeTool,
    FinalStateCalculator. *)
Definition complete64 (sp : bool) (cc : raster bool -> raster Z * Z) (fuel : nat) (t : geotransform b64)
    (dem : raster b64) (filterfunction : @unit_stats b64 -> bool) (use_accum : bool) (mm : b64) : res float_out :=
  dout <- dem_process sp fuel (gt1 t) (gt5 t) dem ;;
  out <- bluespot_process sp cc fuel t (do_depths dout) (do_flowdir dout) (Some filterfunction)
           (if use_accum then Some (accum64 (do_accum dout)) else None) (Some dem) ;;
  '(nodes, streams) <- stream_process F64Ops fuel t (do_flowdir dout) (bo_labeled out) (bo_pourpoints out) true ;;
  let vols := simple_volumes F64Ops mm nodes in
  final <- process F64Ops (length vols) (map solver_node vols) ;;
  Ok (mkFO vols streams final).
