(** * Model of malstroem/scripts/complete.py, all steps

    The steps up to the final volumes are those of PipelineModel.complete; here the
    hypsometry, the approximate levels and the final rasters follow (complete.py 126-141),
    in exact arithmetic.  Polygonizing the final bluespots (complete.py 143-145) is not
    modelled. *)

From Coq Require Import QArith Qabs.
From Verif Require Import Base Num Float64 Dict FillModel FlowModel DemModel LabelModel CompSpec VectorModel BluespotModel NetModel
  NetworkModel RainModel PipelineModel HypsModel ApproxModel.
Local Open Scope Z_scope.

(** Stands for float('inf') in label_stats: above every finite float. *)
Definition q_inf : Q := inject_Z (2 ^ 1024).

(** A feature of the hypsometry layer as approx.py 32-39 reads it: hyps.py 47-49 adds its
    attributes to the pour point features, so bspot_dmax and bspot_vol are those of the pour
    point.  An attribute that was not set reads as None, and float(None) raises. *)
Definition hyps_input_of (pp_index : list (Z * @pourpoint Q)) (f : @hyps_feature Q) : res (@hyps_input Q) :=
  p <- dget_err Z.eqb pp_index (hf_bspot f) ;;
  match hf_dict f, hf_cell_area f with
  | Some d, Some a => Ok (mkHI (hf_bspot f) d a (pp_dmax p) (pp_vol p))
  | _, _ => Exc TypeError
  end.

(** A feature of the final state as approx.py 43-47 reads it: nodetype and bspot_id are those
    of the node feature (streams.py 81-108), v is that of the event (network.py 66-71). *)
Definition final_feature_of (nf_index : list (Z * @node_feature Q)) (p : @node Q * option (@event Q)) : res (@final_feature Q) :=
  n <- dget_err Z.eqb nf_index (n_id (fst p)) ;;
  if nf_junction n then Ok (mkFF false 0 0%Q)
  else match nf_bspot n, snd p with
       | Some b, Some e => Ok (mkFF true b (e_vol e))
       | _, _ => Exc TypeError
       end.

Record finish_out := mkFO {
  fo_hyps : list (@hyps_input Q);
  fo_levels : list (@level_feature Q);
  fo_depths : raster Q;
  fo_labels : raster Z
}.

(** complete.py 126-141: hypsometry, levels, final depths and bluespots.  resolution of a
    reader is (abs(transform[5]), abs(transform[1])) (io.py 68).  All levels written are those
    of pour points. *)
Definition finish (t : geotransform b64) (dem : raster b64) (labels : raster Z) (pps : list (@pourpoint Q))
    (vols : list (@node_feature Q * Q)) (final : list (@node Q * option (@event Q))) (zresolution : Q) : res finish_out :=
  hfs <- bluespot_hypsometry_io QOps Q_int q_inf (- q_inf)%Q labels (raster_Q dem)
           (Qabs (b64_Q (gt5 t)), Qabs (b64_Q (gt1 t))) (map pp_id pps) zresolution ;;
  let pp_index := fold_left (fun d p => dset Z.eqb d (pp_id p) p) pps [] in
  his <- mmap (hyps_input_of pp_index) hfs ;;
  let nf_index := fold_left (fun d nv => dset Z.eqb d (nf_id (fst nv)) (fst nv)) vols [] in
  ffs <- mmap (final_feature_of nf_index) final ;;
  levels <- approx_water_level_io QOps ffs his ;;
  ' (depths, final_labels) <- approx_bluespots_io QOps labels (map (fun o => (true, lf_bspot o, lf_z o)) levels)
                                (raster_Q dem) true true 0 ;;
  match depths, final_labels with
  | Some depths, Some final_labels => Ok (mkFO his levels depths final_labels)
  | _, _ => Exc PlainException
  end.

Record complete_all_out := mkCA {
  ca_dem : dem_out;
  ca_bluespots : bluespot_out;
  ca_pourpoints : list (@pourpoint Q);
  ca_volumes : complete_out;
  ca_finish : finish_out
}.

(** complete.py 40-141 *)
Definition complete_all (sp : bool) (cc : raster bool -> raster Z * Z) (fuel : nat) (t : geotransform b64)
    (dem : raster b64) (filterfunction : @unit_stats b64 -> bool) (use_accum : bool) (mm zresolution : Q)
  : res complete_all_out :=
  dout <- dem_process sp fuel (gt1 t) (gt5 t) dem ;;
  out <- bluespot_process sp cc fuel t (do_depths dout) (do_flowdir dout) (Some filterfunction)
           (if use_accum then Some (accum64 (do_accum dout)) else None) (Some dem) ;;
  pps <- exact_pourpoints t (do_depths dout) out ;;
  '(nodes, streams) <- stream_process QOps fuel (gt_Q t) (do_flowdir dout) (bo_labeled out) pps true ;;
  let vols := simple_volumes QOps mm nodes in
  final <- process QOps (length vols) (map solver_node vols) ;;
  fin <- finish t dem (bo_labeled out) pps vols final zresolution ;;
  Ok (mkCA dout out pps (mkCO vols streams final) fin).
