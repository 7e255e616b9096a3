(** * What the output directory of the complete command has to contain *)

From Coq Require Import QArith String.
From Verif Require Import Base Num Float64 DemModel LabelModel VectorModel BluespotModel RainModel PipelineModel ApproxModel CompleteModel
  OgrModel CmdModel CmdSpec OutdirModel.
Local Open Scope list_scope.

(** The command on records (CompleteModel) with these options. *)
Definition result (p : options) : res complete_all_out :=
  complete_all (o_speedups p) (o_cc p) (o_fuel p) (o_gt p) (o_dem p) (o_filter p) (o_accum p) (o_mm p) (o_zresolution p).

(** The raster files, in the order they are written. *)
Definition raster_files (p : options) (a : complete_all_out) : list (string * content) :=
  [("filled.tif", Floats (do_filled (ca_dem a))); ("bs_depths.tif", Floats (do_depths (ca_dem a)));
   ("flowdir.tif", Labels (do_flowdir (ca_dem a)))]%string ++
  (if o_accum p then [("accum.tif", Labels (do_accum (ca_dem a)))]%string else []) ++
  [("bluespots.tif", Labels (bo_labeled (ca_bluespots a))); ("watersheds.tif", Labels (bo_watersheds (ca_bluespots a)));
   ("finaldepths.tif", Exact (fo_depths (ca_finish a))); ("finalbluespots.tif", Labels (fo_labels (ca_finish a)))]%string.

(** A layer is missing, or has no features, or has those of [rs]. *)
Definition shows_or_empty {A} (ds : store) (n : string) (attrs : A -> list (string * option value)) (rs : list A) : Prop :=
  read_features ds (Some n) = Exc PlainException \/ read_features ds (Some n) = Ok [] \/ layer_shows ds n attrs rs.

(** All layers of a run of the command, each as [shown] says. *)
Definition layers_are (shown : forall A, string -> (A -> list (string * option value)) -> list A -> Prop)
    (p : options) (a : complete_all_out) : Prop :=
  let L := complete_names in
  (o_vector p = true -> shown _ "bluespots"%string polygon_props (o_polygons p (bo_labeled (ca_bluespots a)))) /\
  (o_vector p = true -> shown _ "watersheds"%string polygon_props (o_polygons p (bo_watersheds (ca_bluespots a)))) /\
  shown _ (l_pourpoints L) pourpoint_props (ca_pourpoints a) /\
  shown _ (l_nodes L) node_attrs (map fst (co_nodes (ca_volumes a))) /\
  shown _ (l_streams L) stream_attrs (co_streams (ca_volumes a)) /\
  shown _ (l_init L) (volume_attrs "inputv") (co_nodes (ca_volumes a)) /\
  shown _ (l_final L) final_attrs (co_final (ca_volumes a)) /\
  shown _ (l_hyps L) hyps_attrs (fo_hyps (ca_finish a)) /\
  shown _ (l_levels L) level_attrs (fo_levels (ca_finish a)) /\
  shown _ "finalbluespots"%string polygon_props (o_polygons p (fo_labels (ca_finish a))).

Definition empty_dir : outdir := mkDir [] [] None.
