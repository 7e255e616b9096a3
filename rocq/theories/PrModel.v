(** * Model of initvolumes -pr on features (rain.py 84-174, scripts/initvolume.py 61-85)

    Continues CmdModel: [RasterVolumeTool] on features with attributes looked up by name. *)

From Coq Require Import QArith String.
From Verif Require Import Base Num Float64 Dict LabelModel VectorModel BluespotModel NetworkModel RainModel PipelineModel StepModel OgrModel CmdModel.
Local Open Scope Z_scope.
Local Open Scope list_scope.

(** rain.py 121-174.  The int 0 of nodes without a label (line 166) is in a column with the
    float of node 0, so OGR makes it a real. *)
Definition raster_volume_tool (t : geotransform Q) (bluespots : raster Z) (water : raster Q) (u : unit) (attribute : string)
    (nodes : list props) : res (list props) :=
  if negb ((nrows bluespots =? nrows water) && (ncols bluespots =? ncols water)) then Exc AssertionError else
  stats <- label_stats QOps 0%Q 0%Q water bluespots None ;;
  let volumes := map (fun s => nmul QOps (s_sum s) (conversion_factor QOps u (cell_area QOps t))) stats in
  let max_id := Z.of_nat (length volumes) - 1 in
  mmap (fun f =>
          id <- get_index f "nodeid" ;;
          v <- (if id <=? max_id then list_rd volumes id else Ok (nofZ QOps 0)) ;;
          Ok (dset String.eqb f attribute (Some (VReal v)))) nodes.

(** scripts/initvolume.py 61-85 with -pr; [mm] and [bluespots] are None when not given.  The
    precipitation is read without nodatasubst (line 82). *)
Definition cmd_initvolumes_raster (mm : option Q) (t : geotransform Q) (bluespots : option (raster Z)) (pr : raster_file) (u : unit)
    (nodes : store) (nodes_layer : string) (out : store) (out_layer out_attribute : string) : res store :=
  source <- initvolumes_source QOps mm true (match bluespots with Some _ => true | None => false end) ;;
  match source, bluespots with
  | Use_raster, Some b =>
      fs <- read_features nodes (Some nodes_layer) ;;
      out_fs <- raster_volume_tool t b (raster_Q (load None pr)) u out_attribute fs ;;
      Ok (write_features out out_layer out_fs)
  | _, _ => Exc UsageError
  end.

(** The commands of CmdModel.vector_steps with initvolumes -pr; [water_labels] is what -bluespots
    of initvolumes names. *)
Definition vector_steps_pr (fuel : nat) (t : geotransform b64) (dem : raster b64) (flowdir bluespots water_labels : raster Z)
    (pr : raster_file) (u : unit) (zresolution : Q) (attribute : string) (L : layer_names) (ds : store)
  : res (store * raster Q * raster Z) :=
  ds <- cmd_network fuel flowdir bluespots ds (l_pourpoints L) ds (l_nodes L) (l_streams L) ;;
  ds <- cmd_initvolumes_raster None (gt_Q t) (Some water_labels) pr u ds (l_nodes L) ds (l_init L) attribute ;;
  ds <- cmd_finalvolumes ds (l_init L) attribute ds (l_final L) ;;
  ds <- cmd_hyps t bluespots dem zresolution ds (l_pourpoints L) ds (l_hyps L) ;;
  ds <- cmd_finallevels ds (l_final L) ds (l_hyps L) ds (l_levels L) ;;
  '(depths, labels) <- cmd_finalbluespots bluespots dem ds (l_levels L) ;;
  Ok (ds, depths, labels).
