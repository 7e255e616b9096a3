(** * Model of the vector tools on features, and of the commands network ... finalbluespots

    Here the tools read and write GeoJSON features through a datasource (OgrModel), looking
    attributes up by name, as the code does.  RainModel, NetworkModel, HypsModel and ApproxModel
    describe the same tools on records.  Numbers are exact.  Geometries are left out.  An id
    that is not an integer raises (Python accepts any key in a dict). *)

From Coq Require Import QArith Qabs String.
From Verif Require Import Base Num Float64 Dict LabelModel VectorModel BluespotModel NetModel
  NetworkModel RainModel PipelineModel HypsModel ApproxModel CompleteModel OgrModel.
Local Open Scope Z_scope.
Local Open Scope list_scope.

(** A value of an attribute. *)
Inductive value := VInt (z : Z) | VReal (q : Q) | VText (s : string).

(** The 'properties' of a feature. *)
Notation props := (feature value).

(** [props[k]] *)
Definition prop (f : props) (k : string) : res (option value) := dget_err String.eqb f k.

(** [float(x)], [int(x)] of an attribute; a text that spells a number is not modelled. *)
Definition py_float (v : option value) : res Q :=
  match v with
  | Some (VInt z) => Ok (inject_Z z)
  | Some (VReal q) => Ok q
  | Some (VText _) => Exc ValueError
  | None => Exc TypeError
  end.
Definition py_int (v : option value) : res Z :=
  match v with
  | Some (VInt z) => Ok z
  | Some (VReal q) => Q_int q
  | Some (VText _) => Exc ValueError
  | None => Exc TypeError
  end.
Definition get_float (f : props) (k : string) : res Q := v <- prop f k ;; py_float v.
Definition get_int (f : props) (k : string) : res Z := v <- prop f k ;; py_int v.

(** [props[k]] used as an id or as an array index; an id may be None. *)
Definition get_index (f : props) (k : string) : res Z :=
  v <- prop f k ;; match v with Some (VInt z) => Ok z | _ => Exc TypeError end.
Definition get_id (f : props) (k : string) : res (option Z) :=
  v <- prop f k ;; match v with Some (VInt z) => Ok (Some z) | None => Ok None | _ => Exc TypeError end.

(** [{f['properties'][k]: f for f in features}] *)
Definition index_by (read : props -> string -> res Z) (k : string) (fs : list props) : res (list (Z * props)) :=
  mfold (fun d f => i <- read f k ;; Ok (dset Z.eqb d i f)) fs [].

(** [x["properties"]["nodetype"] == "pourpoint"] (approx.py 44, 90) *)
Definition is_pourpoint (f : props) : res bool :=
  v <- prop f "nodetype" ;;
  Ok (match v with Some (VText s) => String.eqb s "pourpoint" | _ => false end).
Fixpoint only_pourpoints (fs : list props) : res (list props) :=
  match fs with
  | [] => Ok []
  | f :: t => b <- is_pourpoint f ;; r <- only_pourpoints t ;; Ok (if (b : bool) then f :: r else r)
  end.

(** bluespots.py 75-83: the attributes of a pour point. *)
Definition pourpoint_props (p : @pourpoint Q) : props :=
  [("bspot_id", Some (VInt (pp_id p))); ("cell_row", Some (VInt (pp_row p))); ("cell_col", Some (VInt (pp_col p)));
   ("bspot_dmax", Some (VReal (pp_dmax p))); ("bspot_area", Some (VReal (pp_area p)));
   ("bspot_vol", Some (VReal (pp_vol p))); ("wshed_area", Some (VReal (pp_wshed p)));
   ("bspot_fumm", Some (VReal (pp_fumm p)))]%string.

(** streams.py 81-103: the attributes of a node. *)
Definition node_props (pp_index : list (Z * props)) (n : gnode) : res props :=
  '(id, area, vol, wshed) <-
    match dget Z.eqb pp_index (g_id n) with
    | None => Ok (None, Some (VReal 0), Some (VReal 0), Some (VReal 0))
    | Some pp =>
        id <- prop pp "bspot_id" ;; area <- prop pp "bspot_area" ;;
        vol <- prop pp "bspot_vol" ;; wshed <- prop pp "wshed_area" ;; Ok (id, area, vol, wshed)
    end ;;
  Ok [("nodeid", Some (VInt (g_id n))); ("dstrnodeid", option_map VInt (g_dstr n));
      ("nodetype", Some (VText (if g_junction n then "junction" else "pourpoint")));
      ("cell_row", Some (VInt (fst (g_pix n)))); ("cell_col", Some (VInt (snd (g_pix n))));
      ("bspot_id", id); ("bspot_area", area); ("bspot_vol", vol); ("wshed_area", wshed)]%string.

(** streams.py 113-118: the attributes of a stream. *)
Definition stream_props (n : gnode) : props :=
  [("nodeid", Some (VInt (g_id n))); ("dstrnodeid", option_map VInt (g_dstr n))]%string.

(** streams.py 51-123, with a streams writer: the nodes and the streams. *)
Definition stream_tool (fuel : nat) (flowdir labeled : raster Z) (pourpoints : list props)
  : res (list props * list props) :=
  pix <- mmap (fun f => r <- get_index f "cell_row" ;; c <- get_index f "cell_col" ;; Ok (r, c)) pourpoints ;;
  nodes <- geometric_pourpoint_network fuel flowdir labeled pix (Some 0) ;;
  pp_index <- index_by get_index "bspot_id" pourpoints ;;
  feats <- mmap (node_props pp_index) nodes ;;
  Ok (feats, map stream_props (filter (fun n => match g_geom n with [] => false | _ => true end) nodes)).

(** rain.py 62-73, [SimpleVolumeTool.process] *)
Definition simple_volume_tool (rainmm : Q) (attribute : string) (nodes : list props) : res (list props) :=
  mmap (fun f =>
          area <- get_float f "wshed_area" ;;
          Ok (dset String.eqb f attribute (Some (VReal (area * rainmm * milli QOps))))) nodes.

(** What network.py 112-136 reads of a node.  The conversions are made before the calculation
    instead of node by node, and also for nodes that are never reached. *)
Definition solver_input (attribute : string) (f : props) : res (@node Q) :=
  id <- get_index f "nodeid" ;;
  dstr <- get_id f "dstrnodeid" ;;
  _ <- get_float f "wshed_area" ;;
  water <- get_float f attribute ;;
  cap <- get_float f "bspot_vol" ;;
  Ok (mkNode id dstr water cap).

(** network.py 57-71: the values of an event copied into the feature. *)
Definition set_event (f : props) (e : @event Q) : props :=
  dset String.eqb (dset String.eqb (dset String.eqb f
    "spillv"%string (Some (VReal (e_spill e)))) "v"%string (Some (VReal (e_vol e)))) "pctv"%string (option_map VReal (e_pct e)).

(** network.py 41-75, [FinalStateCalculator.process]; [process] gives the nodes in the order of
    the index; it gets as much fuel as there are features. *)
Definition final_state_tool (attribute : string) (features : list props) : res (list props) :=
  index <- index_by get_index "nodeid" features ;;
  nodes <- mmap (solver_input attribute) (map snd index) ;;
  final <- process QOps (length features) nodes ;;
  Ok (map (fun '(f, (_, e)) => match e with Some e => set_event f e | None => f end)
        (combine (map snd index) final)).

(** hyps.py 45-49: the attributes added to a pour point. *)
Definition set_hyps (f : props) (h : @hyps_feature Q) : props :=
  match hf_dict h, hf_cell_area h with
  | Some d, Some a =>
      fold_left (fun f '(k, v) => dset String.eqb f k (Some v))
        [("hist_counts", VText (d_counts d)); ("hist_num_bins", VInt (d_num_bins d));
         ("hist_lower_bound", VReal (d_lower d)); ("hist_upper_bound", VReal (d_upper d));
         ("hist_resolution", VReal (d_resolution d)); ("zmin", VReal (d_zmin d)); ("zmax", VReal (d_zmax d));
         ("cell_area", VReal a)]%string f
  | _, _ => f
  end.

(** hyps.py 26-52, [bluespot_hypsometry_io]; the features of [HypsModel.bluespot_hypsometry_io]
    come in the order of the index. *)
Definition hyps_tool (t : geotransform b64) (labels : raster Z) (dem : raster b64) (zresolution : Q)
    (pourpoints : list props) : res (list props) :=
  index <- index_by get_index "bspot_id" pourpoints ;;
  hfs <- bluespot_hypsometry_io QOps Q_int q_inf (- q_inf)%Q labels (raster_Q dem)
           (Qabs (b64_Q (gt5 t)), Qabs (b64_Q (gt1 t))) (map fst index) zresolution ;;
  Ok (map (fun '(f, h) => set_hyps f h) (combine (map snd index) hfs)).

(** hyps.py 112-119, [hypsometrystats_from_flatdict]: what it reads.  Counts that are
    not a text have no method split: PlainException stands for AttributeError. *)
Definition read_flatdict (f : props) : res (@flatdict Q) :=
  num <- get_int f "hist_num_bins" ;;
  lower <- get_float f "hist_lower_bound" ;;
  upper <- get_float f "hist_upper_bound" ;;
  resolution <- get_float f "hist_resolution" ;;
  v <- prop f "hist_counts" ;;
  counts <- match v with
            | Some (VText s) => Ok s
            | _ => if 0 <? num then Exc PlainException else Ok ""%string
            end ;;
  zmin <- get_float f "zmin" ;;
  zmax <- get_float f "zmax" ;;
  Ok (mkFlat counts num lower upper resolution zmin zmax).

(** approx.py 25-72, [approx_water_level_io] *)
Definition levels_tool (finalvols hyps_features : list props) : res (list props) :=
  hyps_index <- index_by get_int "bspot_id" hyps_features ;;
  finals <- only_pourpoints finalvols ;;
  mmap (fun f =>
          bsid <- get_int f "bspot_id" ;;
          final_vol <- get_float f "v" ;;
          i <- dget_err Z.eqb hyps_index bsid ;;
          _ <- get_int i "bspot_id" ;;
          d <- read_flatdict i ;;
          h <- hyps_from_flatdict d ;;
          cell_area <- get_float i "cell_area" ;;
          max_depth <- get_float i "bspot_dmax" ;;
          max_vol <- get_float i "bspot_vol" ;;
          level <- water_level QOps h cell_area max_depth max_vol final_vol ;;
          Ok (dset String.eqb (dset String.eqb f "approx_z"%string (Some (VReal level)))
                "approx_dmax"%string (Some (VReal (level - z_min h))))) finals.

(** approx.py 90: what is read of a water level feature. *)
Definition read_level (f : props) : res (bool * Z * Q) :=
  b <- is_pourpoint f ;;
  if (b : bool) then id <- get_int f "bspot_id" ;; z <- get_float f "approx_z" ;; Ok (true, id, z)
  else Ok (false, 0, 0%Q).

(** approx.py 75-123, [approx_bluespots_io], with both writers. *)
Definition bluespots_tool (labels : raster Z) (levels : list props) (dem : raster b64)
  : res (raster Q * raster Z) :=
  ls <- mmap read_level levels ;;
  '(depths, final_labels) <- approx_bluespots_io QOps labels ls (raster_Q dem) true true 0 ;;
  match depths, final_labels with
  | Some depths, Some final_labels => Ok (depths, final_labels)
  | _, _ => Exc PlainException
  end.

Notation store := (datasource value).

(** scripts/stream.py 47-64, network *)
Definition cmd_network (fuel : nat) (flowdir bluespots : raster Z) (pourpoints : store) (pourpoints_layer : string)
    (out : store) (nodes_layer streams_layer : string) : res store :=
  fs <- read_features pourpoints (Some pourpoints_layer) ;;
  '(nodes, streams) <- stream_tool fuel flowdir bluespots fs ;;
  Ok (write_features (write_features out nodes_layer nodes) streams_layer streams).

(** scripts/initvolume.py 61-77, initvolumes with -mm *)
Definition cmd_initvolumes_mm (mm : Q) (nodes : store) (nodes_layer : string) (out : store)
    (out_layer out_attribute : string) : res store :=
  source <- initvolumes_source QOps (Some mm) false false ;;
  fs <- read_features nodes (Some nodes_layer) ;;
  out_fs <- simple_volume_tool mm out_attribute fs ;;
  Ok (write_features out out_layer out_fs).

(** scripts/finalstate.py 41-61, finalvolumes *)
Definition cmd_finalvolumes (inputvolumes : store) (inputvolumes_layer attribute : string) (out : store)
    (out_layer : string) : res store :=
  fs <- read_features inputvolumes (Some inputvolumes_layer) ;;
  out_fs <- final_state_tool attribute fs ;;
  Ok (write_features out out_layer out_fs).

(** scripts/hyps.py 34-54, hyps; [dem] as read with nodatasubst. *)
Definition cmd_hyps (t : geotransform b64) (bluespots : raster Z) (dem : raster b64) (zresolution : Q)
    (pourpoints : store) (pourpoints_layer : string) (out : store) (out_layer : string) : res store :=
  fs <- read_features pourpoints (Some pourpoints_layer) ;;
  out_fs <- hyps_tool t bluespots dem zresolution fs ;;
  Ok (write_features out out_layer out_fs).

(** scripts/finalstate.py 76-89, finallevels *)
Definition cmd_finallevels (finalvols : store) (finalvols_layer : string) (hyps : store) (hyps_layer : string)
    (out : store) (out_layer : string) : res store :=
  finals <- read_features finalvols (Some finalvols_layer) ;;
  hs <- read_features hyps (Some hyps_layer) ;;
  out_fs <- levels_tool finals hs ;;
  Ok (write_features out out_layer out_fs).

(** scripts/finalstate.py 102-117, finalbluespots with both outputs *)
Definition cmd_finalbluespots (bluespots : raster Z) (dem : raster b64) (finallevels : store) (finallevels_layer : string)
  : res (raster Q * raster Z) :=
  fs <- read_features finallevels (Some finallevels_layer) ;;
  bluespots_tool bluespots fs dem.

(** The names of the layers. *)
Record layer_names := mkNames {
  l_pourpoints : string; l_nodes : string; l_streams : string; l_init : string;
  l_final : string; l_hyps : string; l_levels : string
}.
(** The defaults of the commands, and the names complete.py 85-137 uses. *)
Definition step_names := mkNames "pourpoints" "nodes" "streams" "initvolumes" "finalvolumes" "hyps" "finallevels".
Definition complete_names := mkNames "pourpoints" "nodes" "streams" "initvolumes" "finalstate" "hypsometry" "finallevels".

(** network, initvolumes, finalvolumes, hyps, finallevels and finalbluespots one after the
    other on one datasource that has the pour points: the datasource in the end and the
    rasters. *)
Definition vector_steps (fuel : nat) (t : geotransform b64) (dem : raster b64) (flowdir bluespots : raster Z)
    (mm zresolution : Q) (attribute : string) (L : layer_names) (ds : store)
  : res (store * raster Q * raster Z) :=
  ds <- cmd_network fuel flowdir bluespots ds (l_pourpoints L) ds (l_nodes L) (l_streams L) ;;
  ds <- cmd_initvolumes_mm mm ds (l_nodes L) ds (l_init L) attribute ;;
  ds <- cmd_finalvolumes ds (l_init L) attribute ds (l_final L) ;;
  ds <- cmd_hyps t bluespots dem zresolution ds (l_pourpoints L) ds (l_hyps L) ;;
  ds <- cmd_finallevels ds (l_final L) ds (l_hyps L) ds (l_levels L) ;;
  '(depths, labels) <- cmd_finalbluespots bluespots dem ds (l_levels L) ;;
  Ok (ds, depths, labels).
