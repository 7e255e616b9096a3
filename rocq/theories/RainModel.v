(** * Model of malstroem/streams.py and malstroem/rain.py

    Readers and writers are left out: a tool is a function from what it reads to what
    it writes.  Attributes of features that later steps do not read are left out. *)

From Verif Require Import Base Num Dict LabelModel VectorModel BluespotModel NetModel NetworkModel.

Section Rain.
Context {T : Type}.
Variable ops : NumOps T.

(** The point features of streams.py 81-108. *)
Record node_feature := mkNF {
  nf_id : Z; nf_dstr : option Z; nf_junction : bool; nf_row : Z; nf_col : Z;
  nf_bspot : option Z; nf_area : T; nf_vol : T; nf_wshed : T; nf_coord : T * T
}.

(** The line features of streams.py 112-123. *)
Record stream_feature := mkSF { sf_id : Z; sf_dstr : option Z; sf_coords : list (T * T) }.

(** streams.py 81-108: one node; [pp_index] maps 'bspot_id' to the pour point. *)
Definition make_node (t : geotransform T) (pp_index : list (Z * @pourpoint T)) (n : gnode) : node_feature :=
  let coord := transform_cell_to_world ops (g_pix n) t in
  match dget Z.eqb pp_index (g_id n) with
  | Some p => mkNF (g_id n) (g_dstr n) (g_junction n) (fst (g_pix n)) (snd (g_pix n))
                (Some (pp_id p)) (pp_area p) (pp_vol p) (pp_wshed p) coord
  | None => mkNF (g_id n) (g_dstr n) (g_junction n) (fst (g_pix n)) (snd (g_pix n))
                None (nofZ ops 0) (nofZ ops 0) (nofZ ops 0) coord
  end.

(** streams.py 113-122: a line for every node with geometry. *)
Definition make_streams (t : geotransform T) (nodes : list gnode) : list stream_feature :=
  map (fun n => mkSF (g_id n) (g_dstr n) (map (fun c => transform_cell_to_world ops c t) (g_geom n)))
    (filter (fun n => match g_geom n with [] => false | _ => true end) nodes).

(** streams.py 51-123, [StreamTool.process]; [streams] says whether there is a streams
    writer. *)
Definition stream_process (fuel : nat) (t : geotransform T) (flowdir labeled : raster Z)
    (pourpoints : list (@pourpoint T)) (streams : bool) : res (list node_feature * list stream_feature) :=
  let pix := map (fun p => (pp_row p, pp_col p)) pourpoints in
  nodes <- (if streams then geometric_pourpoint_network else pourpoint_network) fuel flowdir labeled pix (Some 0) ;;
  let pp_index := fold_left (fun d p => dset Z.eqb d (pp_id p) p) pourpoints [] in
  Ok (map (make_node t pp_index) nodes, if streams then make_streams t nodes else []).

(** The literals 0.001 and 1e-3. *)
Definition milli : T := ndiv ops (nofZ ops 1) (nofZ ops 1000).

(** rain.py 54-76, [SimpleVolumeTool.process]: each node with its volume. *)
Definition simple_volumes (rainmm : T) (nodes : list node_feature) : list (node_feature * T) :=
  map (fun n => (n, nmul ops (nmul ops (nf_wshed n) rainmm) milli)) nodes.

(** rain.py 79-82 *)
Inductive unit := U_mm | U_l | U_m3.

(** rain.py 144-157 *)
Definition conversion_factor (u : unit) (area : T) : T :=
  match u with U_mm => nmul ops milli area | U_l => milli | U_m3 => nofZ ops 1 end.

(** rain.py 121-174, [RasterVolumeTool.process].  [pinf], [ninf]: the infinities
    label_stats starts from. *)
Definition raster_volumes (pinf ninf : T) (t : geotransform T) (bluespots : raster Z) (water : raster T)
    (u : unit) (nodes : list node_feature) : res (list (node_feature * T)) :=
  if negb ((nrows bluespots =? nrows water) && (ncols bluespots =? ncols water)) then Exc AssertionError else
  stats <- label_stats ops pinf ninf water bluespots None ;;
  let volumes := map (fun s => nmul ops (s_sum s) (conversion_factor u (cell_area ops t))) stats in
  let max_id := Z.of_nat (length volumes) - 1 in
  mmap (fun n => if nf_id n <=? max_id then v <- list_rd volumes (nf_id n) ;; Ok (n, v)
                 else Ok (n, nofZ ops 0)) nodes.

(** What network.py reads of the features (network.py 41-75). *)
Definition solver_node (nv : node_feature * T) : @node T :=
  mkNode (nf_id (fst nv)) (nf_dstr (fst nv)) (snd nv) (nf_vol (fst nv)).
End Rain.
Arguments nf_id {T}.
Arguments nf_dstr {T}.
Arguments nf_junction {T}.
Arguments nf_row {T}.
Arguments nf_col {T}.
Arguments nf_bspot {T}.
Arguments nf_area {T}.
Arguments nf_vol {T}.
Arguments nf_wshed {T}.
Arguments nf_coord {T}.
Arguments mkNF {T}.
Arguments sf_id {T}.
Arguments sf_dstr {T}.
Arguments sf_coords {T}.
Arguments mkSF {T}.
Arguments solver_node {T}.

(** scripts/initvolume.py 61-64 and 80-82: which of -mm and -pr the command accepts.
    [mm] is None when not given. *)
Inductive volume_source := Use_mm | Use_raster.
Definition truthy {T} (ops : NumOps T) (x : option T) : bool :=
  match x with None => false | Some v => negb (neqb ops v (nofZ ops 0)) end.
Definition initvolumes_source {T} (ops : NumOps T) (mm : option T) (pr bluespots : bool) : res volume_source :=
  if truthy ops mm && pr then Exc UsageError
  else if negb (truthy ops mm) && negb pr then Exc UsageError
  else if truthy ops mm then Ok Use_mm
  else if negb bluespots then Exc UsageError
  else Ok Use_raster.
