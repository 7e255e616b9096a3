(** * C83, C84, C85: the output directory of the complete command

    do_run d r: the directory d after the run r of the complete command, which is a whole run or
    one that is killed before or while it writes some output (OutdirModel).  result p: the values
    the tools compute (CompleteModel).  layers_are shown p a: every layer of the run, as shown says. *)

From Coq Require Import QArith String.
From Verif Require Import Base Num Float64 DemModel LabelModel VectorModel BluespotModel RainModel PipelineModel ApproxModel
  CompleteModel OgrModel OgrSpec CmdModel CmdSpec HistoryModel HistoryRuns OutdirModel OutdirSpec OutdirThms OutdirRuns.
Local Open Scope Z_scope.
Local Open Scope list_scope.

(** A whole run in an empty directory: these raster files, with these values, and these layers. *)
Theorem C83_complete_directory : forall p a, result p = Ok a ->
  snd (trace (process_all p) empty_dir) = Returned 0 /\
  let d := do_run empty_dir (Whole p) in
  d_others d = [] /\ d_rasters d = raster_files p a /\ layers_are (fun A => layer_shows (d_store d)) p a.
Proof. exact complete_directory. Qed.
Print Assumptions C83_complete_directory.

(** Killed at any time: a raster file is missing, or is the one being written, or is right, and
    no file is there without those before it; a layer is missing, or empty, or right. *)
Theorem C83_killed_directory : forall p a k b, result p = Ok a ->
  let d := do_run empty_dir (Cut p k b) in
  d_others d = [] /\
  (exists done rest, raster_files p a = done ++ rest /\
     (d_rasters d = done \/ exists n c rest', rest = (n, c) :: rest' /\ d_rasters d = done ++ [(n, Torn)])) /\
  layers_are (fun A => shows_or_empty (d_store d)) p a.
Proof. exact complete_killed. Qed.
Print Assumptions C83_killed_directory.

(** Where there is a file of final depths, torn or not, all layers but the last are right. *)
Theorem C83_final_depths_last : forall p a k b, result p = Ok a ->
  let d := do_run empty_dir (Cut p k b) in
  In "finaldepths.tif"%string (map fst (d_rasters d)) ->
  layers_are (fun A n attrs rs => n = "finalbluespots"%string \/ layer_shows (d_store d) n attrs rs) p a.
Proof. exact last_files. Qed.
Print Assumptions C83_final_depths_last.

Example C83_example : file_names killed_late =
  [("filled.tif", true); ("bs_depths.tif", true); ("flowdir.tif", true); ("accum.tif", true); ("bluespots.tif", true);
   ("watersheds.tif", true); ("finaldepths.tif", false)]%string /\
  0 < count (d_store killed_late) "finallevels" /\ count (d_store killed_late) "finalbluespots" = -1.
Proof. exact killed_late_files. Qed.

(** A directory that is not empty stays as it is, whatever is run there. *)
Theorem C84_other_files_safe : forall rs d, is_empty d = false -> do_runs d rs = d.
Proof. exact untouched. Qed.
Print Assumptions C84_other_files_safe.

(** After any runs with any options, whole or killed: everything is of one of them. *)
Theorem C84_never_mixed : forall rs d, do_runs d rs = d \/ exists r, In r rs /\ do_runs d rs = do_run d r.
Proof. exact one_run. Qed.
Print Assumptions C84_never_mixed.

(** A run that was killed after it wrote something is never finished by running it again. *)
Example C84_example : file_names (do_runs empty_dir three_runs) = [("filled.tif", true); ("bs_depths.tif", true); ("flowdir.tif", false)]%string /\
  is_empty (do_run empty_dir (Cut (small_options 100%Q) 0 false)) = true.
Proof. exact never_finished. Qed.

(** In the directory of a killed run that has the pour points: after any history of the step
    commands finalbluespots raises or gives the final rasters of the whole run, and it gives them
    after the five commands have been run once more. *)
Theorem C85_steps_finish_killed_run : forall p a k b hs, result p = Ok a -> ~ (o_mm p == 0)%Q ->
  let d := do_run empty_dir (Cut p k b) in
  layer_shows (d_store d) "pourpoints" pourpoint_props (ca_pourpoints a) ->
  exists flowdir labels, read_labels d "flowdir.tif" = Ok flowdir /\ read_labels d "bluespots.tif" = Ok labels /\
  let s := mkSetting (o_fuel p) (o_gt p) (o_dem p) flowdir labels (o_mm p) (o_zresolution p) "inputv" complete_names in
  let ds := history s hs (d_store d) in
  let rasters ds := cmd_finalbluespots labels (o_dem p) ds "finallevels" in
  let right := Ok (fo_depths (ca_finish a), fo_labels (ca_finish a)) in
  (rasters ds = Exc PlainException \/ rasters ds = Exc ValueError \/ rasters ds = right) /\
  exists ds', mfold (fun ds c => exec s c ds) [Network; Initvolumes; Finalvolumes; Hyps; Finallevels] ds = Ok ds' /\ rasters ds' = right.
Proof. exact steps_finish. Qed.
Print Assumptions C85_steps_finish_killed_run.

Example C85_example : exists a, result (small_options 10000%Q) = Ok a /\
  let d := do_run empty_dir (Cut (small_options 10000%Q) 10 true) in
  0 < count (d_store d) "nodes" /\ count (d_store d) "streams" = 0 /\ count (d_store d) "initvolumes" = -1 /\
  0 < Z.of_nat (length (ca_pourpoints a)) /\ layer_shows (d_store d) "pourpoints" pourpoint_props (ca_pourpoints a).
Proof. exact killed_early. Qed.
