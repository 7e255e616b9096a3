(** * C78, C79: the vector commands in any order, repeated and killed

    history s hs ds: the datasource after the happenings hs; each is a command of network,
    initvolumes, finalvolumes, hyps and finallevels that runs to its end or raises, or one that is
    killed before it has written all its layers (HistoryModel).  repeats ds n attrs rs: the layer
    cannot be read, or has the features rs some number of times. *)

From Coq Require Import QArith String.
From Verif Require Import Base Num Float64 DemModel LabelModel VectorModel BluespotModel BluespotThms RainModel RainThms PipelineModel ApproxModel
  CompleteModel CompleteThms OgrModel OgrSpec CmdModel CmdSpec CmdRuns HistoryModel HistoryThms HistoryRuns.
Local Open Scope Z_scope.
Local Open Scope list_scope.

(** After any history finalbluespots raises or gives the rasters of the complete command, and
    it gives them after the five commands have been run once more.  Exact arithmetic. *)
Theorem C78_rasters_after_any_history : forall sp cc fuel t dem f use_accum mm zres a attribute L ws hs,
  complete_all sp cc fuel t dem f use_accum mm zres = Ok a ->
  names_ok L ws -> ~ In attribute reserved -> ~ (mm == 0)%Q ->
  let s := mkSetting fuel t dem (do_flowdir (ca_dem a)) (bo_labeled (ca_bluespots a)) mm zres attribute L in
  let ds := history s hs (write_features (after ws) (l_pourpoints L) (map pourpoint_props (ca_pourpoints a))) in
  let rasters ds := cmd_finalbluespots (bo_labeled (ca_bluespots a)) dem ds (l_levels L) in
  let right := Ok (fo_depths (ca_finish a), fo_labels (ca_finish a)) in
  (rasters ds = Exc PlainException \/ rasters ds = Exc ValueError \/ rasters ds = right) /\
  exists ds', mfold (fun ds c => exec s c ds) [Network; Initvolumes; Finalvolumes; Hyps; Finallevels] ds = Ok ds' /\ rasters ds' = right.
Proof. exact history_rasters. Qed.
Print Assumptions C78_rasters_after_any_history.

(** Full statement: a layer written by a command that has succeeded has exactly the features of the
    complete command.  Here: it has only such features, each as often as the others.  Missing:
    that it has them once (refuted below). *)
Theorem C79_layers_after_any_history_partial : forall sp cc fuel t dem f use_accum mm zres a attribute L ws hs,
  complete_all sp cc fuel t dem f use_accum mm zres = Ok a ->
  names_ok L ws -> ~ In attribute reserved -> ~ (mm == 0)%Q ->
  let s := mkSetting fuel t dem (do_flowdir (ca_dem a)) (bo_labeled (ca_bluespots a)) mm zres attribute L in
  let ds := history s hs (write_features (after ws) (l_pourpoints L) (map pourpoint_props (ca_pourpoints a))) in
  layer_shows ds (l_pourpoints L) pourpoint_props (ca_pourpoints a) /\
  repeats ds (l_nodes L) node_attrs (map fst (co_nodes (ca_volumes a))) /\
  repeats ds (l_streams L) stream_attrs (co_streams (ca_volumes a)) /\
  repeats ds (l_init L) (volume_attrs attribute) (co_nodes (ca_volumes a)) /\
  repeats ds (l_final L) final_attrs (co_final (ca_volumes a)) /\
  repeats ds (l_hyps L) hyps_attrs (fo_hyps (ca_finish a)) /\
  repeats ds (l_levels L) level_attrs (fo_levels (ca_finish a)).
Proof. exact history_layers. Qed.
Print Assumptions C79_layers_after_any_history_partial.

(** network killed after the nodes and run again. *)
Theorem C79_doubled_refuted : exists a ds, dry_run 10000%Q = Ok a /\
  exec (small_setting a) Network (history (small_setting a) [Killed Network 1 false] (small_start a)) = Ok ds /\
  count ds "nodes" = 2 * Z.of_nat (length (co_nodes (ca_volumes a))) /\ 0 < Z.of_nat (length (co_nodes (ca_volumes a))) /\
  count ds "streams" = Z.of_nat (length (co_streams (ca_volumes a))).
Proof. exact nodes_doubled. Qed.
Print Assumptions C79_doubled_refuted.

(** network killed while it writes the nodes: the next commands succeed on nothing. *)
Theorem C79_empty_refuted : exists a ds, dry_run 10000%Q = Ok a /\
  mfold (fun ds c => exec (small_setting a) c ds) [Initvolumes; Finalvolumes; Hyps; Finallevels]
    (history (small_setting a) [Killed Network 0 true] (small_start a)) = Ok ds /\
  0 < Z.of_nat (length (co_nodes (ca_volumes a))) /\
  count ds "initvolumes" = 0 /\ count ds "finalvolumes" = 0 /\ count ds "finallevels" = 0 /\
  cmd_finalbluespots (bo_labeled (ca_bluespots a)) rain_dem ds "finallevels" = Exc ValueError.
Proof. exact layers_empty. Qed.
Print Assumptions C79_empty_refuted.

(** The hypotheses of C78 and C79, with the names the commands use. *)
Example C78_example : names_ok step_names [] /\ ~ In "inputv"%string reserved /\ ~ (10000 == 0)%Q /\ exists a, dry_run 10000%Q = Ok a.
Proof.
  split; [exact (proj1 names_example)|]. split; [cbn; intuition discriminate|]. split; [discriminate|].
  destruct nodes_doubled as (a & _ & E & _). exists a. exact E.
Qed.
