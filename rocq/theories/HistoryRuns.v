(** * Histories on a small terrain *)

From Coq Require Import QArith String.
From Verif Require Import Base Num Float64 Dict DemModel LabelModel VectorModel BluespotModel BluespotThms RainModel RainThms PipelineModel
  ApproxModel CompleteModel CompleteThms OgrModel OgrSpec CmdModel CmdSpec HistoryModel.
Local Open Scope Z_scope.
Local Open Scope list_scope.

(** The run of the complete command, and what the commands see of it. *)
Definition small_setting (a : complete_all_out) : setting :=
  mkSetting 20 ex_gt rain_dem (do_flowdir (ca_dem a)) (bo_labeled (ca_bluespots a)) 10000%Q 1%Q "inputv" step_names.
Definition small_start (a : complete_all_out) : store :=
  write_features None "pourpoints" (map pourpoint_props (ca_pourpoints a)).

(** The number of features of a layer; -1 when it cannot be read. *)
Definition count (ds : store) (n : string) : Z :=
  match read_features ds (Some n) with Ok gs => Z.of_nat (length gs) | _ => -1 end.

(** network killed between its two layers and run again: every node twice. *)
Theorem nodes_doubled : exists a ds, dry_run 10000%Q = Ok a /\
  exec (small_setting a) Network (history (small_setting a) [Killed Network 1 false] (small_start a)) = Ok ds /\
  count ds "nodes" = 2 * Z.of_nat (length (co_nodes (ca_volumes a))) /\ 0 < Z.of_nat (length (co_nodes (ca_volumes a))) /\
  count ds "streams" = Z.of_nat (length (co_streams (ca_volumes a))).
Proof.
  assert (X : at_run (dry_run 10000%Q) (fun a =>
    match exec (small_setting a) Network (history (small_setting a) [Killed Network 1 false] (small_start a)) with
    | Ok ds => (count ds "nodes" =? 2 * Z.of_nat (length (co_nodes (ca_volumes a)))) && (0 <? Z.of_nat (length (co_nodes (ca_volumes a)))) &&
               (count ds "streams" =? Z.of_nat (length (co_streams (ca_volumes a))))
    | _ => false end) = true) by (vm_compute; reflexivity).
  destruct (dry_run 10000%Q) as [a| |]; try discriminate X. cbn [at_run] in X. exists a.
  destruct (exec (small_setting a) Network _) as [ds| |]; try discriminate X. exists ds.
  apply andb_prop in X. destruct X as (X & C). apply andb_prop in X. destruct X as (A & B).
  split; [reflexivity|]. split; [reflexivity|]. split; [apply Z.eqb_eq; exact A|]. split; [apply Z.ltb_lt; exact B|apply Z.eqb_eq; exact C].
Qed.

(** network killed while it writes the nodes: the commands after it succeed and write layers
    without features; finalbluespots raises. *)
Theorem layers_empty : exists a ds, dry_run 10000%Q = Ok a /\
  mfold (fun ds c => exec (small_setting a) c ds) [Initvolumes; Finalvolumes; Hyps; Finallevels]
    (history (small_setting a) [Killed Network 0 true] (small_start a)) = Ok ds /\
  0 < Z.of_nat (length (co_nodes (ca_volumes a))) /\
  count ds "initvolumes" = 0 /\ count ds "finalvolumes" = 0 /\ count ds "finallevels" = 0 /\
  cmd_finalbluespots (bo_labeled (ca_bluespots a)) rain_dem ds "finallevels" = Exc ValueError.
Proof.
  assert (X : at_run (dry_run 10000%Q) (fun a =>
    match mfold (fun ds c => exec (small_setting a) c ds) [Initvolumes; Finalvolumes; Hyps; Finallevels]
      (history (small_setting a) [Killed Network 0 true] (small_start a)) with
    | Ok ds => (0 <? Z.of_nat (length (co_nodes (ca_volumes a)))) && (count ds "initvolumes" =? 0) && (count ds "finalvolumes" =? 0) &&
               (count ds "finallevels" =? 0) &&
               match cmd_finalbluespots (bo_labeled (ca_bluespots a)) rain_dem ds "finallevels" with Exc ValueError => true | _ => false end
    | _ => false end) = true) by (vm_compute; reflexivity).
  destruct (dry_run 10000%Q) as [a| |]; try discriminate X. cbn [at_run] in X. exists a.
  match type of X with match ?m with _ => _ end = true => destruct m as [ds| |]; try discriminate X end. exists ds.
  apply andb_prop in X. destruct X as (X & E). apply andb_prop in X. destruct X as (X & D).
  apply andb_prop in X. destruct X as (X & C). apply andb_prop in X. destruct X as (A & B).
  split; [reflexivity|]. split; [reflexivity|]. split; [apply Z.ltb_lt; exact A|]. split; [apply Z.eqb_eq; exact B|].
  split; [apply Z.eqb_eq; exact C|]. split; [apply Z.eqb_eq; exact D|].
  destruct (cmd_finalbluespots (bo_labeled (ca_bluespots a)) rain_dem ds "finallevels") as [r|e|]; try discriminate E.
  destruct e; try discriminate E. reflexivity.
Qed.
