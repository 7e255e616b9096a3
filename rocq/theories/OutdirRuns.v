(** * Runs of the complete command on a small raster, in a directory *)

From Coq Require Import QArith String.
From Verif Require Import Base Num Float64 DemModel LabelModel VectorModel BluespotModel BluespotThms RainModel RainThms PipelineModel ApproxModel
  CompSpec CompleteModel CompleteThms OgrModel OgrSpec CmdModel CmdSpec CmdRuns HistoryModel HistoryRuns OutdirModel OutdirSpec OutdirThms.
Local Open Scope Z_scope.
Local Open Scope list_scope.

(** Two polygons, whatever the raster. *)
Definition some_polygons (r : raster Z) : list Z := [nrows r; ncols r].
Definition small_options (mm : Q) : options := mkOptions false cc_memo 20 ex_gt rain_dem all_pass true true mm 1%Q some_polygons.

Definition file_names (d : outdir) : list (string * bool) :=
  map (fun f => (fst f, match snd f with Torn => false | _ => true end)) (d_rasters d).
Definition names_eqb (a b : list (string * bool)) : bool :=
  Nat.eqb (length a) (length b) && forallb (fun xy => String.eqb (fst (fst xy)) (fst (snd xy)) && Bool.eqb (snd (fst xy)) (snd (snd xy))) (combine a b).

Lemma names_eqb_ok : forall a b, names_eqb a b = true -> a = b.
Proof.
  induction a as [|[x u] a IH]; intros [|[y v] b] E; try discriminate E; [reflexivity|].
  unfold names_eqb in E. cbn [length Nat.eqb combine forallb fst snd] in E.
  apply andb_prop in E. destruct E as (E1 & E2). apply andb_prop in E2. destruct E2 as (E2 & E3). apply andb_prop in E2. destruct E2 as (E2 & E4).
  apply String.eqb_eq in E2. apply Bool.eqb_prop in E4. subst. f_equal. apply IH. unfold names_eqb. rewrite E1, E3. reflexivity.
Qed.

(** Killed while it writes the final depths. *)
Definition killed_late : outdir := do_run empty_dir (Cut (small_options 10000%Q) 15 true).
Theorem killed_late_files : file_names killed_late =
  [("filled.tif", true); ("bs_depths.tif", true); ("flowdir.tif", true); ("accum.tif", true); ("bluespots.tif", true);
   ("watersheds.tif", true); ("finaldepths.tif", false)]%string /\
  0 < count (d_store killed_late) "finallevels" /\ count (d_store killed_late) "finalbluespots" = -1.
Proof.
  assert (X : names_eqb (file_names killed_late)
    [("filled.tif", true); ("bs_depths.tif", true); ("flowdir.tif", true); ("accum.tif", true); ("bluespots.tif", true);
     ("watersheds.tif", true); ("finaldepths.tif", false)]%string && (0 <? count (d_store killed_late) "finallevels") &&
     (count (d_store killed_late) "finalbluespots" =? -1) = true) by (vm_compute; reflexivity).
  apply andb_prop in X. destruct X as (X & X3). apply andb_prop in X. destruct X as (X1 & X2).
  split; [apply names_eqb_ok; exact X1|]. split; [apply Z.ltb_lt; exact X2|apply Z.eqb_eq; exact X3].
Qed.

Lemma at_run_ok : forall r f, at_run r f = true -> exists a, r = Ok a /\ f a = true.
Proof. intros [a| |] f X; try discriminate X. exists a. split; [reflexivity|exact X]. Qed.
Lemma shows_if_count : forall A ds n (attrs : A -> list (string * option value)) rs, shows_or_empty ds n attrs rs ->
  count ds n = Z.of_nat (length rs) -> 0 < Z.of_nat (length rs) -> layer_shows ds n attrs rs.
Proof.
  intros A ds n attrs rs [L|[L|L]] E P; [| |exact L]; unfold count in E; rewrite L in E; [lia|cbn [length] in E; lia].
Qed.
Lemma pourpoints_killed : forall p a k b, result p = Ok a ->
  shows_or_empty (d_store (do_run empty_dir (Cut p k b))) "pourpoints" pourpoint_props (ca_pourpoints a).
Proof. intros p a k b R. destruct (complete_killed p a k b R) as (_ & _ & L). exact (proj1 (proj2 (proj2 L))). Qed.

(** Killed while it writes the streams: the nodes are there, the streams are not. *)
Definition early_check (p : options) (d : outdir) : bool :=
  at_run (result p) (fun a => (0 <? count (d_store d) "nodes") && (count (d_store d) "streams" =? 0) &&
    (count (d_store d) "initvolumes" =? -1) && (0 <? Z.of_nat (length (ca_pourpoints a))) &&
    (count (d_store d) "pourpoints" =? Z.of_nat (length (ca_pourpoints a)))).
Lemma early_facts : forall p k b, early_check p (do_run empty_dir (Cut p k b)) = true -> exists a, result p = Ok a /\
  let d := do_run empty_dir (Cut p k b) in
  0 < count (d_store d) "nodes" /\ count (d_store d) "streams" = 0 /\ count (d_store d) "initvolumes" = -1 /\
  0 < Z.of_nat (length (ca_pourpoints a)) /\ layer_shows (d_store d) "pourpoints" pourpoint_props (ca_pourpoints a).
Proof.
  intros p k b X. unfold early_check in X. apply at_run_ok in X. destruct X as (a & R & X).
  apply andb_prop in X. destruct X as (X & X5). apply andb_prop in X. destruct X as (X & X4). apply andb_prop in X. destruct X as (X & X3).
  apply andb_prop in X. destruct X as (X1 & X2). apply Z.ltb_lt in X1, X4. apply Z.eqb_eq in X2, X3, X5.
  exists a. split; [exact R|]. split; [exact X1|]. split; [exact X2|]. split; [exact X3|]. split; [exact X4|].
  apply shows_if_count; [apply pourpoints_killed; exact R|exact X5|exact X4].
Qed.
Theorem killed_early : exists a, result (small_options 10000%Q) = Ok a /\
  let d := do_run empty_dir (Cut (small_options 10000%Q) 10 true) in
  0 < count (d_store d) "nodes" /\ count (d_store d) "streams" = 0 /\ count (d_store d) "initvolumes" = -1 /\
  0 < Z.of_nat (length (ca_pourpoints a)) /\ layer_shows (d_store d) "pourpoints" pourpoint_props (ca_pourpoints a).
Proof. apply early_facts. vm_compute. reflexivity. Qed.

(** A killed run and two more with other rain. *)
Definition three_runs : list run := [Cut (small_options 100%Q) 2 true; Whole (small_options 10000%Q); Whole (small_options 100%Q)].
Theorem never_finished : file_names (do_runs empty_dir three_runs) = [("filled.tif", true); ("bs_depths.tif", true); ("flowdir.tif", false)]%string /\
  is_empty (do_run empty_dir (Cut (small_options 100%Q) 0 false)) = true.
Proof.
  assert (X : names_eqb (file_names (do_runs empty_dir three_runs)) [("filled.tif", true); ("bs_depths.tif", true); ("flowdir.tif", false)]%string &&
    is_empty (do_run empty_dir (Cut (small_options 100%Q) 0 false)) = true) by (vm_compute; reflexivity).
  apply andb_prop in X. destruct X as (X1 & X2). split; [apply names_eqb_ok; exact X1|exact X2].
Qed.
