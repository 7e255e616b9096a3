(** * C100 and C101: the order of the features in a layer *)

From Coq Require Import QArith Permutation String.
From Verif Require Import Base Num Float64 FillSpec DemModel DemProofs LabelModel LabelSpec CompSpec CompProofs VectorModel BluespotModel BluespotSpec
  BluespotThms NetModel NetworkModel NetworkSpec RainThms PipelineModel CompleteModel OgrModel CmdModel CmdRuns OrderModel OrderSpec OrderThms OrderRuns.
Local Open Scope Z_scope.

(** initvolumes *)
Theorem C100_initvolumes : forall mm attribute fs fs' out, Permutation fs fs' ->
  simple_volume_tool mm attribute fs = Ok out ->
  exists out', simple_volume_tool mm attribute fs' = Ok out' /\ Permutation out out'.
Proof. exact volumes_order. Qed.
Print Assumptions C100_initvolumes.

(** finalvolumes, in exact arithmetic; [distinct]: no two nodes have the same id;
    [same_features]: the same features with the same values, in any order. *)
Theorem C100_finalvolumes : forall attribute fs fs' out, Permutation fs fs' -> distinct get_index "nodeid" fs ->
  final_state_tool attribute fs = Ok out ->
  exists out', final_state_tool attribute fs' = Ok out' /\ same_features out out'.
Proof. exact final_order. Qed.
Print Assumptions C100_finalvolumes.

(** hyps *)
Theorem C100_hyps : forall t labels dem zr fs fs' out, Permutation fs fs' -> distinct get_index "bspot_id" fs ->
  hyps_tool t labels dem zr fs = Ok out ->
  exists out', hyps_tool t labels dem zr fs' = Ok out' /\ Permutation out out'.
Proof. exact hyps_order. Qed.
Print Assumptions C100_hyps.

(** finallevels *)
Theorem C100_finallevels : forall finals finals' hs hs' out, Permutation finals finals' -> Permutation hs hs' ->
  distinct get_int "bspot_id" hs -> levels_tool finals hs = Ok out ->
  exists out', levels_tool finals' hs' = Ok out' /\ Permutation out out'.
Proof. exact levels_order. Qed.
Print Assumptions C100_finallevels.

(** finalbluespots *)
Theorem C100_finalbluespots : forall labels levels levels' dem r, Permutation levels levels' ->
  distinct get_int "bspot_id" (filter is_pp levels) ->
  bluespots_tool labels levels dem = Ok r -> bluespots_tool labels levels' dem = Ok r.
Proof. exact bluespots_order. Qed.
Print Assumptions C100_finalbluespots.

(** finalvolumes in binary64: false.  0.1, 0.2 and 0.3 spilling to one node add up to another
    number in another order. *)
Theorem C100_finalvolumes_float_refuted : exists ns ns' out out' n e e', unique_ids ns /\ acyclic_closed ns /\ Permutation ns ns' /\
  process F64Ops (length ns) ns = Ok out /\ process F64Ops (length ns') ns' = Ok out' /\
  In (n, Some e) out /\ In (n, Some e') out' /\ e_vol e <> e_vol e'.
Proof. exact float_order. Qed.
Print Assumptions C100_finalvolumes_float_refuted.

(** The layers of the run with three bluespots meet the conditions. *)
Example C100_example_layers : exists a ds d l, three_run = Ok a /\ three_steps a (map pourpoint_props (ca_pourpoints a)) = Ok (ds, d, l) /\
  (exists out, simple_volume_tool 2500%Q "inputv" (layer_of ds "nodes") = Ok out) /\
  distinct get_index "nodeid" (layer_of ds "initvolumes") /\ (3 < length (layer_of ds "initvolumes"))%nat /\
  (exists out, final_state_tool "inputv" (layer_of ds "initvolumes") = Ok out) /\
  distinct get_index "bspot_id" (layer_of ds "pourpoints") /\ (3 < length (layer_of ds "pourpoints"))%nat /\
  (exists out, hyps_tool ex_gt (bo_labeled (ca_bluespots a)) three_dem 1%Q (layer_of ds "pourpoints") = Ok out) /\
  distinct get_int "bspot_id" (layer_of ds "hyps") /\
  (exists out, levels_tool (layer_of ds "finalvolumes") (layer_of ds "hyps") = Ok out) /\
  distinct get_int "bspot_id" (filter is_pp (layer_of ds "finallevels")) /\
  (exists out, bluespots_tool (bo_labeled (ca_bluespots a)) (layer_of ds "finallevels") three_dem = Ok out).
Proof. exact three_layers. Qed.

(** network: false.  Three bluespots, the pour points of the last two exchanged in the layer:
    the commands run without an error, and the first bluespot, dry before, is under 5 m of
    water. *)
Theorem C101_network_refuted : exists a pps ds d l ds' d' l' v v',
  three_run = Ok a /\ Permutation (map pourpoint_props (ca_pourpoints a)) pps /\
  three_steps a (map pourpoint_props (ca_pourpoints a)) = Ok (ds, d, l) /\ three_steps a pps = Ok (ds', d', l') /\
  value_at ds "finalvolumes" 1 "v" = Some v /\ (v == 32)%Q /\ value_at ds' "finalvolumes" 1 "v" = Some v' /\ (v' == 40)%Q /\
  (at_ d (1, 1)%Z == 0)%Q /\ (at_ d' (1, 1)%Z == 5)%Q.
Proof. exact network_order. Qed.
Print Assumptions C101_network_refuted.

(** What is missing is only that StreamTool passes the features and not their cells:
    pourpoint_network on the features, in any order, gives the nodes that it gives on the
    cells in the order of complete. *)
Theorem C101_network_features : forall cc, labels_components cc -> forall sp t dem f (use_accum : bool),
  size_ok sp dem -> dem32 dem -> dem_finite dem -> nrows dem * ncols dem <= 2 ^ 53 ->
  square_cells (gt1 t) (gt5 t) = true ->
  exists k, forall fuel, (fuel >= k)%nat -> forall mm zres, (0 < zres)%Q ->
  exists a, complete_all sp cc fuel t dem f use_accum mm zres = Ok a /\
    forall fs, Permutation (map pourpoint_props (ca_pourpoints a)) fs ->
    forall fuel' nodes,
      pourpoint_network fuel' (do_flowdir (ca_dem a)) (bo_labeled (ca_bluespots a))
        (map (fun p => (pp_row p, pp_col p)) (ca_pourpoints a)) (Some 0) = Ok nodes ->
      exists nodes', pourpoint_network_features fuel' (do_flowdir (ca_dem a)) (bo_labeled (ca_bluespots a)) fs (Some 0) = Ok nodes' /\
        Permutation nodes nodes'.
Proof. exact network_features. Qed.
Print Assumptions C101_network_features.

(** The terrain meets the conditions. *)
Example C101_example : labels_components cc_memo /\ size_ok false three_dem /\ (dem32 three_dem /\ dem_finite three_dem) /\
  nrows three_dem * ncols three_dem <= 2 ^ 53 /\ square_cells (gt1 ex_gt) (gt5 ex_gt) = true.
Proof.
  split; [exact cc_memo_ok|]. split; [cbn; lia|]. split; [exact three_ok|]. split; [cbn; lia|vm_compute; reflexivity].
Qed.
