(** * C28-C33: the bluespot network

    Results hold for every fuel of at least the number of cells (and of pour points, where
    junctions are inserted); [cc] is any labelling function meeting SciPy's contract; [sp]
    says whether the compiled functions are switched in. *)

From Coq Require Import Permutation QArith.
From Verif Require Import Base Num Float64 FillModel FillSpec FlowModel FlowSpec FlowProofs DemModel DemProofs LabelModel LabelSpec
  CompSpec CompProofs VectorModel BluespotModel BluespotSpec LevelProofs BluespotThms NetModel NetSpec NetworkModel NetworkSpec NetProofs NetThms.
Local Open Scope Z_scope.

(** ** C28 *)

(** The tool chain: one node per pour point; each downstream node is another bluespot's
    node of the network, and following downstream nodes always ends; the node of label 0
    has none and lies on the edge. *)
Theorem C28_chain_network_acyclic : forall cc, labels_components cc ->
  forall sp fuel fuel' t1 t5 dem dout t f accum out,
  size_ok sp dem -> dem32 dem -> dem_finite dem -> nrows dem * ncols dem <= 2 ^ 53 ->
  dem_process sp fuel t1 t5 dem = Ok dout ->
  accum = None \/ accum = Some (accum64 (do_accum dout)) ->
  bluespot_process sp cc fuel' t (do_depths dout) (do_flowdir dout) (Some f) accum (Some dem) = Ok out ->
  exists plain,
    (forall k, (length (rcells (do_flowdir dout)) <= k)%nat ->
      pourpoint_network k (do_flowdir dout) (bo_labeled out) (pps_of out) (Some 0) = Ok plain) /\
    good_network plain (pps_of out) /\
    exists n0, In n0 plain /\ g_id n0 = 0 /\ g_dstr n0 = None /\ on_edge (nrows dem) (ncols dem) (g_pix n0) /\
      flows_off (do_flowdir dout) (g_pix n0).
Proof. exact chain_network. Qed.
Print Assumptions C28_chain_network_acyclic.

(** Lowest cell of a surface that falls along the flow, any labelling 1..n. *)
Theorem C28_lowest_cell_rule : forall (f lab : raster Z) (h : raster b64) n,
  fully_draining f -> dem_finite h -> same_shape h f -> same_shape h lab -> 1 <= nrows h -> 1 <= ncols h ->
  (forall c d, flows f c d -> lt64 (at_ h d) (at_ h c)) -> numbered lab n ->
  exists st plain, label_min_index64 h lab (Some n) = Ok st /\ label_min_index64_cy h lab (Some n) = Ok st /\
  let pps := map (fun r => (i_row r, i_col r)) st in
  (forall fuel, (length (rcells f) <= fuel)%nat -> pourpoint_network fuel f lab pps (Some 0) = Ok plain) /\
  good_network plain pps.
Proof. exact acyclic_min_rule. Qed.
Print Assumptions C28_lowest_cell_rule.

(** Largest accumulated flow, any labelling 1..n. *)
Theorem C28_largest_accumulation_rule : forall (sp : bool) fuel (f lab a : raster Z) n,
  fully_draining f -> 1 <= nrows f -> 1 <= ncols f -> nrows f * ncols f <= 2 ^ 53 ->
  (if sp then accumulated_flow_cy else accumulated_flow) fuel f = Ok a ->
  same_shape f lab -> numbered lab n ->
  exists st plain, label_max_index64 (accum64 a) lab (Some n) = Ok st /\
  let pps := map (fun r => (i_row r, i_col r)) st in
  (forall fuel, (length (rcells f) <= fuel)%nat -> pourpoint_network fuel f lab pps (Some 0) = Ok plain) /\
  good_network plain pps.
Proof. exact acyclic_max_rule. Qed.
Print Assumptions C28_largest_accumulation_rule.

(** The DEM and run of [C27_example] meet the hypotheses of the chain. *)
Example C28_example : exists dout out,
  size_ok false bs_dem /\ nrows bs_dem * ncols bs_dem <= 2 ^ 53 /\
  dem_process false 60 (gt1 ex_gt) (gt5 ex_gt) bs_dem = Ok dout /\
  bluespot_process false cc_memo 60 ex_gt (do_depths dout) (do_flowdir dout) (Some bs_filter)
    (Some (accum64 (do_accum dout))) (Some bs_dem) = Ok out.
Proof. destruct c27_runs as (d & o & A & B). exists d, o. split; [cbn; lia|]. split; [cbn; lia|]. split; [exact A|exact B]. Qed.

Example C28_example_network : pourpoint_network 30 net_flow net_lab net_pps (Some 0) = Ok
  [mkG 0 None false (5, 0) []; mkG 1 (Some 3) false (1, 1) []; mkG 2 (Some 3) false (1, 3) []; mkG 3 None false (4, 2) []].
Proof. exact net_plain. Qed.

(** ** C29 *)

Theorem C29_background_alone : forall f lab pps, same_shape f lab -> fully_draining f ->
  (forall x, inside (nrows lab) (ncols lab) x -> at_ lab x <> 0 -> interior (nrows lab) (ncols lab) x) ->
  labels_in lab (Z.of_nat (length pps) - 1) -> pps <> [] ->
  (forall k c, nth_error pps k = Some c -> pour_ok f lab (Z.of_nat k) c) ->
  pourpoints_ok f lab pps /\
  forall fuel, (length (rcells f) <= fuel)%nat -> exists plain,
    pourpoint_network fuel f lab pps (Some 0) = Ok plain /\
    (exists n0 rest, plain = n0 :: rest /\ g_id n0 = 0 /\ g_dstr n0 = None /\
       on_edge (nrows lab) (ncols lab) (g_pix n0) /\ flows_off f (g_pix n0)) /\
    forall n, In n plain -> g_dstr n <> Some 0.
Proof. exact background_alone. Qed.
Print Assumptions C29_background_alone.

(** The tool chain meets these hypotheses, and those of C31-C33. *)
Theorem C29_chain_points : forall cc, labels_components cc ->
  forall sp fuel fuel' t1 t5 dem dout t f accum out,
  size_ok sp dem -> dem32 dem -> dem_finite dem -> nrows dem * ncols dem <= 2 ^ 53 ->
  dem_process sp fuel t1 t5 dem = Ok dout ->
  accum = None \/ accum = Some (accum64 (do_accum dout)) ->
  bluespot_process sp cc fuel' t (do_depths dout) (do_flowdir dout) (Some f) accum (Some dem) = Ok out ->
  same_shape (do_flowdir dout) (bo_labeled out) /\ fully_draining (do_flowdir dout) /\
  1 <= nrows (do_flowdir dout) /\ 1 <= ncols (do_flowdir dout) /\
  map pp_id (bo_pourpoints out) = zseq 0 (length (bo_pourpoints out)) /\
  pourpoints_ok (do_flowdir dout) (bo_labeled out) (pps_of out) /\ pps_of out <> [] /\
  (forall x, on_edge (nrows (bo_labeled out)) (ncols (bo_labeled out)) x -> at_ (bo_labeled out) x = 0) /\
  exists h, potential (do_flowdir dout) h /\ lowest_points h (bo_labeled out) (pps_of out).
Proof. exact chain_points. Qed.
Print Assumptions C29_chain_points.

Example C29_example : same_shape net_flow net_lab /\ fully_draining net_flow /\ net_pps <> [] /\
  pourpoints_ok net_flow net_lab net_pps.
Proof. exact net_ok. Qed.

(** ** C30 *)

Theorem C30_first_foreign_label : forall (f lab : raster Z), same_shape f lab ->
  forall fuel c bg (g : bool) tr, inside (nrows f) (ncols f) c -> trace_downstream fuel f c = Ok tr ->
  exists l path, next_downstream_label fuel f lab c bg g = Ok (l, if g then path else []) /\
    first_foreign lab (at_ lab c) bg tr l path.
Proof. exact next_label. Qed.
Print Assumptions C30_first_foreign_label.

Example C30_example :
  trace_downstream 9 net_flow (1, 1) = Ok [(1, 1); (2, 2); (3, 2); (4, 2); (5, 2)] /\
  next_downstream_label 9 net_flow net_lab (1, 1) (Some 0) true = Ok (Some 3, [(1, 1); (2, 2); (3, 2); (4, 2)]).
Proof. split; vm_compute; reflexivity. Qed.

(** ** C31 *)

Theorem C31_junctions_preserve_network : forall (f lab : raster Z) (pps : list cell),
  same_shape f lab -> fully_draining f -> pps <> [] -> pourpoints_ok f lab pps ->
  forall fuel, (length (rcells f) <= fuel)%nat -> (length pps <= fuel)%nat ->
  exists plain out,
    pourpoint_network fuel f lab pps (Some 0) = Ok plain /\
    geometric_pourpoint_network fuel f lab pps (Some 0) = Ok out /\
    map g_id plain = zseq 0 (length pps) /\ map g_pix plain = pps /\
    (* each pour point once *)
    Permutation (map (fun n => (g_id n, g_pix n)) (filter (fun n => negb (g_junction n)) out))
      (map (fun n => (g_id n, g_pix n)) plain) /\
    (* distinct ids, junctions above every label *)
    NoDup (map g_id out) /\
    (forall j c, In j out -> g_junction j = true -> inside (nrows lab) (ncols lab) c -> at_ lab c < g_id j) /\
    (* streams start at their node and end at the junction they lead to *)
    (forall n, In n out -> hd_error (g_geom n) = Some (g_pix n)) /\
    (forall n j, In n out -> In j out -> g_junction j = true -> g_dstr n = Some (g_id j) ->
       last (g_geom n) (0, 0) = g_pix j) /\
    (* same downstream bluespot, along the same cells *)
    (forall n, In n plain -> exists tr path, trace_downstream fuel f (g_pix n) = Ok tr /\
       first_foreign lab (g_id n) (Some 0) tr (g_dstr n) path /\ leads out (g_id n) path (g_dstr n)) /\
    (* every step belongs to one stream *)
    (forall n m x y, In n out -> In m out -> step_in (g_geom n) x y -> step_in (g_geom m) x y -> n = m) /\
    (forall n, In n out -> NoDup (g_geom n)).
Proof. exact junctions_preserve. Qed.
Print Assumptions C31_junctions_preserve_network.

Example C31_example :
  (same_shape net_flow net_lab /\ fully_draining net_flow /\ net_pps <> [] /\ pourpoints_ok net_flow net_lab net_pps) /\
  geometric_pourpoint_network 30 net_flow net_lab net_pps (Some 0) = Ok
  [mkG 0 None false (5, 0) [(5, 0)]; mkG 3 None false (4, 2) [(4, 2); (5, 2)];
   mkG 4 (Some 3) true (2, 2) [(2, 2); (3, 2); (4, 2)];
   mkG 1 (Some 4) false (1, 1) [(1, 1); (2, 2)]; mkG 2 (Some 4) false (1, 3) [(1, 3); (2, 2)]].
Proof. split; [exact net_ok|exact net_geo]. Qed.

(** Why the background's pour point has to flow directly off (C29 shows it does). *)
Example C31_inland_background : exists f lab pps, same_shape f lab /\ fully_draining f /\
  (forall k c, nth_error pps k = Some c -> has_label lab (Z.of_nat k) c) /\
  geometric_pourpoint_network 30 f lab pps (Some 0) = Exc IndexError.
Proof. exact net_inland. Qed.

(** ** C32 *)

Theorem C32_no_parallel_streams : forall (f lab : raster Z) (pps : list cell) fuel out,
  same_shape f lab -> fully_draining f -> pps <> [] -> pourpoints_ok f lab pps ->
  (length (rcells f) <= fuel)%nat -> (length pps <= fuel)%nat ->
  geometric_pourpoint_network fuel f lab pps (Some 0) = Ok out ->
  (forall n m x y, In n out -> In m out -> step_in (g_geom n) x y -> step_in (g_geom m) x y -> n = m) /\
  (forall n, In n out -> NoDup (g_geom n)).
Proof. exact no_parallel. Qed.
Print Assumptions C32_no_parallel_streams.

(** Before junction insertion the two streams of the example share two steps. *)
Example C32_example :
  next_downstream_label 30 net_flow net_lab (1, 1) (Some 0) true = Ok (Some 3, [(1, 1); (2, 2); (3, 2); (4, 2)]) /\
  next_downstream_label 30 net_flow net_lab (1, 3) (Some 0) true = Ok (Some 3, [(1, 3); (2, 2); (3, 2); (4, 2)]) /\
  geometric_pourpoint_network 30 net_flow net_lab net_pps (Some 0) = Ok
  [mkG 0 None false (5, 0) [(5, 0)]; mkG 3 None false (4, 2) [(4, 2); (5, 2)];
   mkG 4 (Some 3) true (2, 2) [(2, 2); (3, 2); (4, 2)];
   mkG 1 (Some 4) false (1, 1) [(1, 1); (2, 2)]; mkG 2 (Some 4) false (1, 3) [(1, 3); (2, 2)]].
Proof. split; [vm_compute; reflexivity|]. split; [vm_compute; reflexivity|exact net_geo]. Qed.

(** ** C33 *)

(** Any water and capacities: the same nodes are settled, with the same volume and spill;
    junctions store nothing. *)
Theorem C33_junctions_transparent : forall (f lab : raster Z) (pps : list cell),
  same_shape f lab -> fully_draining f -> pps <> [] -> pourpoints_ok f lab pps ->
  forall fuel, (length (rcells f) <= fuel)%nat -> (length pps <= fuel)%nat ->
  exists plain out,
    pourpoint_network fuel f lab pps (Some 0) = Ok plain /\
    geometric_pourpoint_network fuel f lab pps (Some 0) = Ok out /\
    forall (water cap : Z -> Q),
    let run := fun k ns => rain_event QOps k (add_nodes empty_network (as_network 0%Q water cap ns)) in
    (forall k, (length out <= k)%nat -> exists evs evs', run k plain = Ok evs /\ run k out = Ok evs') /\
    forall k k' evs evs', run k plain = Ok evs -> run k' out = Ok evs' ->
    (forall e, In e evs -> exists e', In e' evs' /\ e_id e' = e_id e /\
       e_vol e' == e_vol e /\ e_spill e' == e_spill e)%Q /\
    (forall e', In e' evs' ->
       (exists e, In e evs /\ e_id e = e_id e') \/
       (exists j, In j out /\ g_junction j = true /\ g_id j = e_id e' /\ (e_vol e' == 0)%Q)).
Proof. exact junctions_transparent. Qed.
Print Assumptions C33_junctions_transparent.

(** 7 on bluespot 1, 9 on bluespot 2, capacity 5 each: 6 arrives in bluespot 3. *)
Example C33_example :
  on_ok (fun evs => existsb (fun e => (e_id e =? 3) && Qeq_bool (e_vol e) 5 && Qeq_bool (e_spill e) 1) evs)
    (net_run (geometric_pourpoint_network 30 net_flow net_lab net_pps (Some 0))) = true /\
  on_ok (fun evs => existsb (fun e => (e_id e =? 3) && Qeq_bool (e_vol e) 5 && Qeq_bool (e_spill e) 1) evs)
    (net_run (pourpoint_network 30 net_flow net_lab net_pps (Some 0))) = true.
Proof. split; vm_compute; reflexivity. Qed.
