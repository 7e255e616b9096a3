(** * C24-C27, C54: bluespots

    [cc] is any labelling function meeting SciPy's contract; [sp] says whether the
    compiled functions are switched in. *)

From Flocq Require Import IEEE754.BinarySingleNaN.
From Verif Require Import Base Num Float64 FillModel FillSpec FlowModel FlowSpec DemModel DemProofs LabelModel LabelSpec
  CompSpec CompProofs VectorModel BluespotModel BluespotSpec BluespotProofs LevelProofs BluespotThms.

(** ** C24 *)

(** A cell is labelled iff its raw bluespot passes the filter; two labelled cells
    share a label iff they are in one raw bluespot; labels are numbered 1..n. *)
Theorem C24_filter_keeps_passing_bluespots : forall cc, labels_components cc ->
  forall sp fuel t depths flowdir f accum dem out, 1 <= nrows depths -> 1 <= ncols depths ->
  bluespot_process sp cc fuel t depths flowdir (Some f) accum dem = Ok out ->
  same_shape depths (bo_labeled out) /\ numbered (bo_labeled out) (bo_nlabels out) /\
  (forall c, inside (nrows depths) (ncols depths) c ->
     (at_ (bo_labeled out) c <> 0 <-> at_ (nonzero depths) c = true /\
        exists s, describes depths (bluespot depths c) (cell_area F64Ops t) s /\ f s = true)) /\
  (forall c d, inside (nrows depths) (ncols depths) c -> inside (nrows depths) (ncols depths) d ->
     at_ (bo_labeled out) c <> 0 -> at_ (bo_labeled out) d <> 0 ->
     (at_ (bo_labeled out) c = at_ (bo_labeled out) d <-> bluespot depths c d)).
Proof. exact process_filter. Qed.
Print Assumptions C24_filter_keeps_passing_bluespots.

(** The tool succeeds on the rasters the DEM tool wrote, with either pour point rule. *)
Theorem C24_tool_succeeds : forall cc, labels_components cc ->
  forall sp (use_accum : bool) t dem f,
  size_ok sp dem -> dem32 dem -> dem_finite dem -> square_cells (gt1 t) (gt5 t) = true ->
  exists k, forall fuel, (fuel >= k)%nat -> exists dout out,
    dem_process sp fuel (gt1 t) (gt5 t) dem = Ok dout /\
    bluespot_process sp cc fuel t (do_depths dout) (do_flowdir dout) (Some f)
      (if use_accum then Some (accum64 (do_accum dout)) else None) (Some dem) = Ok out.
Proof. exact chain_total. Qed.
Print Assumptions C24_tool_succeeds.

(** A 5x7 terrain with two bluespots, of which the filter keeps one. *)
Example C24_example : labels_components cc_memo /\ size_ok false bs_dem /\ dem32 bs_dem /\ dem_finite bs_dem /\
  square_cells (gt1 ex_gt) (gt5 ex_gt) = true /\
  labels_are (chain false false (Some bs_filter) bs_dem)
    [[0;0;0;0;0;0;0]; [0;0;0;0;1;1;0]; [0;0;0;0;0;0;0]; [0;0;0;0;0;0;0]; [0;0;0;0;0;0;0]]
    [(0, 4, 3); (1, 1, 4)] = true /\
  labels_are (chain true true (Some (fun _ => true)) bs_dem)
    [[0;0;0;0;0;0;0]; [0;1;0;0;2;2;0]; [0;0;0;0;0;0;0]; [0;0;0;0;0;0;0]; [0;0;0;0;0;0;0]]
    [(0, 4, 3); (1, 1, 1); (2, 1, 4)] = true.
Proof.
  split; [apply cc_memo_ok|]. split; [cbn; lia|]. split; [apply bs_dem_ok|]. split; [apply bs_dem_ok|].
  vm_compute. auto.
Qed.

(** ** C25: rejected bluespots still count *)

(** Every bluespot is rejected and yet a written node has a capacity of 4 (one cell
    of depth 1 on a 2x2 m grid): the node for label 0 gets all depths not labelled. *)
Theorem C25_rejected_capacity_refuted : exists cc depths flowdir accum t f out p,
  labels_components cc /\ fully_draining flowdir /\
  bluespot_process false cc 9 t depths flowdir (Some f) (Some accum) None = Ok out /\
  (forall s, f s = false) /\ bo_nlabels out = 0 /\
  In p (bo_pourpoints out) /\ eq64 (pp_vol p) (f64_ofZ 4).
Proof. exact c25_refuted. Qed.
Print Assumptions C25_rejected_capacity_refuted.

(** What holds: the record of each label is computed from exactly the cells of that
    label (and its watershed), so only the node of label 0 receives rejected
    bluespots (missing: that node). *)
Theorem C25_own_cells_only_partial : forall cc, labels_components cc ->
  forall sp fuel t depths flowdir f accum dem out,
  1 <= nrows depths -> 1 <= ncols depths -> same_shape depths flowdir -> fully_draining flowdir ->
  bluespot_process sp cc fuel t depths flowdir (Some f) accum dem = Ok out ->
  exists pix, pour_cells sp fuel accum dem (bo_labeled out) (bo_nlabels out) = Ok pix /\
  Z.of_nat (length pix) = bo_nlabels out + 1 /\
  Z.of_nat (length (bo_pourpoints out)) = bo_nlabels out + 1 /\
  same_shape depths (bo_watersheds out) /\
  (forall c, inside (nrows depths) (ncols depths) c ->
     first_label flowdir (bo_labeled out) 0 c (at_ (bo_watersheds out) c)) /\
  forall l, 0 <= l <= bo_nlabels out -> exists p r cs ws,
    nth_error (bo_pourpoints out) (Z.to_nat l) = Some p /\ nth_error pix (Z.to_nat l) = Some r /\
    lists_cells (has_label (bo_labeled out) l) cs /\
    lists_cells (has_label (bo_watersheds out) l) ws /\
    pp_id p = l /\ pp_row p = i_row r /\ pp_col p = i_col r /\
    extreme (fun a b => le64 b a) f64_ninf (has_label (bo_labeled out) l) depths (pp_dmax p) /\
    pp_area p = f64_mul (f64_ofZ (Z.of_nat (length cs))) (cell_area F64Ops t) /\
    pp_vol p = f64_mul (fold_left f64_add (map (at_ depths) cs) (f64_ofZ 0)) (cell_area F64Ops t) /\
    pp_wshed p = f64_mul (f64_ofZ (Z.of_nat (length ws))) (cell_area F64Ops t) /\
    pp_coord p = transform_cell_to_world F64Ops (i_row r, i_col r) t.
Proof. exact process_pourpoints. Qed.
Print Assumptions C25_own_cells_only_partial.

Example C25_example : fully_draining c25_flow /\ same_shape c25_depths c25_flow /\ on_ok c25_check c25_run = true.
Proof.
  split; [apply FlowThms.check_draining_ok; vm_compute; reflexivity|]. split; [split; reflexivity|]. vm_compute. reflexivity.
Qed.

(** ** C26 *)

(** Pure Python: one water table per bluespot, deepest where the terrain is lowest. *)
Theorem C26_level_water_table : forall fuel t1 t5 dem out,
  2 <= nrows dem -> 2 <= ncols dem <= 2 ^ 50 -> dem32 dem -> dem_finite dem ->
  dem_process false fuel t1 t5 dem = Ok out ->
  forall c d, bluespot (do_depths out) c d ->
  eq64 (at_ (do_filled out) c) (at_ (do_filled out) d) /\
  (le64 (at_ dem c) (at_ dem d) -> le64 (at_ (do_depths out) d) (at_ (do_depths out) c)).
Proof. exact level_water. Qed.
Print Assumptions C26_level_water_table.

(** Either variant: depths are not negative, positive exactly where the terrain was
    raised, zero on the edge. *)
Theorem C26_depths : forall sp fuel t1 t5 dem out, size_ok sp dem -> dem32 dem -> dem_finite dem ->
  dem_process sp fuel t1 t5 dem = Ok out ->
  same_shape dem (do_depths out) /\
  (forall c, inside (nrows dem) (ncols dem) c ->
     le64 f64_zero (at_ (do_depths out) c) /\
     (lt64 f64_zero (at_ (do_depths out) c) <-> lt64 (at_ dem c) (at_ (do_filled out) c))) /\
  (forall c, on_edge (nrows dem) (ncols dem) c -> eq64 (at_ (do_depths out) c) f64_zero).
Proof. exact depths_facts. Qed.
Print Assumptions C26_depths.

(** With speedups the water table of a bluespot may have a step. *)
Theorem C26_compiled_step_refuted : exists fuel t1 t5 dem out c d,
  size_ok true dem /\ dem32 dem /\ dem_finite dem /\ dem_process true fuel t1 t5 dem = Ok out /\
  bluespot (do_depths out) c d /\
  eq64 (at_ (do_filled out) c) (f64_ofZ 3) /\ eq64 (at_ (do_filled out) d) (f64_ofZ 10).
Proof. exact c26_refuted. Qed.
Print Assumptions C26_compiled_step_refuted.

Example C26_example : dem32 bs_dem /\ dem_finite bs_dem /\
  on_ok (fun o => Beqb (at_ (do_filled o) (1, 4)) (f64_ofZ 9) && Beqb (at_ (do_filled o) (1, 5)) (f64_ofZ 9) &&
                  Beqb (at_ (do_depths o) (1, 4)) (f64_ofZ 3) && Beqb (at_ (do_depths o) (1, 1)) (f64_ofZ 2))
    (bs_out false) = true.
Proof. split; [apply bs_dem_ok|]. split; [apply bs_dem_ok|]. vm_compute. reflexivity. Qed.

(** ** C27 *)

(** The tool chain: the pour point of each label lies in it and its downstream trace
    never meets that label again. *)
Theorem C27_chain_pour_points : forall cc sp fuel fuel' t1 t5 dem dout t depths f accum out,
  labels_components cc ->
  size_ok sp dem -> dem32 dem -> dem_finite dem -> nrows dem * ncols dem <= 2 ^ 53 ->
  dem_process sp fuel t1 t5 dem = Ok dout ->
  same_shape dem depths ->
  accum = None \/ accum = Some (accum64 (do_accum dout)) ->
  bluespot_process sp cc fuel' t depths (do_flowdir dout) (Some f) accum (Some dem) = Ok out ->
  Z.of_nat (length (bo_pourpoints out)) = bo_nlabels out + 1 /\
  forall l, 0 <= l <= bo_nlabels out -> (exists c, has_label (bo_labeled out) l c) ->
  exists p, nth_error (bo_pourpoints out) (Z.to_nat l) = Some p /\ pp_id p = l /\
    pour_ok (do_flowdir dout) (bo_labeled out) l (pp_row p, pp_col p).
Proof. exact chain_pour_ok. Qed.
Print Assumptions C27_chain_pour_points.

(** Lowest cell of a surface that falls along the flow, any labelling. *)
Theorem C27_lowest_cell_rule : forall (f lab : raster Z) (h : raster b64) n,
  dem_finite h -> same_shape h f -> same_shape h lab -> 1 <= nrows h -> 1 <= ncols h ->
  (forall c d, flows f c d -> lt64 (at_ h d) (at_ h c)) -> numbered lab n ->
  exists st, label_min_index64 h lab (Some n) = Ok st /\ label_min_index64_cy h lab (Some n) = Ok st /\
  forall l, 0 <= l <= n -> (exists c, has_label lab l c) ->
  exists r, nth_error st (Z.to_nat l) = Some r /\ pour_ok f lab l (i_row r, i_col r).
Proof. exact pour_min_rule. Qed.
Print Assumptions C27_lowest_cell_rule.

(** Largest accumulated flow, any labelling (accumulated flow is stored as float64,
    exact up to 2^53 cells). *)
Theorem C27_largest_accumulation_rule : forall (sp : bool) fuel (f lab a : raster Z) n,
  fully_draining f -> 1 <= nrows f -> 1 <= ncols f -> nrows f * ncols f <= 2 ^ 53 ->
  (if sp then accumulated_flow_cy else accumulated_flow) fuel f = Ok a ->
  same_shape f lab -> numbered lab n ->
  exists st, label_max_index64 (accum64 a) lab (Some n) = Ok st /\
  forall l, 0 <= l <= n -> (exists c, has_label lab l c) ->
  exists r, nth_error st (Z.to_nat l) = Some r /\ pour_ok f lab l (i_row r, i_col r).
Proof. exact pour_max_rule. Qed.
Print Assumptions C27_largest_accumulation_rule.

Example C27_example : exists dout out,
  dem_process false 60 (gt1 ex_gt) (gt5 ex_gt) bs_dem = Ok dout /\
  bluespot_process false cc_memo 60 ex_gt (do_depths dout) (do_flowdir dout) (Some bs_filter)
    (Some (accum64 (do_accum dout))) (Some bs_dem) = Ok out.
Proof. exact c27_runs. Qed.

(** ** C54: there must be a filter *)

Theorem C54_no_filter_refuted : forall cc sp fuel t depths flowdir accum dem,
  labels_components cc -> 1 <= nrows depths -> 1 <= ncols depths ->
  square_cells (gt1 t) (gt5 t) = true -> accum <> None \/ dem <> None ->
  bluespot_process sp cc fuel t depths flowdir None accum dem = Exc UnboundLocalError.
Proof. exact no_filter_raises. Qed.
Print Assumptions C54_no_filter_refuted.

Example C54_example : labels_components cc_memo /\ square_cells (gt1 ex_gt) (gt5 ex_gt) = true /\
  1 <= nrows c25_depths /\ 1 <= ncols c25_depths.
Proof. split; [apply cc_memo_ok|]. split; [vm_compute; reflexivity|]. cbn. lia. Qed.
