(** * Properties of the step-by-step commands (scripts/dem.py, scripts/bluespot.py)

    steps: filled, depths, flowdir, accum, bspots, wsheds, pourpts, one after the other;
    at_once: the first half of 'malstroem complete'; same_values: the files hold the same. *)

From Verif Require Import Base Float64 FillSpec FillModel FlowModel DemModel DemProofs CompSpec CompProofs VectorModel BluespotModel
  BluespotSpec BluespotThms StepModel StepSpec StepThms PourThms.
Local Open Scope Z_scope.

(** ** C69 *)

(** The step commands give exactly what complete gives, and succeed when it does (missing:
    filled levels within 0.01 of -999, and pourpts -dem on a DEM with nodata cells). *)
Theorem C69_same_results_partial : forall cc, labels_components cc -> forall sp fuel t demf f (use_accum : bool),
  let dem := load (Some (f64_ofZ (-999))) demf in
  size_ok sp dem -> dem32 dem -> dem_finite dem -> square_cells (gt1 t) (gt5 t) = true ->
  (forall a, (if sp then fill64_cy else fill64) fuel dem = Ok a -> unmistakable a) ->
  use_accum = true \/ no_nodata demf ->
  (forall o, at_once sp cc fuel t demf f use_accum = Ok o ->
     exists o', steps sp cc fuel t demf (Some f) use_accum = Ok o' /\ same_values o o') /\
  (forall o', steps sp cc fuel t demf (Some f) use_accum = Ok o' ->
     exists o, at_once sp cc fuel t demf f use_accum = Ok o /\ same_values o o').
Proof. exact steps_same. Qed.
Print Assumptions C69_same_results_partial.

(** Both succeed. *)
Theorem C69_both_succeed_partial : forall cc, labels_components cc -> forall sp t demf f (use_accum : bool),
  let dem := load (Some (f64_ofZ (-999))) demf in
  size_ok sp dem -> dem32 dem -> dem_finite dem -> square_cells (gt1 t) (gt5 t) = true ->
  (forall fuel a, (if sp then fill64_cy else fill64) fuel dem = Ok a -> unmistakable a) ->
  use_accum = true \/ no_nodata demf ->
  exists k, forall fuel, (fuel >= k)%nat -> exists o o',
    at_once sp cc fuel t demf f use_accum = Ok o /\ steps sp cc fuel t demf (Some f) use_accum = Ok o' /\ same_values o o'.
Proof. exact steps_total. Qed.
Print Assumptions C69_both_succeed_partial.

(** In the Python version the condition on the filled levels is one on the DEM. *)
Theorem C69_levels_unmistakable : forall dem, 2 <= nrows dem -> 2 <= ncols dem -> dem32 dem -> unmistakable dem ->
  forall fuel f, fill64 fuel dem = Ok f -> unmistakable f.
Proof. exact python_levels. Qed.
Print Assumptions C69_levels_unmistakable.

(** Leaving out -filter keeps every bluespot, as in complete. *)
Theorem C69_no_filter : forall cc, labels_components cc -> forall sp t depths,
  cc_ext cc -> 1 <= nrows (rf_data depths) -> 1 <= ncols (rf_data depths) ->
  cmd_bspots sp cc t depths None = cmd_bspots sp cc t depths (Some (fun _ => true)).
Proof. exact no_filter. Qed.
Print Assumptions C69_no_filter.

(** Elevations close to -999: the depths command reads filled levels as nodata, and the
    whole raster becomes one bluespot. *)
Theorem C69_near_nodata_refuted : exists demf o o',
  rf_nodata demf = None /\ no_nodata demf /\ size_ok false (rf_data demf) /\ dem32 (rf_data demf) /\ dem_finite (rf_data demf) /\
  at_once false cc_memo 20 ex_gt demf (fun _ => true) true = Ok o /\
  steps false cc_memo 20 ex_gt demf (Some (fun _ => true)) true = Ok o' /\
  to_rows (so_bspots o) = [[0;0;0];[0;1;0];[0;0;0]] /\ to_rows (so_bspots o') = [[1;1;1];[1;1;1];[1;1;1]].
Proof. exact near_refuted. Qed.
Print Assumptions C69_near_nodata_refuted.

(** A DEM with one nodata cell: pourpts -dem reads it without substitution and finds
    another pour point in the same bluespot. *)
Theorem C69_pourpts_dem_refuted : exists demf o o',
  let dem := load (Some (f64_ofZ (-999))) demf in
  size_ok false dem /\ dem32 dem /\ dem_finite dem /\ unmistakable dem /\
  at_once false cc_memo 20 ex_gt demf (fun _ => true) false = Ok o /\
  steps false cc_memo 20 ex_gt demf (Some (fun _ => true)) false = Ok o' /\
  to_rows (so_bspots o) = [[0;0;0;0;0];[0;0;1;1;0];[0;0;0;0;0]] /\
  to_rows (so_bspots o') = to_rows (so_bspots o) /\
  map (fun p => (pp_row p, pp_col p)) (so_pourpts o) = [(0, 0); (1, 3)] /\
  map (fun p => (pp_row p, pp_col p)) (so_pourpts o') = [(0, 0); (1, 2)].
Proof. exact nodata_refuted. Qed.
Print Assumptions C69_pourpts_dem_refuted.

(** Cells that are not square: complete stops, the step commands go on. *)
Theorem C69_not_square_refuted : exists t demf o,
  size_ok false (rf_data demf) /\ dem32 (rf_data demf) /\ dem_finite (rf_data demf) /\ no_nodata demf /\ unmistakable (rf_data demf) /\
  at_once false cc_memo 20 t demf (fun _ => true) true = Exc AssertionError /\
  steps false cc_memo 20 t demf (Some (fun _ => true)) true = Ok o /\
  to_rows (so_bspots o) = [[0;0;0];[0;1;0];[0;0;0]].
Proof. exact not_square_refuted. Qed.
Print Assumptions C69_not_square_refuted.

(** The two pits of bs_dem, in a file with nodata value -9999. *)
Example C69_example : labels_components cc_memo /\ cc_ext cc_memo /\ load (Some (f64_ofZ (-999))) bs_file = bs_dem /\
  size_ok false bs_dem /\ dem32 bs_dem /\ dem_finite bs_dem /\ square_cells (gt1 ex_gt) (gt5 ex_gt) = true /\
  unmistakable bs_dem /\ no_nodata bs_file.
Proof.
  split; [apply cc_memo_ok|]. split; [apply cc_memo_ext|]. split; [apply load_same; apply bs_file_ok|].
  split; [cbn; lia|]. split; [apply bs_dem_ok|]. split; [apply bs_dem_ok|]. split; [vm_compute; reflexivity|].
  split; apply bs_file_ok.
Qed.

(** ** C70: the two pour point rules *)

(** One cell to spill over, and still the rules choose different pour points: two cells
    of the bluespot flow to it. *)
Theorem C70_single_threshold_refuted : exists dem dout out out',
  size_ok false dem /\ dem32 dem /\ dem_finite dem /\
  dem_process false 40 (gt1 ex_gt) (gt5 ex_gt) dem = Ok dout /\
  bluespot_process false cc_memo 40 ex_gt (do_depths dout) (do_flowdir dout) (Some (fun _ => true)) None (Some dem) = Ok out /\
  bluespot_process false cc_memo 40 ex_gt (do_depths dout) (do_flowdir dout) (Some (fun _ => true))
    (Some (accum64 (do_accum dout))) (Some dem) = Ok out' /\
  to_rows (bo_labeled out) = [[0;0;0;0;0];[0;0;1;1;0];[0;0;0;1;0];[0;0;0;1;0];[0;0;0;0;0]] /\
  (forall c, threshold dem (do_filled dout) (bo_labeled out) 1 c <-> c = (3, 4)) /\
  map (fun p => (pp_row p, pp_col p)) (bo_pourpoints out) = [(3, 4); (3, 3)] /\
  map (fun p => (pp_row p, pp_col p)) (bo_pourpoints out') = [(3, 4); (2, 3)].
Proof. exact fork_refuted. Qed.
Print Assumptions C70_single_threshold_refuted.

(** What holds: labels and watersheds never depend on the rule, and a bluespot with one cell
    from which water leaves for good has the same pour point record (missing: several such
    cells at one threshold). *)
Theorem C70_single_outlet_partial : forall cc sp fuel fuel' t1 t5 dem dout t depths f out out',
  labels_components cc ->
  size_ok sp dem -> dem32 dem -> dem_finite dem -> nrows dem * ncols dem <= 2 ^ 53 ->
  dem_process sp fuel t1 t5 dem = Ok dout -> same_shape dem depths ->
  bluespot_process sp cc fuel' t depths (do_flowdir dout) (Some f) None (Some dem) = Ok out ->
  bluespot_process sp cc fuel' t depths (do_flowdir dout) (Some f) (Some (accum64 (do_accum dout))) (Some dem) = Ok out' ->
  bo_labeled out = bo_labeled out' /\ bo_watersheds out = bo_watersheds out' /\
  forall l c, 0 <= l <= bo_nlabels out ->
  (forall d, pour_ok (do_flowdir dout) (bo_labeled out) l d <-> d = c) ->
  exists p, pp_row p = fst c /\ pp_col p = snd c /\
    nth_error (bo_pourpoints out) (Z.to_nat l) = Some p /\ nth_error (bo_pourpoints out') (Z.to_nat l) = Some p.
Proof. exact single_outlet. Qed.
Print Assumptions C70_single_outlet_partial.

Example C70_example : exists dout out out',
  size_ok false lane_dem /\ dem32 lane_dem /\ dem_finite lane_dem /\ same_shape lane_dem (do_depths dout) /\
  dem_process false 40 (gt1 ex_gt) (gt5 ex_gt) lane_dem = Ok dout /\
  bluespot_process false cc_memo 40 ex_gt (do_depths dout) (do_flowdir dout) (Some (fun _ => true)) None (Some lane_dem) = Ok out /\
  bluespot_process false cc_memo 40 ex_gt (do_depths dout) (do_flowdir dout) (Some (fun _ => true))
    (Some (accum64 (do_accum dout))) (Some lane_dem) = Ok out' /\
  bo_nlabels out = 1 /\ to_rows (bo_labeled out) = [[0;0;0;0];[0;1;1;0];[0;0;0;0]] /\
  (forall d, pour_ok (do_flowdir dout) (bo_labeled out) 1 d <-> d = (1, 2)).
Proof. exact lane_outlet. Qed.
