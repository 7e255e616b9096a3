(** * C71, C72: cells without data

    nodata_at: the file has no data at a cell; open_hole: the cells without data reach from
    there to the edge of the raster. *)

From Coq Require Import QArith Qabs.
From Flocq Require Import IEEE754.BinarySingleNaN.
From Verif Require Import Base Num Float64 FillSpec FillThms FlowModel DemModel DemProofs LabelModel LabelSpec CompSpec CompProofs VectorModel
  BluespotModel BluespotSpec BluespotThms NetSpec NetworkSpec RainModel RainThms PipelineModel IoModel StepModel StepSpec NodataThms RainNodataThms.
Local Open Scope Z_scope.

(** ** C71 *)

(** Pure Python: holes that reach the edge hold no water and belong to no bluespot, wherever
    the terrain lies (missing: enclosed holes, the compiled version, nodata value 0). *)
Theorem C71_open_holes_dry_partial : forall fuel t1 t5 demf out,
  (forall nd, rf_nodata demf = Some nd -> Beqb nd f64_zero = false) ->
  let dem := load (Some (f64_ofZ (-999))) demf in
  size_ok false dem -> dem32 dem -> dem_finite dem -> dem_process false fuel t1 t5 dem = Ok out ->
  forall c, open_hole demf c ->
  eq64 (at_ (do_filled out) c) (f64_ofZ (-999)) /\ eq64 (at_ (do_depths out) c) f64_zero.
Proof. exact open_dry. Qed.
Print Assumptions C71_open_holes_dry_partial.

Theorem C71_open_holes_unlabelled_partial : forall cc, labels_components cc ->
  forall fuel t1 t5 demf dout fuel' t f accum dem' out,
  (forall nd, rf_nodata demf = Some nd -> Beqb nd f64_zero = false) ->
  let dem := load (Some (f64_ofZ (-999))) demf in
  size_ok false dem -> dem32 dem -> dem_finite dem -> dem_process false fuel t1 t5 dem = Ok dout ->
  bluespot_process false cc fuel' t (do_depths dout) (do_flowdir dout) (Some f) accum dem' = Ok out ->
  forall c, open_hole demf c -> at_ (bo_labeled out) c = 0.
Proof. exact open_unlabelled. Qed.
Print Assumptions C71_open_holes_unlabelled_partial.

(** Either version floods every enclosed hole when the terrain is above -999. *)
Theorem C71_enclosed_holes_flooded : forall sp fuel t1 t5 demf out,
  (forall nd, rf_nodata demf = Some nd -> Beqb nd f64_zero = false) ->
  let dem := load (Some (f64_ofZ (-999))) demf in
  size_ok sp dem -> dem32 dem -> dem_finite dem -> dem_process sp fuel t1 t5 dem = Ok out ->
  (forall c, inside (nrows dem) (ncols dem) c -> ~ nodata_at demf c -> lt64 (f64_ofZ (-999)) (at_ (rf_data demf) c)) ->
  forall c, nodata_at demf c -> ~ open_hole demf c -> lt64 f64_zero (at_ (do_depths out) c).
Proof. exact closed_flooded. Qed.
Print Assumptions C71_enclosed_holes_flooded.

(** A flat DEM at 10 m with one nodata cell: a bluespot 1009 m deep, in either version. *)
Theorem C71_enclosed_refuted : forall sp, exists demf dout out,
  let dem := load (Some (f64_ofZ (-999))) demf in
  rf_nodata demf = Some (f64_ofZ (-9999)) /\ size_ok sp dem /\ dem32 dem /\ dem_finite dem /\ nodata_at demf (2, 2) /\
  dem_process sp 40 (gt1 ex_gt) (gt5 ex_gt) dem = Ok dout /\
  bluespot_process sp cc_memo 40 ex_gt (do_depths dout) (do_flowdir dout) (Some (fun _ => true)) None (Some dem) = Ok out /\
  eq64 (at_ (do_depths dout) (2, 2)) (f64_ofZ 1009) /\
  to_rows (bo_labeled out) = [[0;0;0;0;0];[0;0;0;0;0];[0;0;1;0;0];[0;0;0;0;0];[0;0;0;0;0]].
Proof. exact closed_refuted. Qed.
Print Assumptions C71_enclosed_refuted.

(** The compiled version floods holes that reach the edge as well. *)
Theorem C71_compiled_open_refuted : exists demf dout,
  let dem := load (Some (f64_ofZ (-999))) demf in
  rf_nodata demf = Some (f64_ofZ (-9999)) /\ size_ok true dem /\ dem32 dem /\ dem_finite dem /\ open_hole demf (2, 2) /\
  dem_process true 40 (gt1 ex_gt) (gt5 ex_gt) dem = Ok dout /\
  eq64 (at_ (do_depths dout) (2, 2)) (f64_ofZ 1009).
Proof. exact strip_refuted. Qed.
Print Assumptions C71_compiled_open_refuted.

(** strip_file: nodata from (2, 2) to the corner; hole_file: nodata in the middle, 10 m around it. *)
Example C71_example :
  Beqb (f64_ofZ (-9999)) f64_zero = false /\
  rf_nodata strip_file = Some (f64_ofZ (-9999)) /\ size_ok false (load (Some (f64_ofZ (-999))) strip_file) /\
  dem32 (load (Some (f64_ofZ (-999))) strip_file) /\ dem_finite (load (Some (f64_ofZ (-999))) strip_file) /\ open_hole strip_file (2, 2) /\
  on_ok (fun o => Beqb (at_ (do_filled o) (2, 2)) (f64_ofZ (-999))) 
    (dem_process false 40 (gt1 ex_gt) (gt5 ex_gt) (load (Some (f64_ofZ (-999))) strip_file)) = true /\
  rf_nodata hole_file = Some (f64_ofZ (-9999)) /\ nodata_at hole_file (2, 2) /\ ~ open_hole hole_file (2, 2) /\
  (forall c, inside 5 5 c -> ~ nodata_at hole_file c -> lt64 (f64_ofZ (-999)) (at_ (rf_data hole_file) c)).
Proof. exact nodata_example. Qed.

(** ** C72 *)

(** A node gets the rain on the cells with data, plus the nodata value for each cell
    without: its volume is that of the data exactly if those values add up to 0. *)
Theorem C72_holes_counted_partial : forall t (lab : raster Z) (pr : raster_file) u nodes n,
  same_shape lab (rf_data pr) -> labels_in lab n -> largest_label lab n -> 1 <= nrows lab -> 1 <= ncols lab ->
  (forall nd, In nd nodes -> 0 <= nf_id nd) -> ~ (Qabs (gt1 t) * Qabs (gt5 t) == 0)%Q ->
  exists rv, cmd_initvolumes_pr t lab pr u nodes = Ok rv /\ map fst rv = nodes /\
  forall nd v, In (nd, v) rv -> exists data holes,
    lists_cells (fun c => has_label lab (nf_id nd) c /\ ~ nodata_at pr c) data /\
    lists_cells (fun c => has_label lab (nf_id nd) c /\ nodata_at pr c) holes /\
    let mm c := b64_Q (at_ (rf_data pr) c) in
    let factor := match u with U_mm => Qabs (gt1 t) * Qabs (gt5 t) / 1000 | U_l => 1 # 1000 | U_m3 => 1 end%Q in
    (v == (Qsum (map mm data) + Qsum (map mm holes)) * factor)%Q /\
    ((v == Qsum (map mm data) * factor)%Q <-> (Qsum (map mm holes) == 0)%Q).
Proof. exact pr_volumes. Qed.
Print Assumptions C72_holes_counted_partial.

(** 10 mm everywhere but for one nodata cell: the node gets -39.956 m3. *)
Theorem C72_nodata_refuted : exists dout out pps nodes sts rv v,
  dem_process false 20 (gt1 ex_gt) (gt5 ex_gt) rain_dem = Ok dout /\
  bluespot_process false cc_memo 20 ex_gt (do_depths dout) (do_flowdir dout) (Some all_pass) None (Some rain_dem) = Ok out /\
  exact_pourpoints ex_gt (do_depths dout) out = Ok pps /\
  stream_process QOps 20 (gt_Q ex_gt) (do_flowdir dout) (bo_labeled out) pps true = Ok (nodes, sts) /\
  (forall c, inside 3 6 c -> ~ nodata_at gap c -> at_ (rf_data gap) c = f64_ofZ 10) /\
  cmd_initvolumes_pr (gt_Q ex_gt) (bo_watersheds out) gap U_mm nodes = Ok rv /\
  In v rv /\ (snd v == -39956 # 1000)%Q.
Proof. exact pr_refuted. Qed.
Print Assumptions C72_nodata_refuted.

(** One bluespot of two cells, one of them without data. *)
Example C72_example : exists lab nodes n, same_shape lab (rf_data gap) /\ labels_in lab n /\ largest_label lab n /\
  (forall nd : @node_feature Q, In nd nodes -> 0 <= nf_id nd) /\ ~ (Qabs (gt1 (gt_Q ex_gt)) * Qabs (gt5 (gt_Q ex_gt)) == 0)%Q /\
  nodes <> [] /\ has_label lab 1 (1, 1) /\ nodata_at gap (1, 1) /\ has_label lab 1 (1, 2) /\ ~ nodata_at gap (1, 2).
Proof. exact pr_example. Qed.
