(** * C97: rain given as a raster, through the commands *)

From Coq Require Import Permutation QArith Qabs String.
From Verif Require Import Base Num Float64 FillSpec DemModel DemProofs LabelModel LabelSpec CompSpec CompProofs VectorModel BluespotModel BluespotSpec
  BluespotThms NetModel NetworkModel NetworkSpec RainModel RainThms PipelineModel HypsModel ApproxModel CompleteModel StepModel OgrModel OgrSpec CmdModel CmdSpec
  FillThms PrModel PrThms.
Local Open Scope Z_scope.

(** network, initvolumes -pr, finalvolumes, hyps, finallevels and finalbluespots succeed; each
    node gets the water on the cells with its id in the raster given to initvolumes; no water
    is lost; the final levels are those of the final volumes, and the final rasters follow
    from them. *)
Theorem C97_raster_rain_chain : forall cc, labels_components cc ->
  forall sp t dem f (use_accum : bool) pr u,
  size_ok sp dem -> dem32 dem -> dem_finite dem -> nrows dem * ncols dem <= 2 ^ 53 ->
  square_cells (gt1 t) (gt5 t) = true -> same_shape dem (rf_data pr) ->
  exists k, forall fuel, (fuel >= k)%nat -> exists dout out pps nodes sts,
  dem_process sp fuel (gt1 t) (gt5 t) dem = Ok dout /\
  bluespot_process sp cc fuel t (do_depths dout) (do_flowdir dout) (Some f)
    (if use_accum then Some (accum64 (do_accum dout)) else None) (Some dem) = Ok out /\
  exact_pourpoints t (do_depths dout) out = Ok pps /\
  let water c := b64_Q (at_ (rf_data pr) c) in
  let factor := match u with U_mm => Qabs (gt1 (gt_Q t)) * Qabs (gt5 (gt_Q t)) / 1000 | U_l => 1 # 1000 | U_m3 => 1 end%Q in
  forall lab zres attribute L ws, lab = bo_labeled out \/ lab = bo_watersheds out -> (0 < zres)%Q -> names_ok L ws -> ~ In attribute reserved ->
  exists vols final fo ds,
    vector_steps_pr fuel t dem (do_flowdir dout) (bo_labeled out) lab pr u zres attribute L
      (write_features (after ws) (l_pourpoints L) (map pourpoint_props pps)) = Ok (ds, fo_depths fo, fo_labels fo) /\
    layer_shows ds (l_pourpoints L) pourpoint_props pps /\ layer_shows ds (l_nodes L) node_attrs nodes /\
    layer_shows ds (l_streams L) stream_attrs sts /\ layer_shows ds (l_init L) (volume_attrs attribute) vols /\
    layer_shows ds (l_final L) final_attrs final /\ layer_shows ds (l_hyps L) hyps_attrs (fo_hyps fo) /\
    layer_shows ds (l_levels L) level_attrs (fo_levels fo) /\
    map fst vols = nodes /\
    (forall nd v, In (nd, v) vols -> exists cs, lists_cells (has_label lab (nf_id nd)) cs /\ (v == Qsum (map water cs) * factor)%Q) /\
    (Qsum (map out_vol final) + Qsum (map out_spill (filter (fun p => is_root (fst p)) final)) == Qsum (map water (rcells dem)) * factor)%Q /\
    Permutation (map lf_bspot (fo_levels fo)) (zseq 0 (Z.to_nat (bo_nlabels out + 1))) /\
    (forall o, In o (fo_levels fo) -> exists nd e, In (nd, Some e) final /\ n_id nd = lf_bspot o /\ lf_v o = e_vol e) /\
    same_shape dem (fo_labels fo) /\ same_shape dem (fo_depths fo) /\
    forall c, inside (nrows dem) (ncols dem) c ->
      (at_ (bo_labeled out) c = 0 -> at_ (fo_labels fo) c = 0 /\ (-999 <= b64_Q (at_ dem c) -> at_ (fo_depths fo) c == 0)%Q) /\
      (at_ (bo_labeled out) c <> 0 -> exists o, In o (fo_levels fo) /\ lf_bspot o = at_ (bo_labeled out) c /\
         ((lf_z o < b64_Q (at_ dem c))%Q -> (at_ (fo_depths fo) c == 0)%Q /\ at_ (fo_labels fo) c = 0) /\
         ((b64_Q (at_ dem c) <= lf_z o)%Q -> (at_ (fo_depths fo) c == lf_z o - b64_Q (at_ dem c))%Q /\ at_ (fo_labels fo) c = at_ (bo_labeled out) c)).
Proof. exact raster_rain_chain. Qed.
Print Assumptions C97_raster_rain_chain.

(** Other calls write nothing: -mm besides -pr, no -bluespots, rasters of different shapes.
    -mm 0 counts as no -mm. *)
Theorem C97_raster_refused : forall mm t bluespots pr u nodes nodes_layer out out_layer attribute fs,
  read_features nodes (Some nodes_layer) = Ok fs ->
  cmd_initvolumes_raster mm t bluespots pr u nodes nodes_layer out out_layer attribute =
    match mm, bluespots with
    | Some q, _ => if Qeq_bool q 0 then cmd_initvolumes_raster None t bluespots pr u nodes nodes_layer out out_layer attribute else Exc UsageError
    | None, None => Exc UsageError
    | None, Some b =>
        if (nrows b =? nrows (rf_data pr)) && (ncols b =? ncols (rf_data pr)) then cmd_initvolumes_raster None t (Some b) pr u nodes nodes_layer out out_layer attribute
        else Exc AssertionError
    end.
Proof. exact raster_refused. Qed.
Print Assumptions C97_raster_refused.

(** All rain falls on one cell, into the upstream bluespot of two: it fills and spills into
    the other. *)
Example C97_example :
  let pr := mkFile (zrows [[0;0;0;0;0;0]; [0;0;0;9000;0;0]; [0;0;0;0;0;0]]) None in
  size_ok false rain_dem /\ dem32 rain_dem /\ dem_finite rain_dem /\ labels_components cc_memo /\ square_cells (gt1 ex_gt) (gt5 ex_gt) = true /\
  same_shape rain_dem (rf_data pr) /\ names_ok step_names [] /\ ~ In "inputv"%string reserved /\
  on_ok (fun r => let '(_, depths, labels) := r in Qeq_bool (at_ depths (1, 1)) 2 && (at_ labels (1, 3) =? 2))
    (dout <- dem_process false 20 (gt1 ex_gt) (gt5 ex_gt) rain_dem ;;
     out <- bluespot_process false cc_memo 20 ex_gt (do_depths dout) (do_flowdir dout) (Some all_pass) None (Some rain_dem) ;;
     pps <- exact_pourpoints ex_gt (do_depths dout) out ;;
     vector_steps_pr 20 ex_gt rain_dem (do_flowdir dout) (bo_labeled out) (bo_watersheds out) pr U_mm 1%Q "inputv" step_names
       (write_features None (l_pourpoints step_names) (map pourpoint_props pps))) = true.
Proof.
  intros pr. split; [cbn; lia|]. split; [apply rain_dem_ok|]. split; [apply rain_dem_ok|]. split; [apply cc_memo_ok|].
  split; [vm_compute; reflexivity|]. split; [split; reflexivity|]. split.
  - split; [|split; [|intros w []]]; cbn; [repeat constructor; cbn; intuition discriminate|intuition discriminate].
  - split; [cbn; intuition discriminate|]. vm_compute. reflexivity.
Qed.
