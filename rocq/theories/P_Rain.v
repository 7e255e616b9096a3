(** * C39, C40, C53, C56, C68: rain volumes and the whole chain

    Exact volume arithmetic (QOps); all decisions on rasters are taken on IEEE numbers as in
    the code.  [cc] is any labelling function meeting SciPy's contract; [sp] says whether the
    compiled functions are switched in; [t] is the geotransform. *)

From Coq Require Import Permutation QArith Qabs.
From Verif Require Import Base Num Float64 FillModel FillSpec FlowModel FlowSpec DemModel DemProofs LabelModel LabelSpec
  CompSpec CompProofs VectorModel BluespotModel BluespotSpec BluespotThms NetModel NetSpec NetworkModel NetworkSpec RainModel PipelineModel
  RainProofs RainThms RasterRainThms.
Local Open Scope Z_scope.

(** ** C39 *)

(** One node per label, junctions besides; the volumes add up to the rain on the raster;
    each pour point gets the rain on its watershed. *)
Theorem C39_rain_shares : forall cc, labels_components cc ->
  forall sp fuel fuel' t1 t5 dem dout t f accum out,
  size_ok sp dem -> dem32 dem -> dem_finite dem -> nrows dem * ncols dem <= 2 ^ 53 ->
  dem_process sp fuel t1 t5 dem = Ok dout ->
  accum = None \/ accum = Some (accum64 (do_accum dout)) ->
  bluespot_process sp cc fuel' t (do_depths dout) (do_flowdir dout) (Some f) accum (Some dem) = Ok out ->
  let area := (Qabs (gt1 (gt_Q t)) * Qabs (gt5 (gt_Q t)))%Q in
  exists pps, exact_pourpoints t (do_depths dout) out = Ok pps /\
  (Z.of_nat (length pps) <= nrows dem * ncols dem + 1) /\
  forall (streams : bool) k, (length (rcells (do_flowdir dout)) <= k)%nat -> (length pps <= k)%nat ->
  exists nodes sts, stream_process QOps k (gt_Q t) (do_flowdir dout) (bo_labeled out) pps streams = Ok (nodes, sts) /\
  NoDup (map nf_id nodes) /\
  Permutation (map nf_id (filter (fun n => negb (nf_junction n)) nodes)) (zseq 0 (length pps)) /\
  (forall n, In n nodes -> 0 <= nf_vol n)%Q /\
  forall mm, let vols := simple_volumes QOps mm nodes in
  (Qsum (map snd vols) == inject_Z (nrows dem * ncols dem) * area * (mm / 1000))%Q /\
  (forall n v, In (n, v) vols ->
     if nf_junction n then v == 0 else
     exists ws, lists_cells (has_label (bo_watersheds out) (nf_id n)) ws /\
       v == inject_Z (Z.of_nat (length ws)) * area * (mm / 1000))%Q /\
  acyclic_closed (map solver_node vols).
Proof. exact rain_shares. Qed.
Print Assumptions C39_rain_shares.

(** 500 mm on 18 cells of 4 m2: 28 m3 on the background, 4 m3 on each bluespot's watershed
    of two cells. *)
Example C39_example : size_ok false rain_dem /\ dem32 rain_dem /\ dem_finite rain_dem /\ labels_components cc_memo /\
  exists dout out pps nodes sts rv,
  dem_process false 20 (gt1 ex_gt) (gt5 ex_gt) rain_dem = Ok dout /\
  bluespot_process false cc_memo 20 ex_gt (do_depths dout) (do_flowdir dout) (Some all_pass) None (Some rain_dem) = Ok out /\
  exact_pourpoints ex_gt (do_depths dout) out = Ok pps /\
  stream_process QOps 20 (gt_Q ex_gt) (do_flowdir dout) (bo_labeled out) pps true = Ok (nodes, sts) /\
  raster_volumes QOps 0%Q 0%Q (gt_Q ex_gt) (bo_labeled out) (const_raster 3 6 500%Q) U_mm nodes = Ok rv /\
  rain_check dout out pps nodes rv = true.
Proof. split; [cbn; lia|]. split; [apply rain_dem_ok|]. split; [apply rain_dem_ok|]. split; [apply cc_memo_ok|]. exact rain_run_ok. Qed.

(** ** C40 *)

(** 500 mm everywhere: a node gets 4 m3 from the simple tool and 2 m3 from the raster tool,
    which sums over the bluespot instead of its watershed. *)
Theorem C40_raster_rain_refuted : exists dem dout t f out pps nodes sts rv water x nd v v',
  size_ok false dem /\ dem32 dem /\ dem_finite dem /\
  dem_process false 20 (gt1 t) (gt5 t) dem = Ok dout /\
  bluespot_process false cc_memo 20 t (do_depths dout) (do_flowdir dout) (Some f) None (Some dem) = Ok out /\
  exact_pourpoints t (do_depths dout) out = Ok pps /\
  stream_process QOps 20 (gt_Q t) (do_flowdir dout) (bo_labeled out) pps true = Ok (nodes, sts) /\
  (forall c, at_ water c = x) /\
  raster_volumes QOps 0%Q 0%Q (gt_Q t) (bo_labeled out) water U_mm nodes = Ok rv /\
  In (nd, v) (simple_volumes QOps x nodes) /\ In (nd, v') rv /\ (v == 4)%Q /\ (v' == 2)%Q.
Proof. exact c40_refuted. Qed.
Print Assumptions C40_raster_rain_refuted.

(** What the raster tool computes: the water on the cells carrying the id of the node. *)
Theorem C40_own_cells_partial : forall t (lab : raster Z) (water : raster Q) u nodes n,
  same_shape lab water -> labels_in lab n -> largest_label lab n -> 1 <= nrows lab -> 1 <= ncols lab ->
  (forall nd, In nd nodes -> 0 <= nf_id nd) ->
  exists rv, raster_volumes QOps 0%Q 0%Q t lab water u nodes = Ok rv /\ map fst rv = nodes /\
  forall nd v, In (nd, v) rv -> exists cs, lists_cells (has_label lab (nf_id nd)) cs /\
    (v == Qsum (map (at_ water) cs) *
       match u with U_mm => Qabs (gt1 t) * Qabs (gt5 t) / 1000 | U_l => 1 # 1000 | U_m3 => 1 end)%Q.
Proof. exact raster_volumes_spec. Qed.
Print Assumptions C40_own_cells_partial.

(** Given the watersheds in place of the bluespots the tools agree (missing: the raster
    the command asks for is the bluespot raster). *)
Theorem C40_watershed_raster_partial : forall cc, labels_components cc ->
  forall sp fuel fuel' t1 t5 dem dout t f accum out pps (streams : bool) k nodes sts x (water : raster Q),
  size_ok sp dem -> dem32 dem -> dem_finite dem -> nrows dem * ncols dem <= 2 ^ 53 ->
  dem_process sp fuel t1 t5 dem = Ok dout ->
  accum = None \/ accum = Some (accum64 (do_accum dout)) ->
  bluespot_process sp cc fuel' t (do_depths dout) (do_flowdir dout) (Some f) accum (Some dem) = Ok out ->
  exact_pourpoints t (do_depths dout) out = Ok pps ->
  (length (rcells (do_flowdir dout)) <= k)%nat -> (length pps <= k)%nat ->
  stream_process QOps k (gt_Q t) (do_flowdir dout) (bo_labeled out) pps streams = Ok (nodes, sts) ->
  same_shape dem water -> (forall c, inside (nrows dem) (ncols dem) c -> at_ water c == x)%Q ->
  exists rv, raster_volumes QOps 0%Q 0%Q (gt_Q t) (bo_watersheds out) water U_mm nodes = Ok rv /\ map fst rv = nodes /\
  forall nd v v', In (nd, v) rv -> In (nd, v') (simple_volumes QOps x nodes) -> (v == v')%Q.
Proof. exact watershed_rain. Qed.
Print Assumptions C40_watershed_raster_partial.

Example C40_example : labels_in LabelThms.ex_lab 3 /\
  on_ok (fun rv => match map (fun p => Qred (snd p)) rv with [v] => Qeq_bool v (3 # 500) | _ => false end)
    (raster_volumes QOps 0%Q 0%Q (mkGT 0 2 0 0 0 (-2))%Q LabelThms.ex_lab (const_raster 3 3 (1 # 2)) U_mm
      [mkNF 1 None false 0 0 (Some 1) 0%Q 0%Q 0%Q (0%Q, 0%Q)]) = true.
Proof. split; [apply LabelThms.ex_lab_in|]. vm_compute. reflexivity. Qed.

(** ** C53 *)

(** The whole chain succeeds; its network is acyclic and closed; the initial volumes are the
    rain on the raster; the final volumes and the water leaving at nodes without downstream
    node account for all of it. *)
Theorem C53_complete_water_balance : forall cc, labels_components cc ->
  forall sp t dem f (use_accum : bool) mm,
  size_ok sp dem -> dem32 dem -> dem_finite dem -> nrows dem * ncols dem <= 2 ^ 53 ->
  square_cells (gt1 t) (gt5 t) = true ->
  exists k, forall fuel, (fuel >= k)%nat -> exists o, complete sp cc fuel t dem f use_accum mm = Ok o /\
  let rain := (inject_Z (nrows dem * ncols dem) * (Qabs (gt1 (gt_Q t)) * Qabs (gt5 (gt_Q t))) * (mm / 1000))%Q in
  unique_ids (map solver_node (co_nodes o)) /\ acyclic_closed (map solver_node (co_nodes o)) /\
  (Qsum (map snd (co_nodes o)) == rain)%Q /\
  (Qsum (map out_vol (co_final o)) + Qsum (map out_spill (filter (fun p => is_root (fst p)) (co_final o))) == rain)%Q.
Proof. exact complete_balance. Qed.
Print Assumptions C53_complete_water_balance.

(** 5 m of rain: both bluespots full (8 m3), 32 m3 spill from bluespot 2 into bluespot 1. *)
Example C53_example : square_cells (gt1 ex_gt) (gt5 ex_gt) = true /\ size_ok false rain_dem /\
  on_ok (fun o => match map (fun p => (n_id (fst p), Qred (out_vol p), Qred (out_spill p))) (co_final o) with
                  | [(0, v0, s0); (1, v1, s1); (2, v2, s2)] =>
                      Qeq_bool v0 0 && Qeq_bool s0 280 && Qeq_bool v1 8 && Qeq_bool s1 64 && Qeq_bool v2 8 && Qeq_bool s2 32
                  | _ => false
                  end)
    (complete false cc_memo 20 ex_gt rain_dem all_pass true 5000%Q) = true.
Proof. split; [vm_compute; reflexivity|]. split; [cbn; lia|]. vm_compute. reflexivity. Qed.

(** ** C56: -mm and -pr *)

(** A rain depth of 0 counts as not given: alone it is rejected, together with -pr it is
    ignored. *)
Theorem C56_zero_rain_refuted : initvolumes_source QOps (Some 0%Q) false false = Exc UsageError /\
  initvolumes_source QOps (Some 0%Q) true true = Ok Use_raster.
Proof. exact source_refuted. Qed.
Print Assumptions C56_zero_rain_refuted.

(** Missing: -mm 0. *)
Theorem C56_exactly_one_partial : forall mm pr bluespots, (forall x, mm = Some x -> ~ x == 0)%Q ->
  initvolumes_source QOps mm pr bluespots =
    match mm, pr with
    | Some _, false => Ok Use_mm
    | None, true => if bluespots then Ok Use_raster else Exc UsageError
    | _, _ => Exc UsageError
    end.
Proof. exact source_spec. Qed.
Print Assumptions C56_exactly_one_partial.

Example C56_example : initvolumes_source QOps (Some (5 # 1)%Q) false false = Ok Use_mm /\
  initvolumes_source QOps None true true = Ok Use_raster /\ initvolumes_source QOps (Some (5 # 1)%Q) true true = Exc UsageError.
Proof. vm_compute. auto. Qed.

(** ** C68: rain given as a raster *)

(** All the water of the raster reaches the final state, whether it is collected per
    bluespot or per watershed. *)
Theorem C68_raster_rain_balance : forall cc, labels_components cc ->
  forall sp t dem f (use_accum : bool) (water : raster Q) u,
  size_ok sp dem -> dem32 dem -> dem_finite dem -> nrows dem * ncols dem <= 2 ^ 53 ->
  square_cells (gt1 t) (gt5 t) = true -> same_shape dem water ->
  exists k, forall fuel, (fuel >= k)%nat -> exists dout out pps nodes sts,
  dem_process sp fuel (gt1 t) (gt5 t) dem = Ok dout /\
  bluespot_process sp cc fuel t (do_depths dout) (do_flowdir dout) (Some f)
    (if use_accum then Some (accum64 (do_accum dout)) else None) (Some dem) = Ok out /\
  exact_pourpoints t (do_depths dout) out = Ok pps /\
  stream_process QOps fuel (gt_Q t) (do_flowdir dout) (bo_labeled out) pps true = Ok (nodes, sts) /\
  let rain := (Qsum (map (at_ water) (rcells water)) *
    match u with U_mm => Qabs (gt1 (gt_Q t)) * Qabs (gt5 (gt_Q t)) / 1000 | U_l => 1 # 1000 | U_m3 => 1 end)%Q in
  forall lab, lab = bo_labeled out \/ lab = bo_watersheds out -> exists rv fin,
  raster_volumes QOps 0%Q 0%Q (gt_Q t) lab water u nodes = Ok rv /\ map fst rv = nodes /\
  (Qsum (map snd rv) == rain)%Q /\
  process QOps (length rv) (map solver_node rv) = Ok fin /\
  (Qsum (map out_vol fin) + Qsum (map out_spill (filter (fun p => is_root (fst p)) fin)) == rain)%Q.
Proof. exact raster_balance. Qed.
Print Assumptions C68_raster_rain_balance.

(** Any labelling with one node per label. *)
Theorem C68_raster_total : forall t (lab : raster Z) (water : raster Q) u nodes n,
  same_shape lab water -> labels_in lab n -> largest_label lab n -> 1 <= nrows lab -> 1 <= ncols lab ->
  NoDup (map nf_id nodes) -> (forall nd, In nd nodes -> 0 <= nf_id nd) ->
  (forall c, inside (nrows lab) (ncols lab) c -> exists nd, In nd nodes /\ nf_id nd = at_ lab c) ->
  exists rv, raster_volumes QOps 0%Q 0%Q t lab water u nodes = Ok rv /\ map fst rv = nodes /\
  (Qsum (map snd rv) == Qsum (map (at_ water) (rcells water)) *
     match u with U_mm => Qabs (gt1 t) * Qabs (gt5 t) / 1000 | U_l => 1 # 1000 | U_m3 => 1 end)%Q.
Proof. exact raster_total. Qed.
Print Assumptions C68_raster_total.

(** 108 litres in all, 3 on bluespot 1 and 7 on bluespot 2; both keep theirs. *)
Example C68_example : size_ok false rain_dem /\ dem32 rain_dem /\ dem_finite rain_dem /\ labels_components cc_memo /\
  square_cells (gt1 ex_gt) (gt5 ex_gt) = true /\ same_shape rain_dem uneven /\
  on_ok (fun r => match map (fun p => Qred (snd p)) (fst r), map (fun p => Qred (out_vol p)) (snd r) with
                  | [a0; a1; a2], [b0; b1; b2] =>
                      Qeq_bool a0 (98 # 1000) && Qeq_bool a1 (3 # 1000) && Qeq_bool a2 (7 # 1000) &&
                      Qeq_bool b0 0 && Qeq_bool b1 (3 # 1000) && Qeq_bool b2 (7 # 1000)
                  | _, _ => false
                  end) uneven_run = true.
Proof.
  split; [cbn; lia|]. split; [apply rain_dem_ok|]. split; [apply rain_dem_ok|]. split; [apply cc_memo_ok|].
  split; [vm_compute; reflexivity|]. split; [split; reflexivity|]. vm_compute. reflexivity.
Qed.
