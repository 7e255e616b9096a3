(** * C90, C91: the lines drawn for the streams *)

From Coq Require Import QArith.
From Flocq Require Import IEEE754.BinarySingleNaN.
From Verif Require Import Base Num Float64 FillSpec FlowSpec DemModel DemProofs LabelSpec CompSpec CompProofs VectorModel BluespotModel
  BluespotThms PipelineModel RainModel RainThms StreamSpec StreamThms.
Local Open Scope Z_scope.

(** ** C90
    The stream network has one line per node.  The line starts in the centre of the node's cell and follows the flow
    from cell centre to cell centre, never twice through one cell, up to the junction it flows into, into the bluespot
    it flows into, or to where the water leaves the terrain.  A node of a bluespot carries the attributes of its pour point. *)
Theorem C90_streams_drawn : forall cc, labels_components cc -> forall sp fuel fuel' t1 t5 dem dout t f accum out,
  size_ok sp dem -> dem32 dem -> dem_finite dem -> nrows dem * ncols dem <= 2 ^ 53 ->
  dem_process sp fuel t1 t5 dem = Ok dout -> accum = None \/ accum = Some (accum64 (do_accum dout)) ->
  bluespot_process sp cc fuel' t (do_depths dout) (do_flowdir dout) (Some f) accum (Some dem) = Ok out ->
  exists pps, exact_pourpoints t (do_depths dout) out = Ok pps /\
  forall k, (length (rcells (do_flowdir dout)) <= k)%nat -> (length pps <= k)%nat ->
  exists nodes sts, stream_process QOps k (gt_Q t) (do_flowdir dout) (bo_labeled out) pps true = Ok (nodes, sts) /\
  map (fun s => (sf_id s, sf_dstr s)) sts = map (fun n => (nf_id n, nf_dstr n)) nodes /\
  (forall n, In n nodes -> centre (gt_Q t) (nf_row n, nf_col n) (nf_coord n) /\
     if nf_junction n then nf_bspot n = None /\ nf_area n = 0%Q /\ nf_vol n = 0%Q /\ nf_wshed n = 0%Q
     else exists p, In p pps /\ pp_id p = nf_id n /\ (pp_row p, pp_col p) = (nf_row n, nf_col n) /\
       nf_bspot n = Some (pp_id p) /\ nf_area n = pp_area p /\ nf_vol n = pp_vol p /\ nf_wshed n = pp_wshed p) /\
  (forall s, In s sts -> exists n path, In n nodes /\ nf_id n = sf_id s /\ nf_dstr n = sf_dstr s /\
     drawn (do_flowdir dout) (nf_row n, nf_col n) path /\ Forall2 (centre (gt_Q t)) path (sf_coords s) /\
     match sf_dstr s with
     | None => flows_off (do_flowdir dout) (last path (0, 0))
     | Some d => exists m, In m nodes /\ nf_id m = d /\
         if nf_junction m then last path (0, 0) = (nf_row m, nf_col m) else has_label (bo_labeled out) d (last path (0, 0))
     end) /\
  (exists s, In s sts /\ sf_id s = 0) /\ (forall s, In s sts -> length (sf_coords s) = 1%nat <-> sf_id s = 0).
Proof. exact streams_drawn. Qed.
Print Assumptions C90_streams_drawn.

(** Two hollows that overflow into one valley: their streams meet in a junction, node 3. *)
Example C90_example : labels_components cc_memo /\ size_ok false stream_dem /\ dem32 stream_dem /\ dem_finite stream_dem /\
  exists dout out pps nodes sts,
  dem_process false 30 (gt1 ex_gt) (gt5 ex_gt) stream_dem = Ok dout /\
  bluespot_process false cc_memo 30 ex_gt (do_depths dout) (do_flowdir dout) (Some all_pass) None (Some stream_dem) = Ok out /\
  exact_pourpoints ex_gt (do_depths dout) out = Ok pps /\
  (length (rcells (do_flowdir dout)) <= 30)%nat /\ (length pps <= 30)%nat /\
  stream_process QOps 30 (gt_Q ex_gt) (do_flowdir dout) (bo_labeled out) pps true = Ok (nodes, sts) /\
  (exists n, In n nodes /\ nf_junction n = true /\ nf_id n = 3) /\
  (exists s, In s sts /\ length (sf_coords s) = 3%nat /\ sf_dstr s = Some 3).
Proof.
  split; [exact cc_memo_ok|]. split; [cbn; lia|]. split; [apply stream_dem_ok|]. split; [apply stream_dem_ok|]. exact stream_run_ok.
Qed.

(** ** C91
    Every stream is a line of at least two points. *)
(** False for every terrain: the background is a node too, and its line has one point. *)
Theorem C91_background_refuted : forall cc, labels_components cc -> forall sp fuel fuel' t1 t5 dem dout t f accum out,
  size_ok sp dem -> dem32 dem -> dem_finite dem -> nrows dem * ncols dem <= 2 ^ 53 ->
  dem_process sp fuel t1 t5 dem = Ok dout -> accum = None \/ accum = Some (accum64 (do_accum dout)) ->
  bluespot_process sp cc fuel' t (do_depths dout) (do_flowdir dout) (Some f) accum (Some dem) = Ok out ->
  forall pps k nodes sts, exact_pourpoints t (do_depths dout) out = Ok pps ->
  (length (rcells (do_flowdir dout)) <= k)%nat -> (length pps <= k)%nat ->
  stream_process QOps k (gt_Q t) (do_flowdir dout) (bo_labeled out) pps true = Ok (nodes, sts) ->
  exists s, In s sts /\ sf_id s = 0 /\ length (sf_coords s) = 1%nat.
Proof. exact background_point. Qed.
Print Assumptions C91_background_refuted.

(** True for all other streams. *)
Theorem C91_others_partial : forall cc, labels_components cc -> forall sp fuel fuel' t1 t5 dem dout t f accum out,
  size_ok sp dem -> dem32 dem -> dem_finite dem -> nrows dem * ncols dem <= 2 ^ 53 ->
  dem_process sp fuel t1 t5 dem = Ok dout -> accum = None \/ accum = Some (accum64 (do_accum dout)) ->
  bluespot_process sp cc fuel' t (do_depths dout) (do_flowdir dout) (Some f) accum (Some dem) = Ok out ->
  forall pps k nodes sts, exact_pourpoints t (do_depths dout) out = Ok pps ->
  (length (rcells (do_flowdir dout)) <= k)%nat -> (length pps <= k)%nat ->
  stream_process QOps k (gt_Q t) (do_flowdir dout) (bo_labeled out) pps true = Ok (nodes, sts) ->
  forall s, In s sts -> sf_id s <> 0 -> (2 <= length (sf_coords s))%nat.
Proof. exact other_lines. Qed.
Print Assumptions C91_others_partial.

(** [C90_example] is an example of these as well: its junction is neither the background nor a bluespot. *)
Example C91_example : exists dout out pps nodes sts,
  dem_process false 30 (gt1 ex_gt) (gt5 ex_gt) stream_dem = Ok dout /\
  bluespot_process false cc_memo 30 ex_gt (do_depths dout) (do_flowdir dout) (Some all_pass) None (Some stream_dem) = Ok out /\
  exact_pourpoints ex_gt (do_depths dout) out = Ok pps /\
  (length (rcells (do_flowdir dout)) <= 30)%nat /\ (length pps <= 30)%nat /\
  stream_process QOps 30 (gt_Q ex_gt) (do_flowdir dout) (bo_labeled out) pps true = Ok (nodes, sts) /\
  (exists n, In n nodes /\ nf_junction n = true /\ nf_id n = 3) /\
  (exists s, In s sts /\ length (sf_coords s) = 3%nat /\ sf_dstr s = Some 3).
Proof. exact stream_run_ok. Qed.
