(** * C99: the recursion limit

    [room] is the number of nested activations of [_untangle] that Python's recursion
    limit leaves room for; [fuel] is for following the flow. *)

From Verif Require Import Base Num Float64 FillModel FillSpec FlowModel FlowSpec FlowProofs DemModel DemProofs LabelModel LabelSpec
  CompSpec CompProofs VectorModel BluespotModel BluespotSpec LevelProofs BluespotThms NetModel NetSpec NetProofs NetThms RecModel RecSpec RainThms RecThms RecComb.
Local Open Scope Z_scope.

(** With whatever input for which the unlimited function returns a network: the limit makes
    it fail with RecursionError exactly when the network has as many junctions in a row as
    there is room, and changes nothing otherwise. *)
Theorem C99_limit_exact : forall fuel (f lab : raster Z) pps bg out room,
  geometric_pourpoint_network fuel f lab pps bg = Ok out -> (1 <= room)%nat ->
  (geometric_pourpoint_network_rec room fuel f lab pps bg = Exc RecursionError <->
     exists js, junctions_in_a_row out js /\ length js = room) /\
  (geometric_pourpoint_network_rec room fuel f lab pps bg = Ok out <->
     forall js, junctions_in_a_row out js -> (length js < room)%nat).
Proof. exact limit_exact. Qed.
Print Assumptions C99_limit_exact.

(** In the tool chain the number of bluespots bounds what is needed: the pour points are
    those of the bluespots and of the background. *)
Theorem C99_chain_room : forall cc, labels_components cc ->
  forall sp fuel fuel' t1 t5 dem dout t f accum out,
  size_ok sp dem -> dem32 dem -> dem_finite dem -> nrows dem * ncols dem <= 2 ^ 53 ->
  dem_process sp fuel t1 t5 dem = Ok dout ->
  accum = None \/ accum = Some (accum64 (do_accum dout)) ->
  bluespot_process sp cc fuel' t (do_depths dout) (do_flowdir dout) (Some f) accum (Some dem) = Ok out ->
  forall fuel2 room, (length (rcells (do_flowdir dout)) <= fuel2)%nat -> (length (pps_of out) <= fuel2)%nat ->
  (1 <= room)%nat -> (length (pps_of out) <= S room)%nat -> exists net,
    geometric_pourpoint_network fuel2 (do_flowdir dout) (bo_labeled out) (pps_of out) (Some 0) = Ok net /\
    geometric_pourpoint_network_rec room fuel2 (do_flowdir dout) (bo_labeled out) (pps_of out) (Some 0) = Ok net.
Proof. exact chain_room. Qed.
Print Assumptions C99_chain_room.

(** The same for any rasters meeting the hypotheses of C31. *)
Theorem C99_room_enough : forall (f lab : raster Z) (pps : list cell),
  same_shape f lab -> fully_draining f -> pps <> [] -> pourpoints_ok f lab pps ->
  forall fuel room, (length (rcells f) <= fuel)%nat -> (length pps <= fuel)%nat ->
  (1 <= room)%nat -> (length pps <= S room)%nat -> exists out,
    geometric_pourpoint_network fuel f lab pps (Some 0) = Ok out /\
    geometric_pourpoint_network_rec room fuel f lab pps (Some 0) = Ok out.
Proof. exact room_enough. Qed.
Print Assumptions C99_room_enough.

(** That the network is computed whatever the number of bluespots is false, and the bound
    above is the best one: with one bluespot more than there is room, side by side along a
    stream, the function fails. *)
Theorem C99_any_size_refuted : forall room, exists f lab pps, same_shape f lab /\ fully_draining f /\ pps <> [] /\
  pourpoints_ok f lab pps /\ length pps = S (S room) /\
  forall fuel, (length (rcells f) <= fuel)%nat ->
    (exists out, geometric_pourpoint_network fuel f lab pps (Some 0) = Ok out) /\
    geometric_pourpoint_network_rec room fuel f lab pps (Some 0) = Exc RecursionError.
Proof. exact no_room_enough. Qed.
Print Assumptions C99_any_size_refuted.

(** The network of C31's example has one junction: room for one activation is not enough,
    room for two is. *)
Example C99_example : (same_shape net_flow net_lab /\ fully_draining net_flow /\ net_pps <> [] /\ pourpoints_ok net_flow net_lab net_pps) /\
  (exists out, geometric_pourpoint_network 30 net_flow net_lab net_pps (Some 0) = Ok out /\
     geometric_pourpoint_network_rec 2 30 net_flow net_lab net_pps (Some 0) = Ok out) /\
  geometric_pourpoint_network_rec 1 30 net_flow net_lab net_pps (Some 0) = Exc RecursionError.
Proof.
  split; [exact net_ok|]. split; [eexists; split; [exact net_geo|vm_compute; reflexivity] | vm_compute; reflexivity].
Qed.

(** Three pits beside a valley: four pour points, so that room for three is enough; room for
    two is not. *)
Example C99_example_terrain : labels_components cc_memo /\ size_ok false side_dem /\ (dem32 side_dem /\ dem_finite side_dem) /\
  nrows side_dem * ncols side_dem <= 2 ^ 53 /\
  exists dout out, dem_process false 60 (f64_ofZ 2) (f64_ofZ (-2)) side_dem = Ok dout /\
    bluespot_process false cc_memo 60 ex_gt (do_depths dout) (do_flowdir dout) (Some all_pass) None (Some side_dem) = Ok out /\
    length (pps_of out) = 4%nat /\
    (exists net, geometric_pourpoint_network_rec 3 60 (do_flowdir dout) (bo_labeled out) (pps_of out) (Some 0) = Ok net) /\
    geometric_pourpoint_network_rec 2 60 (do_flowdir dout) (bo_labeled out) (pps_of out) (Some 0) = Exc RecursionError.
Proof.
  split; [exact cc_memo_ok|]. split; [cbn; lia|]. split; [exact side_ok|]. split; [cbn; lia|exact side_runs].
Qed.

(** Four bluespots along a stream: three junctions in a row. *)
Example C99_example_row : exists out js, geometric_pourpoint_network 20 (comb_flow 4) (comb_lab 4) (comb_pps 4) (Some 0) = Ok out /\
  junctions_in_a_row out js /\ length js = 3%nat /\
  geometric_pourpoint_network_rec 3 20 (comb_flow 4) (comb_lab 4) (comb_pps 4) (Some 0) = Exc RecursionError /\
  geometric_pourpoint_network_rec 4 20 (comb_flow 4) (comb_lab 4) (comb_pps 4) (Some 0) = Ok out.
Proof.
  eexists. exists [mkG 7 (Some 6) true (0, 3) [(0, 3); (0, 2)]; mkG 6 (Some 5) true (0, 2) [(0, 2); (0, 1)];
    mkG 5 None true (0, 1) [(0, 1); (0, 0)]].
  split; [vm_compute; reflexivity|]. split.
  - split; [|cbn; auto]. intros j [<-|[<-|[<-|[]]]]; (split; [cbn; tauto|reflexivity]).
  - split; [reflexivity|]. split; vm_compute; reflexivity.
Qed.
