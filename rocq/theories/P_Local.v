(** * C102: a change of rain acts downstream only, and never more than itself

    [process]: FinalStateCalculator.process in exact arithmetic; [complete]: the complete command. *)

From Coq Require Import QArith Qabs.
From Verif Require Import Base Num Float64 FillSpec DemModel DemProofs CompSpec CompProofs VectorModel BluespotSpec BluespotThms
  NetworkModel NetworkSpec NetworkThms RainModel RainThms PipelineModel LocalSpec LocalThms LocalRain.
Local Open Scope Z_scope.

(** Two networks with the same edges.  All changes of volumes upstream of a node and the change of
    what it spills together are at most the change of the rain (and twice that of the capacities)
    upstream of it. *)
Theorem C102_upstream_change : forall (fs fs' : list (@node Q)) fuel fuel' out out',
  unique_ids fs -> acyclic_closed fs -> Forall2 same_edges fs fs' ->
  process QOps fuel fs = Ok out -> process QOps fuel' fs' = Ok out' ->
  forall p, In p (combine out out') ->
  forall up, (forall m, In m fs -> (up (n_id m) = true <-> drains_to fs (n_id m) (n_id (fst (fst p))))) ->
  (Qsum (map vol_change (filter (fun p => up (n_id (fst (fst p)))) (combine out out'))) + spill_change p <=
   Qsum (map input_change (filter (fun p => up (n_id (fst p))) (combine fs fs'))))%Q.
Proof. exact process_upstream_change. Qed.
Print Assumptions C102_upstream_change.

(** There is such a marking of the upstream nodes. *)
Theorem C102_upstream_marked : forall (fs : list (@node Q)) id, unique_ids fs -> acyclic_closed fs ->
  exists up, forall n, In n fs -> (up (n_id n) = true <-> drains_to fs (n_id n) id).
Proof. exact (@marked Q). Qed.
Print Assumptions C102_upstream_marked.

(** A node none of whose upstream nodes changes keeps its values. *)
Theorem C102_elsewhere : forall (fs fs' : list (@node Q)) fuel fuel' out out',
  unique_ids fs -> acyclic_closed fs -> Forall2 same_edges fs fs' ->
  process QOps fuel fs = Ok out -> process QOps fuel' fs' = Ok out' ->
  forall p p', In (p, p') (combine out out') ->
  (forall m m', In (m, m') (combine fs fs') -> drains_to fs (n_id m) (n_id (fst p)) ->
     n_water m == n_water m' /\ n_cap m == n_cap m')%Q ->
  (out_vol p == out_vol p' /\ out_spill p == out_spill p')%Q.
Proof. exact process_elsewhere. Qed.
Print Assumptions C102_elsewhere.

(** The whole network. *)
Theorem C102_total_change : forall (fs fs' : list (@node Q)) fuel fuel' out out',
  unique_ids fs -> acyclic_closed fs -> Forall2 same_edges fs fs' ->
  process QOps fuel fs = Ok out -> process QOps fuel' fs' = Ok out' ->
  (Qsum (map vol_change (combine out out')) +
   Qsum (map spill_change (filter (fun p => is_root (fst (fst p))) (combine out out'))) <=
   Qsum (map input_change (combine fs fs')))%Q.
Proof. exact process_total_change. Qed.
Print Assumptions C102_total_change.

(** Rain on node 3 changes from 1/2 to 5/2 m3: its volume by 3/2, its spill by 1/2, and that of the
    sea by 1/2; nodes 1 and 2 are not touched. *)
Example C102_example : unique_ids ex_net /\ acyclic_closed ex_net /\ Forall2 same_edges ex_net ex_net' /\
  (exists out out', process QOps 10 ex_net = Ok out /\ process QOps 10 ex_net' = Ok out' /\
    map (fun p => (n_id (fst (fst p)), Qred (vol_change p), Qred (spill_change p))) (combine out out') =
    [(0, 0%Q, (1 # 2)%Q); (2, 0%Q, 0%Q); (1, 0%Q, 0%Q); (3, (3 # 2)%Q, (1 # 2)%Q)]) /\
  Qred (Qsum (map input_change (combine ex_net ex_net'))) = 2%Q /\
  drains_to ex_net 2 0 /\ ~ drains_to ex_net 3 1.
Proof.
  split; [apply ids_ok_ok; reflexivity|]. split; [apply acyclic_ok; reflexivity|].
  split; [repeat constructor|]. split.
  - eexists. eexists. split; [vm_compute; reflexivity|]. split; [vm_compute; reflexivity|]. vm_compute. reflexivity.
  - split; [vm_compute; reflexivity|]. split.
    + apply (dt_step ex_net (mkNode 2 (Some 1) (10#1) (4#1)) 1); [right; left; reflexivity|reflexivity|].
      apply (dt_step ex_net (mkNode 1 (Some 0) (2#1) (5#1)) 0); [right; right; left; reflexivity|reflexivity|constructor].
    + intros H. inversion H as [|n d b Hn D Hd E]. cbn in Hn.
      repeat destruct Hn as [<-|Hn]; try contradiction; try discriminate E.
      injection D as <-. inversion Hd as [|n d' b' Hn D' Hd' E']. cbn in Hn.
      repeat destruct Hn as [<-|Hn]; try contradiction; try discriminate E'; discriminate D'.
Qed.

(** Two amounts of rain in the complete command: no node changes by more than the difference of the
    rain on what drains to it, and all nodes together not by more than the difference of the rain. *)
Theorem C102_complete_change : forall cc, labels_components cc ->
  forall sp t dem f (use_accum : bool),
  size_ok sp dem -> dem32 dem -> dem_finite dem -> nrows dem * ncols dem <= 2 ^ 53 ->
  square_cells (gt1 t) (gt5 t) = true ->
  exists k, forall fuel, (fuel >= k)%nat -> forall mm mm', exists o o',
  complete sp cc fuel t dem f use_accum mm = Ok o /\ complete sp cc fuel t dem f use_accum mm' = Ok o' /\
  (forall p, In p (combine (co_final o) (co_final o')) ->
   forall up, (forall n v, In (n, v) (co_nodes o) -> (up (nf_id n) = true <-> drains_to (map solver_node (co_nodes o)) (nf_id n) (n_id (fst (fst p))))) ->
   vol_change p + spill_change p <= Qabs (mm' - mm) / 1000 * drained_area up (co_nodes o))%Q /\
  (Qsum (map vol_change (combine (co_final o) (co_final o'))) +
   Qsum (map spill_change (filter (fun p => is_root (fst (fst p))) (combine (co_final o) (co_final o')))) <=
   Qabs (mm' - mm) / 1000 * (inject_Z (nrows dem * ncols dem) * (Qabs (gt1 (gt_Q t)) * Qabs (gt5 (gt_Q t)))))%Q.
Proof. exact complete_change. Qed.
Print Assumptions C102_complete_change.

(** 0.5 m and 5 m of rain on the terrain of C39. *)
Example C102_complete_example : labels_components cc_memo /\ square_cells (gt1 ex_gt) (gt5 ex_gt) = true /\
  size_ok false rain_dem /\ dem32 rain_dem /\ dem_finite rain_dem /\
  on_ok (fun o => on_ok (fun o' =>
      Qeq_bool (Qsum (map vol_change (combine (co_final o) (co_final o')))) 8 &&
      Qeq_bool (Qsum (map spill_change (filter (fun p => is_root (fst (fst p))) (combine (co_final o) (co_final o'))))) 316)
    (complete false cc_memo 20 ex_gt rain_dem all_pass true 5000%Q))
  (complete false cc_memo 20 ex_gt rain_dem all_pass true 500%Q) = true.
Proof.
  split; [apply cc_memo_ok|]. split; [vm_compute; reflexivity|]. split; [cbn; lia|]. split; [apply rain_dem_ok|].
  split; [apply rain_dem_ok|]. vm_compute. reflexivity.
Qed.
