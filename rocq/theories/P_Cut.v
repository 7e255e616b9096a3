(** * C104: what a node spills is the largest surplus of a part of the network above it *)

From Coq Require Import QArith Qabs Lia List Bool.
From Verif Require Import Base Num Float64 FillSpec FillThms DemModel LabelModel CompSpec CompProofs VectorModel BluespotModel BluespotThms NetworkModel NetworkSpec NetworkThms
  RainModel RainThms PipelineModel FillProofs DemProofs NetworkFloatSpec NetworkFloatThms LocalSpec CutSpec CutThms CutRain CutFloat.
Import ListNotations.
Local Open Scope Z_scope.

(** No part of the network that drains to a node without leaving the part gets more rain than it can
    hold plus what the node spills, and a node that spills has a part above it for which this is
    exact. *)
Theorem C104_largest_surplus : forall (fs : list (@node Q)) fuel out, unique_ids fs -> acyclic_closed fs -> process QOps fuel fs = Ok out ->
  forall p, In p out ->
  (0 <= out_spill p)%Q /\
  (forall q, part_above fs (n_id (fst p)) q -> surplus fs q <= out_spill p)%Q /\
  ((0 < out_spill p)%Q -> exists q, part_above fs (n_id (fst p)) q /\ q (n_id (fst p)) = true /\ (out_spill p == surplus fs q)%Q).
Proof. exact process_cut. Qed.
Print Assumptions C104_largest_surplus.

(** Node 0 of the example network spills 6: what nodes 0, 1 and 2 get too much, node 3 has room left. *)
Example C104_example : unique_ids ex_net /\ acyclic_closed ex_net /\
  (exists out, process QOps 4 ex_net = Ok out /\ exists p, In p out /\ n_id (fst p) = 0 /\ (out_spill p == 6)%Q) /\
  part_above ex_net 0 (fun i => negb (i =? 3)) /\ (surplus ex_net (fun i => negb (i =? 3)) == 6)%Q /\
  part_above ex_net 0 (fun _ => true) /\ (surplus ex_net (fun _ => true) == 9 # 2)%Q.
Proof.
  split; [apply ids_ok_ok; vm_compute; reflexivity|]. split; [apply acyclic_ok; vm_compute; reflexivity|].
  split.
  { eexists. split; [vm_compute; reflexivity|]. eexists. split; [left; reflexivity|]. split; [reflexivity|]. vm_compute. reflexivity. }
  split; [|split; [vm_compute; reflexivity|split; [|vm_compute; reflexivity]]].
  - intros m Hm Q. cbn in Hm. repeat destruct Hm as [<-|Hm]; try contradiction; cbn in *;
      try discriminate Q; try (left; reflexivity); right; eexists; split; reflexivity.
  - intros m Hm Q. cbn in Hm. repeat destruct Hm as [<-|Hm]; try contradiction; cbn in *;
      try (left; reflexivity); right; eexists; split; reflexivity.
Qed.

(** More rain and smaller bluespots: no node spills less. *)
Theorem C104_worse_input : forall (fs fs' : list (@node Q)) fuel fuel' out out', unique_ids fs -> acyclic_closed fs ->
  Forall2 (fun a b => n_id a = n_id b /\ n_dstr a = n_dstr b /\ (n_water a <= n_water b)%Q /\ (n_cap b <= n_cap a)%Q) fs fs' ->
  process QOps fuel fs = Ok out -> process QOps fuel' fs' = Ok out' ->
  forall p p', In p out -> In p' out' -> n_id (fst p) = n_id (fst p') -> (out_spill p <= out_spill p')%Q.
Proof. exact worse_spill. Qed.
Print Assumptions C104_worse_input.

(** The same in binary64: rounding never makes a node spill less for more rain and smaller bluespots. *)
Theorem C104_worse_input_rounded : forall (ns ns' : list (@node b64)) fuel fuel' evs evs',
  unique_ids ns ->
  Forall2 (fun a b => n_id a = n_id b /\ n_dstr a = n_dstr b /\ le64 (n_water a) (n_water b) /\ le64 (n_cap b) (n_cap a)) ns ns' ->
  (forall n, In n ns \/ In n ns' -> nonneg64 (n_water n) /\ nonneg64 (n_cap n)) ->
  rain_event F64Ops fuel (add_nodes empty_network ns) = Ok evs ->
  rain_event F64Ops fuel' (add_nodes empty_network ns') = Ok evs' ->
  forall e e', In e evs -> In e' evs' -> e_id e = e_id e' -> le64 (e_spill e) (e_spill e').
Proof. exact worse_spill64. Qed.
Print Assumptions C104_worse_input_rounded.

Example C104_rounded_example : unique_ids tenths /\
  Forall2 (fun a b => n_id a = n_id b /\ n_dstr a = n_dstr b /\ le64 (n_water a) (n_water b) /\ le64 (n_cap b) (n_cap a)) tenths tenths_worse /\
  (forall n, In n tenths \/ In n tenths_worse -> nonneg64 (n_water n) /\ nonneg64 (n_cap n)).
Proof.
  split; [apply ids_ok_ok; reflexivity|]. split; [|exact worse_ok].
  repeat apply Forall2_cons; try apply Forall2_nil;
    (split; [reflexivity|]; split; [reflexivity|]; split; vm_compute; reflexivity).
Qed.

(** With a weighted mean of two rains (and capacities) no node spills more than the weighted mean of
    what it spills for each of them. *)
Theorem C104_convex : forall (fs fs' : list (@node Q)) w fuel fuel' fuel2 out out' out2, unique_ids fs -> acyclic_closed fs ->
  Forall2 same_edges fs fs' -> (0 <= w)%Q -> (w <= 1)%Q ->
  process QOps fuel fs = Ok out -> process QOps fuel' fs' = Ok out' -> process QOps fuel2 (map (mix w) (combine fs fs')) = Ok out2 ->
  forall p p' p2, In p out -> In p' out' -> In p2 out2 -> n_id (fst p) = n_id (fst p2) -> n_id (fst p') = n_id (fst p2) ->
  (out_spill p2 <= w * out_spill p + (1 - w) * out_spill p')%Q.
Proof. exact mixed_spill. Qed.
Print Assumptions C104_convex.

(** The example network with and without rain, and with half of it: node 0 spills 6, 0 and 3/2. *)
Example C104_convex_example : Forall2 same_edges ex_net dry_net /\
  Forall2 (fun a b => n_id a = n_id b /\ n_dstr a = n_dstr b /\ (n_water a <= n_water b)%Q /\ (n_cap b <= n_cap a)%Q) dry_net ex_net /\
  let spills l := match process QOps 4 l with Ok out => map (fun p => Qred (out_spill p)) out | _ => [] end in
  spills ex_net = [6; 6; 3; 0]%Q /\ spills dry_net = [0; 0; 0; 0]%Q /\
  spills (map (mix (1 # 2)) (combine ex_net dry_net)) = [3 # 2; 1; 0; 0]%Q.
Proof.
  split; [repeat constructor|]. split; [repeat constructor; cbn; discriminate|].
  cbv zeta. split; [vm_compute; reflexivity|]. split; vm_compute; reflexivity.
Qed.

(** The complete command: a node spills if and only if the rain on some part of the network above it
    is more than the part can hold, and spills what this is at most. *)
Theorem C104_complete : forall cc, labels_components cc ->
  forall sp t dem f (use_accum : bool),
  size_ok sp dem -> dem32 dem -> dem_finite dem -> nrows dem * ncols dem <= 2 ^ 53 ->
  square_cells (gt1 t) (gt5 t) = true ->
  exists k, forall fuel, (fuel >= k)%nat -> forall mm, exists o,
  complete sp cc fuel t dem f use_accum mm = Ok o /\
  forall p, In p (co_final o) ->
  ((0 < out_spill p)%Q <-> exists q, part_above (map solver_node (co_nodes o)) (n_id (fst p)) q /\
     (held (map solver_node (co_nodes o)) q < mm / 1000 * drained_area q (co_nodes o))%Q) /\
  (forall q, part_above (map solver_node (co_nodes o)) (n_id (fst p)) q ->
     (mm / 1000 * drained_area q (co_nodes o) - held (map solver_node (co_nodes o)) q <= out_spill p)%Q) /\
  ((0 < out_spill p)%Q -> exists q, part_above (map solver_node (co_nodes o)) (n_id (fst p)) q /\
     (out_spill p == mm / 1000 * drained_area q (co_nodes o) - held (map solver_node (co_nodes o)) q)%Q).
Proof. exact complete_cut. Qed.
Print Assumptions C104_complete.

(** 5 m of rain on the terrain of C39: the whole network above node 1 holds less than it gets. *)
Example C104_complete_example : labels_components cc_memo /\ square_cells (gt1 ex_gt) (gt5 ex_gt) = true /\
  size_ok false rain_dem /\ dem32 rain_dem /\ dem_finite rain_dem /\
  on_ok (fun o => existsb (fun p => Qltb 0 (out_spill p)) (co_final o) && Qltb 0 (held (map solver_node (co_nodes o)) (fun _ => true)) &&
      Qltb (held (map solver_node (co_nodes o)) (fun _ => true)) (5000 / 1000 * drained_area (fun _ => true) (co_nodes o)))
    (complete false cc_memo 20 ex_gt rain_dem all_pass true 5000%Q) = true.
Proof.
  split; [apply cc_memo_ok|]. split; [vm_compute; reflexivity|]. split; [cbn; lia|]. split; [apply rain_dem_ok|].
  split; [apply rain_dem_ok|]. vm_compute. reflexivity.
Qed.
