(** * C110: what less rain and larger bluespots save

    [helped r c]: a node with r less rain and c more room; [process]: FinalStateCalculator.process in exact arithmetic. *)

From Coq Require Import QArith.
From Verif Require Import Base Num NetworkModel NetworkSpec NetworkThms LocalSpec HelpSpec HelpThms.
Local Open Scope Z_scope.

(** A node spills no more than before, and saves at most what was done upstream of it. *)
Theorem C110_saved : forall (fs : list (@node Q)) r c fuel fuel' out out', unique_ids fs -> acyclic_closed fs ->
  (forall n, In n fs -> 0 <= r (n_id n) /\ 0 <= c (n_id n))%Q ->
  process QOps fuel fs = Ok out -> process QOps fuel' (map (helped r c) fs) = Ok out' ->
  forall p p', In p out -> In p' out' -> n_id (fst p') = n_id (fst p) ->
  forall up, (forall m, In m fs -> (up (n_id m) = true <-> drains_to fs (n_id m) (n_id (fst p)))) ->
  (out_spill p' <= out_spill p /\ out_spill p - out_spill p' <= Qsum (map (fun n => r (n_id n) + c (n_id n)) (filter (fun n => up (n_id n)) fs)))%Q.
Proof. exact helped_spill. Qed.
Print Assumptions C110_saved.

(** No bluespot holds more than before and what it was enlarged by. *)
Theorem C110_volumes : forall (fs : list (@node Q)) r c fuel fuel' out out', unique_ids fs -> acyclic_closed fs ->
  (forall n, In n fs -> 0 <= r (n_id n) /\ 0 <= c (n_id n))%Q ->
  process QOps fuel fs = Ok out -> process QOps fuel' (map (helped r c) fs) = Ok out' ->
  forall p p', In p out -> In p' out' -> n_id (fst p') = n_id (fst p) ->
  (out_vol p' <= out_vol p + c (n_id (fst p)))%Q.
Proof. exact helped_volume. Qed.
Print Assumptions C110_volumes.

(** Two measures together save no more than the one and the other by themselves. *)
Theorem C110_together : forall (fs : list (@node Q)) r c r' c' fuel0 fuel1 fuel2 fuel3 out0 out1 out2 out3, unique_ids fs -> acyclic_closed fs ->
  (forall n, In n fs -> 0 <= r (n_id n) /\ 0 <= c (n_id n))%Q -> (forall n, In n fs -> 0 <= r' (n_id n) /\ 0 <= c' (n_id n))%Q ->
  process QOps fuel0 fs = Ok out0 -> process QOps fuel1 (map (helped r c) fs) = Ok out1 -> process QOps fuel2 (map (helped r' c') fs) = Ok out2 ->
  process QOps fuel3 (map (helped (both r r') (both c c')) fs) = Ok out3 ->
  forall p0 p1 p2 p3, In p0 out0 -> In p1 out1 -> In p2 out2 -> In p3 out3 ->
  n_id (fst p1) = n_id (fst p0) -> n_id (fst p2) = n_id (fst p0) -> n_id (fst p3) = n_id (fst p0) ->
  (out_spill p0 - out_spill p3 <= (out_spill p0 - out_spill p1) + (out_spill p0 - out_spill p2))%Q.
Proof. exact together. Qed.
Print Assumptions C110_together.

(** Enlarging node 2 or node 1 by 4 m3 halves what node 0 spills; enlarging both saves no more. *)
Example C110_example : unique_ids ex_net /\ acyclic_closed ex_net /\
  (forall n, In n ex_net -> 0 <= none (n_id n) /\ 0 <= more_at 2 4 (n_id n))%Q /\ (forall n, In n ex_net -> 0 <= none (n_id n) /\ 0 <= more_at 1 4 (n_id n))%Q /\
  spill0 ex_net = 6%Q /\ spill0 (map (helped none (more_at 2 4)) ex_net) = 3%Q /\ spill0 (map (helped none (more_at 1 4)) ex_net) = 3%Q /\
  spill0 (map (helped (both none none) (both (more_at 2 4) (more_at 1 4))) ex_net) = 3%Q.
Proof. split; [apply ids_ok_ok; vm_compute; reflexivity|]. split; [apply acyclic_ok; vm_compute; reflexivity|]. exact ex_help. Qed.
