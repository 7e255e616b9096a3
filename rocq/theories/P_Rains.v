(** * C113: rain in parts, and more of it

    [process]: FinalStateCalculator.process in exact arithmetic; [next_rain w]: the node after a rain, with rain w to come
    and the room that is left; [both_rains w]: the node with rain w on top of its own. *)

From Coq Require Import QArith.
From Verif Require Import Base Num NetworkModel NetworkSpec NetworkThms RainsSpec RainsThms.
Local Open Scope Z_scope.

(** Two rains one after the other leave the volumes of the two at once, and spill as much in all. *)
Theorem C113_two_rains : forall (fs : list (@node Q)) w fuel1 fuel2 fuel out1 out2 out, unique_ids fs -> acyclic_closed fs ->
  (forall n, In n fs -> 0 <= w (n_id n))%Q ->
  process QOps fuel1 fs = Ok out1 -> process QOps fuel2 (map (next_rain w) out1) = Ok out2 -> process QOps fuel (map (both_rains w) fs) = Ok out ->
  forall p1 p2 p, In p1 out1 -> In p2 out2 -> In p out -> n_id (fst p1) = n_id (fst p) -> n_id (fst p2) = n_id (fst p) ->
  (out_vol p == out_vol p1 + out_vol p2 /\ out_spill p == out_spill p1 + out_spill p2)%Q.
Proof. exact two_rains. Qed.
Print Assumptions C113_two_rains.

(** Any number of rains, each with the room the ones before it left ([in_turn]), in all do what they do at once ([all_rain]). *)
Theorem C113_many_rains : forall (fs : list (@node Q)) ws fuel fuel' outs out, unique_ids fs -> acyclic_closed fs ->
  (forall n w, In n fs -> In w ws -> 0 <= w (n_id n))%Q ->
  in_turn fuel fs ws = Ok outs -> process QOps fuel' (map (both_rains (all_rain ws)) fs) = Ok out ->
  forall p, In p out -> (out_vol p == in_all out_vol (n_id (fst p)) outs /\ out_spill p == in_all out_spill (n_id (fst p)) outs)%Q.
Proof. exact many_rains. Qed.
Print Assumptions C113_many_rains.

(** Two more rains of 1 m3 per node: node 1 spills 3 + 2 + 2 m3. *)
Example C113_many_example : (forall n w, In n ex_net -> In w [one_each; one_each] -> 0 <= w (n_id n))%Q /\
  (exists outs, in_turn 4 ex_net [one_each; one_each] = Ok outs /\ map (fun o => Qred (at_node out_spill 1 o)) outs = [3; 2; 2]%Q) /\
  runs (map (both_rains (all_rain [one_each; one_each])) ex_net) = [(0, 0%Q, (25 # 2)%Q); (2, 4%Q, 8%Q); (1, 5%Q, 7%Q); (3, 2%Q, (1 # 2)%Q)].
Proof.
  split; [intros n w _ [<-|[<-|[]]]; discriminate|]. split; [eexists; split; [vm_compute; reflexivity|vm_compute; reflexivity]|vm_compute; reflexivity].
Qed.

(** k times the rain: each node spills at least k times as much. *)
Theorem C113_times : forall (fs : list (@node Q)) k fuel fuel' out out', unique_ids fs -> acyclic_closed fs -> (1 <= k)%Q -> (forall n, In n fs -> 0 <= n_cap n)%Q ->
  process QOps fuel fs = Ok out -> process QOps fuel' (map (times_rain k) fs) = Ok out' ->
  forall p p', In p out -> In p' out' -> n_id (fst p') = n_id (fst p) -> (k * out_spill p <= out_spill p')%Q.
Proof. exact scaled_rain. Qed.
Print Assumptions C113_times.

(** Id, volume and spill of each node: after a first rain, after 1 m3 more per node, and for both at once. *)
Example C113_example : unique_ids ex_net /\ acyclic_closed ex_net /\ (forall n, In n ex_net -> 0 <= one_each (n_id n) /\ 0 <= n_cap n)%Q /\
  runs ex_net = [(0, 0%Q, 6%Q); (2, 4%Q, 6%Q); (1, 5%Q, 3%Q); (3, (1 # 2)%Q, 0%Q)] /\ runs (after ex_net) = [(0, 0%Q, 3%Q); (2, 0%Q, 1%Q); (1, 0%Q, 2%Q); (3, 1%Q, 0%Q)] /\
  runs (map (both_rains one_each) ex_net) = [(0, 0%Q, 9%Q); (2, 4%Q, 7%Q); (1, 5%Q, 5%Q); (3, (3 # 2)%Q, 0%Q)] /\
  runs (map (times_rain 2) ex_net) = [(0, 0%Q, 21%Q); (2, 4%Q, 16%Q); (1, 5%Q, 15%Q); (3, 1%Q, 0%Q)].
Proof.
  split; [apply ids_ok_ok; vm_compute; reflexivity|]. split; [apply acyclic_ok; vm_compute; reflexivity|].
  split; [intros n H; cbn in H; repeat destruct H as [<-|H]; try contradiction; cbn; split; discriminate|]. repeat split; vm_compute; reflexivity.
Qed.

(** A bluespot may hold more than twice as much after twice the rain. *)
Theorem C113_volumes_refuted : exists (fs : list (@node Q)) out out' p p', unique_ids fs /\ acyclic_closed fs /\ (forall n, In n fs -> 0 <= n_water n /\ 0 <= n_cap n)%Q /\
  process QOps 4 fs = Ok out /\ process QOps 4 (map (times_rain 2) fs) = Ok out' /\ In p out /\ In p' out' /\ n_id (fst p') = n_id (fst p) /\ (2 * out_vol p < out_vol p')%Q.
Proof. exact volume_more. Qed.
Print Assumptions C113_volumes_refuted.
