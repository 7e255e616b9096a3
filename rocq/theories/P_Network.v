(** * C34-C38: the network solver

    [rain_event ops fuel (add_nodes empty_network ns)]: Network().add_nodes(ns) followed by
    rain_event; [process]: FinalStateCalculator.process.  QOps: exact arithmetic, F64Ops:
    Python floats. *)

From Coq Require Import QArith Qabs Permutation.
From Flocq Require Import IEEE754.BinarySingleNaN.
From Verif Require Import Base Num Float64 PipelineModel FillSpec NetworkModel NetworkSpec NetworkThms NetworkFloatSpec NetworkFloatThms.
Local Open Scope Z_scope.

(** ** C34 *)

(** Water put in = water standing in the bluespots + water leaving at nodes without downstream node. *)
Theorem C34_water_conserved : forall (fs : list (@node Q)) fuel out,
  unique_ids fs -> acyclic_closed fs -> process QOps fuel fs = Ok out ->
  (Qsum (map n_water fs) ==
   Qsum (map out_vol out) + Qsum (map out_spill (filter (fun p => is_root (fst p)) out)))%Q.
Proof. exact process_conserves. Qed.
Print Assumptions C34_water_conserved.

(** The same on the events of Network.rain_event. *)
Theorem C34_rain_event_conserves : forall (ns : list (@node Q)) fuel evs,
  unique_ids ns -> acyclic_closed ns ->
  rain_event QOps fuel (add_nodes empty_network ns) = Ok evs ->
  (Qsum (map n_water ns) == Qsum (map e_vol evs) +
     Qsum (map e_spill (filter (fun e => existsb (fun n => is_root n && (n_id n =? e_id e)) ns) evs)))%Q.
Proof. exact conserved. Qed.
Print Assumptions C34_rain_event_conserves.

Example C34_example : unique_ids ex_net /\ acyclic_closed ex_net /\
  exists out, process QOps 10 ex_net = Ok out /\ (Qsum (map out_vol out) == 19 # 2)%Q.
Proof.
  split; [apply ids_ok_ok; reflexivity|]. split; [apply acyclic_ok; reflexivity|].
  eexists. split; [vm_compute; reflexivity | vm_compute; reflexivity].
Qed.

(** With binary64 numbers, unless a spill overflows: exact up to 2^-52 of the water at each node for
    each direct upstream node and one more. *)
Theorem C34_conserved_rounded : forall (fs : list (@node b64)) fuel out,
  unique_ids fs -> acyclic_closed fs ->
  (forall n, In n fs -> nonneg64 (n_water n) /\ nonneg64 (n_cap n)) ->
  process F64Ops fuel fs = Ok out ->
  (forall n e, In (n, Some e) out -> finite64 (e_spill e)) ->
  (Qabs (Qsum (map (fun n => b64_Q (n_water n)) fs) -
         (Qsum (map (written e_vol) out) + Qsum (map (written e_spill) (filter (fun p => is_root (fst p)) out))))
   <= (1 # 2 ^ 52) * Qsum (map (fun p => fan_in fs (fst p) * (written e_vol p + written e_spill p)) out))%Q.
Proof. exact conserves64. Qed.
Print Assumptions C34_conserved_rounded.

(** Not exactly: with binary64 numbers water can appear or disappear. *)
Theorem C34_exactly_rounded_refuted : exists (fs : list (@node b64)) fuel out,
  unique_ids fs /\ acyclic_closed fs /\
  (forall n, In n fs -> nonneg64 (n_water n) /\ nonneg64 (n_cap n)) /\
  process F64Ops fuel fs = Ok out /\
  ~ (Qsum (map (fun n => b64_Q (n_water n)) fs) ==
     Qsum (map (written e_vol) out) + Qsum (map (written e_spill) (filter (fun p => is_root (fst p)) out)))%Q.
Proof.
  assert (X : match process F64Ops 5 tenths with Ok out => keeps_all tenths out | _ => true end = false) by (vm_compute; reflexivity).
  exists tenths, 5%nat. destruct (process F64Ops 5 tenths) as [out| |]; try discriminate X.
  exists out. split; [apply ids_ok_ok; reflexivity|]. split; [apply acyclic_ok; reflexivity|].
  split; [intros n Hn; apply tenths_ok; auto|]. split; [reflexivity|].
  intros Y. apply Qeq_bool_iff in Y. unfold keeps_all in X. rewrite Y in X. discriminate X.
Qed.
Print Assumptions C34_exactly_rounded_refuted.

Example C34_rounded_example : unique_ids tenths /\ acyclic_closed tenths /\
  (forall n, In n tenths -> nonneg64 (n_water n) /\ nonneg64 (n_cap n)) /\
  exists out, process F64Ops 5 tenths = Ok out /\ (forall n e, In (n, Some e) out -> finite64 (e_spill e)).
Proof.
  split; [apply ids_ok_ok; reflexivity|]. split; [apply acyclic_ok; reflexivity|].
  split; [intros n Hn; apply tenths_ok; auto|].
  assert (X : match process F64Ops 5 tenths with Ok out => finite_out out | _ => false end = true) by (vm_compute; reflexivity).
  destruct (process F64Ops 5 tenths) as [out| |]; try discriminate X. exists out. split; [reflexivity|].
  apply finite_out_ok. exact X.
Qed.

(** ** C35 *)

(** The solver never fails and never loops, whatever the network. *)
Theorem C35_solver_terminates : forall ns : list (@node Q), unique_ids ns ->
  forall fuel, (length ns <= fuel)%nat ->
  exists evs, rain_event QOps fuel (add_nodes empty_network ns) = Ok evs.
Proof. exact network_total. Qed.
Print Assumptions C35_solver_terminates.

(** One event per node, and the events solve the balance equations. *)
Theorem C35_settled_by_balance : forall (ns : list (@node Q)) fuel evs,
  unique_ids ns -> acyclic_closed ns ->
  rain_event QOps fuel (add_nodes empty_network ns) = Ok evs ->
  Permutation (map e_id evs) (map n_id ns) /\
  (forall n e, In n ns -> In e evs -> e_id e = n_id n -> e_water e = n_water n) /\
  exists vol spill, balance ns vol spill /\
    forall e, In e evs -> e_vol e = vol (e_id e) /\ e_spill e = spill (e_id e).
Proof. exact settled_by_balance. Qed.
Print Assumptions C35_settled_by_balance.

(** The balance equations have at most one solution. *)
Theorem C35_balance_unique : forall (ns : list (@node Q)) v s v' s',
  unique_ids ns -> balance ns v s -> balance ns v' s' ->
  forall id r, root_of ns id r -> (v id == v' id /\ s id == s' id)%Q.
Proof. exact balance_unique. Qed.
Print Assumptions C35_balance_unique.

(** The order in which nodes are supplied does not matter. *)
Theorem C35_order_irrelevant : forall (ns ns' : list (@node Q)) fuel fuel' evs evs',
  unique_ids ns -> Permutation ns ns' ->
  rain_event QOps fuel (add_nodes empty_network ns) = Ok evs ->
  rain_event QOps fuel' (add_nodes empty_network ns') = Ok evs' ->
  forall e, In e evs -> exists e', In e' evs' /\ e_id e' = e_id e /\
    (e_vol e' == e_vol e)%Q /\ (e_spill e' == e_spill e)%Q.
Proof. exact order_irrelevant. Qed.
Print Assumptions C35_order_irrelevant.

Example C35_example : exists ns', Permutation ex_net ns' /\ ns' <> ex_net /\
  unique_ids ex_net /\ acyclic_closed ex_net /\
  (exists evs, rain_event QOps 10 (add_nodes empty_network ex_net) = Ok evs /\ length evs = 4%nat) /\
  (exists evs, rain_event QOps 10 (add_nodes empty_network ns') = Ok evs /\ length evs = 4%nat).
Proof.
  exists (rev ex_net). split; [apply Permutation_rev|]. split; [discriminate|].
  split; [apply ids_ok_ok; reflexivity|]. split; [apply acyclic_ok; reflexivity|].
  split; eexists; (split; [vm_compute; reflexivity | reflexivity]).
Qed.

(** ** C36 *)

(** Exact arithmetic: bounds on volume, spill and percentage. *)
Theorem C36_no_overfill : forall (ns : list (@node Q)) fuel evs, unique_ids ns ->
  (forall n, In n ns -> 0 <= n_water n /\ 0 <= n_cap n)%Q ->
  rain_event QOps fuel (add_nodes empty_network ns) = Ok evs ->
  forall n e, In n ns -> In e evs -> e_id e = n_id n ->
  (0 <= e_vol e <= n_cap n)%Q /\ (0 <= e_spill e)%Q /\
  (0 < e_spill e -> e_vol e == n_cap n)%Q /\
  (e_pct e = None <-> n_cap n == 0)%Q /\
  (forall p, e_pct e = Some p -> 0 <= p <= 100 /\ p * n_cap n == 100 * e_vol e)%Q.
Proof. exact no_overfill. Qed.
Print Assumptions C36_no_overfill.

(** The same with binary64 rounding, for volume and spill. *)
Theorem C36_no_overfill_rounded : forall (ns : list (@node b64)) fuel evs, unique_ids ns ->
  (forall n, In n ns -> nonneg64 (n_water n) /\ nonneg64 (n_cap n)) ->
  rain_event F64Ops fuel (add_nodes empty_network ns) = Ok evs ->
  forall n e, In n ns -> In e evs -> e_id e = n_id n ->
  le64 f64_zero (e_vol e) /\ le64 (e_vol e) (n_cap n) /\ le64 f64_zero (e_spill e) /\
  (lt64 f64_zero (e_spill e) -> e_vol e = n_cap n).
Proof. exact no_overfill64. Qed.
Print Assumptions C36_no_overfill_rounded.

(** The percentage bound does not survive rounding: a full bluespot of 0.007 m3 is more than 100% full. *)
Theorem C36_percentage_rounded_refuted : exists (n : @node b64) fuel e p,
  nonneg64 (n_water n) /\ nonneg64 (n_cap n) /\
  rain_event F64Ops fuel (add_nodes empty_network [n]) = Ok [e] /\
  e_pct e = Some p /\ lt64 (f64_ofZ 100) p.
Proof.
  exists (mkNode 1 None (f64_ofZ 1) (f64 8070450532247929 (-60))), 5%nat.
  eexists. eexists. split; [split; vm_compute; reflexivity|]. split; [split; vm_compute; reflexivity|].
  split; [unfold rain_event; cbn; reflexivity|].
  split; [cbn; reflexivity|]. vm_compute. reflexivity.
Qed.
Print Assumptions C36_percentage_rounded_refuted.

Example C36_example : unique_ids ex_net /\
  (forall n, In n ex_net -> 0 <= n_water n /\ 0 <= n_cap n)%Q /\
  exists evs, rain_event QOps 10 (add_nodes empty_network ex_net) = Ok evs /\
    existsb (fun e => Qltb 0 (e_spill e)) evs = true.
Proof.
  split; [apply ids_ok_ok; reflexivity|]. split.
  - intros n Hn. cbn in Hn. repeat destruct Hn as [<-|Hn]; try contradiction; cbn; split; discriminate.
  - eexists. split; [vm_compute; reflexivity | vm_compute; reflexivity].
Qed.

(** ** C37 *)

(** More initial water (same topology and capacities): no volume and no spill decreases. *)
Theorem C37_more_rain_more_water : forall (ns ns' : list (@node Q)) fuel fuel' evs evs',
  unique_ids ns ->
  Forall2 (fun a b => n_id a = n_id b /\ n_dstr a = n_dstr b /\ (n_cap a == n_cap b)%Q /\
                      (n_water a <= n_water b)%Q) ns ns' ->
  rain_event QOps fuel (add_nodes empty_network ns) = Ok evs ->
  rain_event QOps fuel' (add_nodes empty_network ns') = Ok evs' ->
  forall e e', In e evs -> In e' evs' -> e_id e = e_id e' ->
  (e_vol e <= e_vol e' /\ e_spill e <= e_spill e')%Q.
Proof. exact more_rain. Qed.
Print Assumptions C37_more_rain_more_water.

Example C37_example : unique_ids ex_net /\
  Forall2 (fun a b => n_id a = n_id b /\ n_dstr a = n_dstr b /\ (n_cap a == n_cap b)%Q /\
                      (n_water a <= n_water b)%Q) ex_net ex_net' /\ ex_net <> ex_net'.
Proof.
  split; [apply ids_ok_ok; reflexivity|]. split; [|discriminate].
  repeat constructor; cbn; discriminate.
Qed.

(** The same with binary64 rounding. *)
Theorem C37_more_rain_rounded : forall (ns ns' : list (@node b64)) fuel fuel' evs evs',
  unique_ids ns ->
  Forall2 (fun a b => n_id a = n_id b /\ n_dstr a = n_dstr b /\ n_cap a = n_cap b /\
                      le64 (n_water a) (n_water b)) ns ns' ->
  (forall n, In n ns \/ In n ns' -> nonneg64 (n_water n) /\ nonneg64 (n_cap n)) ->
  rain_event F64Ops fuel (add_nodes empty_network ns) = Ok evs ->
  rain_event F64Ops fuel' (add_nodes empty_network ns') = Ok evs' ->
  forall e e', In e evs -> In e' evs' -> e_id e = e_id e' ->
  le64 (e_vol e) (e_vol e') /\ le64 (e_spill e) (e_spill e').
Proof. exact more_rain64. Qed.
Print Assumptions C37_more_rain_rounded.

Example C37_rounded_example : unique_ids tenths /\
  Forall2 (fun a b => n_id a = n_id b /\ n_dstr a = n_dstr b /\ n_cap a = n_cap b /\
                      le64 (n_water a) (n_water b)) tenths tenths' /\
  (forall n, In n tenths \/ In n tenths' -> nonneg64 (n_water n) /\ nonneg64 (n_cap n)).
Proof.
  split; [apply ids_ok_ok; reflexivity|]. split; [|exact tenths_ok].
  repeat apply Forall2_cons; try apply Forall2_nil;
    (split; [reflexivity|]; split; [reflexivity|]; split; [reflexivity|]; vm_compute; reflexivity).
Qed.

(** ** C38 *)

(** In a closed acyclic network with distinct ids every input node gets its values. *)
Theorem C38_all_written : forall {T} (ops : NumOps T) (fs : list (@node T)) fuel out,
  unique_ids fs -> acyclic_closed fs -> process ops fuel fs = Ok out ->
  map fst out = fs /\ (forall n o, In (n, o) out -> exists e, o = Some e /\ e_id e = n_id n).
Proof. exact @all_written. Qed.
Print Assumptions C38_all_written.

(** In general: FinalStateCalculator always returns ... *)
Theorem C38_process_terminates : forall {T} (ops : NumOps T) (fs : list (@node T)) fuel,
  (length fs <= fuel)%nat -> exists out, process ops fuel fs = Ok out.
Proof. exact @process_total. Qed.
Print Assumptions C38_process_terminates.

(** ... writes the last feature of every id, and leaves out the final values of exactly
    the nodes that do not lead to a node without downstream node. *)
Theorem C38_skipped_exactly : forall {T} (ops : NumOps T) (fs : list (@node T)) fuel out,
  process ops fuel fs = Ok out ->
  NoDup (map n_id (map fst out)) /\
  (forall n, In n (map fst out) <->
     exists a b, fs = a ++ n :: b /\ ~ In (n_id n) (map n_id b)) /\
  (forall n e, In (n, Some e) out -> e_id e = n_id n /\ e_water e = n_water n) /\
  (forall n o, In (n, o) out -> (o = None <-> ~ exists r, root_of (map fst out) (n_id n) r)).
Proof. exact @process_characterised. Qed.
Print Assumptions C38_skipped_exactly.

(** So nodes are skipped silently: a dangling downstream reference. *)
Theorem C38_dangling_refuted : exists (fs : list (@node Q)) fuel out n,
  unique_ids fs /\ In n fs /\ process QOps fuel fs = Ok out /\ In (n, None) out.
Proof.
  exists [mkNode 1 None (1#1) (1#1); mkNode 2 (Some 7) (1#1) (1#1)], 5%nat.
  eexists. exists (mkNode 2 (Some 7) (1#1) (1#1)).
  split; [apply ids_ok_ok; reflexivity|]. split; [right; left; reflexivity|].
  split; [vm_compute; reflexivity | right; left; reflexivity].
Qed.
Print Assumptions C38_dangling_refuted.

(** A cycle (every reference resolves). *)
Theorem C38_cycle_refuted : exists (fs : list (@node Q)) fuel out,
  unique_ids fs /\ (forall n d, In n fs -> n_dstr n = Some d -> In d (map n_id fs)) /\ fs <> [] /\
  process QOps fuel fs = Ok out /\ forall n o, In (n, o) out -> o = None.
Proof.
  exists [mkNode 1 (Some 2) (1#1) (1#1); mkNode 2 (Some 1) (1#1) (1#1)], 5%nat. eexists.
  split; [apply ids_ok_ok; reflexivity|].
  split; [intros n d [<-|[<-|[]]] E; cbn in E; inversion E; cbn; auto|]. split; [discriminate|].
  split; [vm_compute; reflexivity|].
  intros n o [E|[E|[]]]; inversion E; reflexivity.
Qed.
Print Assumptions C38_cycle_refuted.

Example C38_example : unique_ids ex_net /\ acyclic_closed ex_net /\
  exists out, process QOps 10 ex_net = Ok out /\ length out = 4%nat.
Proof.
  split; [apply ids_ok_ok; reflexivity|]. split; [apply acyclic_ok; reflexivity|].
  eexists. split; [vm_compute; reflexivity | reflexivity].
Qed.
