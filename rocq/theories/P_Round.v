(** * C80, C81: how far the computed numbers are from the exact ones

    The model computes the attributes of the pour points and the final state with binary64
    numbers (F64Ops) as the Python code does.  [within k x y]: x differs from y by at most k
    roundings to 53 bits. *)

From Coq Require Import QArith Qabs.
From Flocq Require Import IEEE754.BinarySingleNaN.
From Verif Require Import Base Num Float64 FillSpec FlowSpec FlowThms LabelSpec CompSpec CompProofs VectorModel BluespotModel BluespotSpec
  BluespotThms PipelineModel NetworkModel NetworkSpec NetworkThms NetworkFloatSpec NetworkFloatThms RoundSpec RoundThms RoundNetThms RoundEx.
Local Open Scope Z_scope.

(** ** C80: the attributes of the pour points *)

(** With n cells in the bluespot and w cells in its watershed: the areas are right up to 3 roundings, the volume
    up to n + 1 and the rain needed to fill the bluespot up to n + 9, as long as nothing overflows. *)
Theorem C80_pour_point_accuracy : forall cc, labels_components cc ->
  forall sp fuel t depths flowdir f accum dem out,
  1 <= nrows depths -> 1 <= ncols depths -> same_shape depths flowdir -> fully_draining flowdir ->
  (forall c, inside (nrows depths) (ncols depths) c -> is_f32 (at_ depths c) /\ le64 f64_zero (at_ depths c)) ->
  ordinary (gt1 t) -> ordinary (gt5 t) ->
  bluespot_process sp cc fuel t depths flowdir (Some f) accum dem = Ok out ->
  forall p, In p (bo_pourpoints out) -> exists cs ws,
  lists_cells (has_label (bo_labeled out) (pp_id p)) cs /\
  lists_cells (has_label (bo_watersheds out) (pp_id p)) ws /\
  let n := Z.of_nat (length cs) in let w := Z.of_nat (length ws) in
  let area := area_Q (gt1 t) (gt5 t) in let depth := Qsum (map (fun c => b64_Q (at_ depths c)) cs) in
  (finite64 (pp_area p) -> within 3 (b64_Q (pp_area p)) (inject_Z n * area)) /\
  (finite64 (pp_wshed p) -> within 3 (b64_Q (pp_wshed p)) (inject_Z w * area)) /\
  (finite64 (pp_vol p) -> (forall c, In c cs -> finite64 (at_ depths c)) /\
     within (n + 1) (b64_Q (pp_vol p)) (depth * area)) /\
  (finite64 (pp_wshed p) -> finite64 (pp_fumm p) -> w <= 2 ^ 53 ->
     within (n + 9) (b64_Q (pp_fumm p)) (1000 * (depth * area) / (inject_Z w * area))).
Proof. exact pourpoints_rounded. Qed.
Print Assumptions C80_pour_point_accuracy.

(** Not exactly right: the volume of two cells, 0.1 and 0.3 m deep, of 0.7 m by 0.7 m. *)
Theorem C80_exact_refuted : exists cc fuel t depths flowdir f accum out p cs,
  labels_components cc /\ same_shape depths flowdir /\ fully_draining flowdir /\
  (forall c, inside (nrows depths) (ncols depths) c -> is_f32 (at_ depths c) /\ le64 f64_zero (at_ depths c)) /\
  ordinary (gt1 t) /\ ordinary (gt5 t) /\
  bluespot_process false cc fuel t depths flowdir (Some f) (Some accum) None = Ok out /\
  In p (bo_pourpoints out) /\ finite64 (pp_vol p) /\
  lists_cells (has_label (bo_labeled out) (pp_id p)) cs /\
  ~ (b64_Q (pp_vol p) == Qsum (map (fun c => b64_Q (at_ depths c)) cs) * area_Q (gt1 t) (gt5 t))%Q.
Proof.
  destruct acc_inexact as (o & p & cs & X).
  exists cc_memo, 12%nat, acc_gt, acc_depths, acc_flow, (fun _ => true), acc_accum, o, p, cs.
  split; [apply cc_memo_ok|]. split; [split; reflexivity|].
  split; [apply check_draining_ok; vm_compute; reflexivity|]. split; [apply acc_depths_ok|].
  split; [apply acc_gt_ok|]. split; [apply acc_gt_ok|]. exact X.
Qed.
Print Assumptions C80_exact_refuted.

Example C80_example : labels_components cc_memo /\ same_shape acc_depths acc_flow /\ fully_draining acc_flow /\
  (forall c, inside (nrows acc_depths) (ncols acc_depths) c -> is_f32 (at_ acc_depths c) /\ le64 f64_zero (at_ acc_depths c)) /\
  ordinary (gt1 acc_gt) /\ ordinary (gt5 acc_gt) /\ on_ok acc_check acc_run = true.
Proof.
  split; [apply cc_memo_ok|]. split; [split; reflexivity|].
  split; [apply check_draining_ok; vm_compute; reflexivity|]. split; [apply acc_depths_ok|].
  split; [apply acc_gt_ok|]. split; [apply acc_gt_ok|]. vm_compute. reflexivity.
Qed.

(** ** C81: the final state *)

(** The computed volume and spill of a node differ from those of exact arithmetic on exact inputs by at most
    the sum of what the nodes that reach it contribute: the errors of their inputs and 2^-52 of the water they
    hold and pass on, times one plus the number of their direct upstream nodes. *)
Theorem C81_final_state_accuracy : forall (fs : list (@node b64)) (qs : list (@node Q)) fuel fuel' out outq,
  unique_ids fs -> acyclic_closed fs -> Forall2 same_place fs qs ->
  (forall n, In n fs -> nonneg64 (n_water n) /\ nonneg64 (n_cap n)) ->
  process F64Ops fuel fs = Ok out -> process QOps fuel' qs = Ok outq ->
  (forall n e, In (n, Some e) out -> finite64 (e_spill e)) ->
  Forall2 same_place (map fst out) (map fst outq) /\
  forall x, In x (combine out outq) -> exists us, NoDup us /\
    (forall y, In y us <-> In y (combine out outq) /\ reaches fs (both_id y) (both_id x)) /\
    (Qabs (written e_vol (fst x) - out_vol (snd x)) <= Qsum (map (node_error fs) us))%Q /\
    (Qabs (written e_spill (fst x) - out_spill (snd x)) <= Qsum (map (node_error fs) us))%Q.
Proof. exact final_near. Qed.
Print Assumptions C81_final_state_accuracy.

Example C81_example : unique_ids tenths /\ acyclic_closed tenths /\ Forall2 same_place tenths tenths_Q /\
  (forall n, In n tenths -> nonneg64 (n_water n) /\ nonneg64 (n_cap n)) /\
  exists out outq, process F64Ops 5 tenths = Ok out /\ process QOps 5 tenths_Q = Ok outq /\
    (forall n e, In (n, Some e) out -> finite64 (e_spill e)) /\ existsb differs (combine out outq) = true.
Proof.
  split; [apply ids_ok_ok; reflexivity|]. split; [apply acyclic_ok; reflexivity|].
  split; [repeat constructor|]. split; [intros n Hn; apply tenths_ok; auto|].
  assert (X : match process F64Ops 5 tenths, process QOps 5 tenths_Q with
              | Ok out, Ok outq => finite_out out && existsb differs (combine out outq) | _, _ => false end = true) by (vm_compute; reflexivity).
  destruct (process F64Ops 5 tenths) as [out| |]; try discriminate X.
  destruct (process QOps 5 tenths_Q) as [outq| |]; try discriminate X.
  apply andb_prop in X. destruct X as [X1 X2]. exists out, outq. split; [reflexivity|]. split; [reflexivity|].
  split; [apply finite_out_ok; exact X1|exact X2].
Qed.
