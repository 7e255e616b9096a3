From Coq Require Import QArith.
From Verif Require Import Base BaseProofs Num Dict DictProofs Float64 FillModel FlowModel DemModel DemProofs LabelModel VectorModel
  CompSpec CompProofs BluespotModel BluespotThms NetModel NetworkModel RainModel PipelineModel RainThms.
Local Open Scope Z_scope.

Section Index.
Context {A : Type}.
Variable key : A -> Z.
Notation put := (fun d n => dset Z.eqb d (key n) n).

Lemma dset_skip : forall (d d' : list (Z * A)) k v, ~ In k (map fst d) -> dset Z.eqb (d ++ d') k v = d ++ dset Z.eqb d' k v.
Proof.
  induction d as [|[k0 v0] d IH]; intros d' k v H; cbn [app dset]; [reflexivity|].
  destruct (Z.eqb_spec k0 k) as [->|_]; [exfalso; apply H; left; reflexivity|]. f_equal. apply IH. intros K. apply H. right. exact K.
Qed.

Lemma index_fresh : forall l d, NoDup (map key l) -> (forall x, In x l -> ~ In (key x) (map fst d)) ->
  fold_left put l d = d ++ map (fun x => (key x, x)) l.
Proof.
  induction l as [|x l IH]; intros d ND H; cbn [fold_left map]; [rewrite app_nil_r; reflexivity|].
  inversion ND as [|? ? N1 N2]; subst. rewrite (dset_fresh Z.eqb Z.eqb_spec) by (apply H; left; reflexivity).
  rewrite IH; [rewrite <- app_assoc; reflexivity|exact N2|]. intros y Hy. rewrite map_app, in_app_iff. intros [K|[K|[]]].
  - apply (H y); [right; exact Hy|exact K].
  - cbn in K. apply N1. rewrite K. apply in_map. exact Hy.
Qed.

Lemma index_over : forall l d' d, map fst d' = map key l -> NoDup (map fst d ++ map key l) ->
  fold_left put l (d ++ d') = d ++ map (fun x => (key x, x)) l.
Proof.
  induction l as [|x l IH]; intros [|[k v] d'] d E ND; cbn [map fst] in E; try discriminate E; [reflexivity|].
  injection E as -> E. cbn [fold_left map].
  assert (N : ~ In (key x) (map fst d)).
  { apply NoDup_remove_2 in ND. intros K. apply ND. apply in_or_app. left. exact K. }
  rewrite dset_skip by exact N. cbn [dset]. rewrite Z.eqb_refl.
  replace (d ++ (key x, x) :: d') with ((d ++ [(key x, x)]) ++ d') by (rewrite <- app_assoc; reflexivity).
  rewrite IH; [rewrite <- app_assoc; reflexivity|exact E|].
  rewrite map_app, <- app_assoc. exact ND.
Qed.

Lemma index_again : forall l l', map key l = map key l' -> NoDup (map key l') -> fold_left put (l ++ l') [] = fold_left put l' [].
Proof.
  intros l l' E ND. rewrite fold_left_app. rewrite (index_fresh l []); [|rewrite E; exact ND|intros x _ []].
  rewrite (index_fresh l' []); [|exact ND|intros x _ []]. cbn [app].
  apply (index_over l' (map (fun x => (key x, x)) l) []); [rewrite map_map; exact E|exact ND].
Qed.
End Index.

(** ** C73: running initvolumes again *)
Theorem latest_rain : forall {T} (ops : NumOps T) fuel (old new : list (@node T)),
  map n_id old = map n_id new -> NoDup (map n_id new) -> process ops fuel (old ++ new) = process ops fuel new.
Proof.
  intros T ops fuel old new E ND. unfold process. rewrite (index_again n_id old new E ND). reflexivity.
Qed.

(** running pourpts again *)
Definition network_run (times : nat) : res (list (@node_feature Q) * list (@stream_feature Q)) :=
  dout <- dem_process false 20 (gt1 ex_gt) (gt5 ex_gt) rain_dem ;;
  out <- bluespot_process false cc_memo 20 ex_gt (do_depths dout) (do_flowdir dout) (Some all_pass) None (Some rain_dem) ;;
  pps <- exact_pourpoints ex_gt (do_depths dout) out ;;
  stream_process QOps 40 (gt_Q ex_gt) (do_flowdir dout) (bo_labeled out) (concat (repeat pps times)) true.

Theorem pourpts_twice : (exists r, network_run 1 = Ok r) /\ network_run 2 = Exc IndexError.
Proof.
  split; [|vm_compute; reflexivity].
  assert (C : on_ok (fun _ => true) (network_run 1) = true) by (vm_compute; reflexivity).
  apply on_ok_ex in C. destruct C as (r & E & _). exists r. exact E.
Qed.
