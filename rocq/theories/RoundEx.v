(** * Example data for the accuracy theorems *)

From Coq Require Import QArith Qabs.
From Flocq Require Import IEEE754.BinarySingleNaN.
From Verif Require Import Base BaseProofs Num Float64 FillSpec FlowSpec FlowThms FillThms LabelSpec LabelProofs CompSpec CompProofs VectorModel
  BluespotModel BluespotSpec BluespotThms PipelineModel NetworkModel NetworkSpec NetworkThms NetworkFloatSpec NetworkFloatThms RoundSpec.
Local Open Scope Z_scope.

(** Cells of 0.7 m; a bluespot of two cells, 0.1 and 0.3 m deep. *)
Definition acc_gt : geotransform b64 := mkGT f64_zero (tenth 7) f64_zero f64_zero f64_zero (tenth (-7)).
Definition acc_depths : raster b64 :=
  of_rows f64_zero (map (map (fun z => store32 (tenth z))) [[0;0;0;0];[0;1;3;0];[0;0;0;0]]).
Definition acc_flow : raster Z := of_rows 0 [[7;0;0;1];[6;0;0;2];[5;4;4;3]].
Definition acc_accum : raster b64 := zrows [[1;2;2;1];[1;1;1;1];[1;1;1;1]].
Definition acc_run : res bluespot_out :=
  bluespot_process false cc_memo 12 acc_gt acc_depths acc_flow (Some (fun _ => true)) (Some acc_accum) None.

Definition finite_pp (p : @pourpoint b64) : bool :=
  is_finite (pp_area p) && is_finite (pp_wshed p) && is_finite (pp_vol p) && is_finite (pp_fumm p).

Definition acc_check (o : bluespot_out) : bool :=
  (bo_nlabels o =? 1) && forallb finite_pp (bo_pourpoints o) &&
  match bo_pourpoints o with [_; p] => (pp_id p =? 1) && 
    negb (Qeq_bool (b64_Q (pp_vol p))
      (Qsum (map (fun c => b64_Q (at_ acc_depths c)) (lcells (bo_labeled o) 1)) * area_Q (gt1 acc_gt) (gt5 acc_gt))) | _ => false end.

Definition ordinary_b (x : b64) : bool := is_finite x && Qle_bool (1 # 2 ^ 300) (Qabs (b64_Q x)).
Lemma ordinary_ok : forall x, ordinary_b x = true -> ordinary x.
Proof. intros x H. apply andb_prop in H. destruct H as [H1 H2]. split; [exact H1|]. apply Qle_bool_iff. exact H2. Qed.

Lemma acc_gt_ok : ordinary (gt1 acc_gt) /\ ordinary (gt5 acc_gt).
Proof. split; apply ordinary_ok; vm_compute; reflexivity. Qed.

Lemma acc_depths_ok : forall c, inside (nrows acc_depths) (ncols acc_depths) c ->
  is_f32 (at_ acc_depths c) /\ le64 f64_zero (at_ acc_depths c).
Proof.
  intros c Hc. destruct (dem_ok acc_depths) as [D _]; [vm_compute; reflexivity|]. split; [apply D; exact Hc|].
  assert (X : forallb (fun c => Bleb f64_zero (at_ acc_depths c)) (rcells acc_depths) = true) by (vm_compute; reflexivity).
  rewrite forallb_forall in X. apply X. apply in_cells_of. exact Hc.
Qed.

(** The network [tenths] with the exact decimal fractions. *)
Definition tenths_Q : list (@node Q) :=
  [mkNode 1 None (1 # 10) 0%Q; mkNode 2 (Some 1) (1 # 10) (1 # 20); mkNode 3 (Some 1) (1 # 5) (1 # 20)].

Lemma acc_inexact : exists out p cs, acc_run = Ok out /\ In p (bo_pourpoints out) /\ finite64 (pp_vol p) /\
  lists_cells (has_label (bo_labeled out) (pp_id p)) cs /\
  ~ (b64_Q (pp_vol p) == Qsum (map (fun c => b64_Q (at_ acc_depths c)) cs) * area_Q (gt1 acc_gt) (gt5 acc_gt))%Q.
Proof.
  assert (C : on_ok acc_check acc_run = true) by (vm_compute; reflexivity).
  apply on_ok_ex in C. destruct C as (o & E & C). unfold acc_check in C. apply andb_prop in C. destruct C as [C C2].
  apply andb_prop in C. destruct C as [_ C]. rewrite forallb_forall in C.
  destruct (bo_pourpoints o) as [|p0 [|p [|]]] eqn:EP; try discriminate C2.
  apply andb_prop in C2. destruct C2 as [C1 C2]. apply Z.eqb_eq in C1.
  exists o, p, (lcells (bo_labeled o) 1). split; [exact E|]. split; [rewrite EP; right; left; auto|].
  assert (F : finite_pp p = true) by (apply C; right; left; auto).
  unfold finite_pp in F. apply andb_prop in F. destruct F as [F _]. apply andb_prop in F. destruct F as [_ F].
  split; [exact F|]. split; [rewrite C1; apply lcells_spec|]. intros X. apply Qeq_bool_iff in X. rewrite X in C2. discriminate C2.
Qed.

(** Some value written for some node differs from the exact one. *)
Definition differs (x : both) : bool := negb (Qeq_bool (written e_vol (fst x)) (out_vol (snd x))).
