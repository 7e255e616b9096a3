(** * Proofs for C105 *)

From Coq Require Import QArith Qabs Lqa Lia.
From Flocq Require Import IEEE754.BinarySingleNaN.
From Verif Require Import Base BaseProofs Num Float64 LabelModel LabelSpec LabelProofs LabelThms VectorModel NetworkSpec NetworkThms RainModel RainThms.
Local Open Scope Z_scope.

Lemma Qsum_lin : forall {A} (f g h : A -> Q) a b l, (forall x, In x l -> h x == a * f x + b * g x)%Q ->
  (Qsum (map h l) == a * Qsum (map f l) + b * Qsum (map g l))%Q.
Proof.
  intros A f g h a b. induction l as [|x l IH]; intros H; cbn [map Qsum]; [ring|].
  rewrite IH by (intros y Hy; apply H; right; auto). rewrite (H x (or_introl eq_refl)). ring.
Qed.

(** The water of three rasters, by a rule that holds for the sums over the cells of a node. *)
Lemma three_volumes : forall t lab (w1 w2 w3 : raster Q) u1 u2 u3 nodes n (R : Q -> Q -> Q -> Prop),
  same_shape lab w1 -> same_shape lab w2 -> same_shape lab w3 ->
  labels_in lab n -> largest_label lab n -> 1 <= nrows lab -> 1 <= ncols lab ->
  (forall nd, In nd nodes -> 0 <= nf_id nd) ->
  (forall cs v1 v2 v3, (forall c, In c cs -> inside (nrows lab) (ncols lab) c) ->
    let k u := match u with U_mm => (Qabs (gt1 t) * Qabs (gt5 t) / 1000)%Q | U_l => (1 # 1000)%Q | U_m3 => 1%Q end in
    (v1 == Qsum (map (at_ w1) cs) * k u1)%Q -> (v2 == Qsum (map (at_ w2) cs) * k u2)%Q -> (v3 == Qsum (map (at_ w3) cs) * k u3)%Q -> R v1 v2 v3) ->
  exists r1 r2 r3, raster_volumes QOps 0%Q 0%Q t lab w1 u1 nodes = Ok r1 /\ raster_volumes QOps 0%Q 0%Q t lab w2 u2 nodes = Ok r2 /\
    raster_volumes QOps 0%Q 0%Q t lab w3 u3 nodes = Ok r3 /\ map fst r1 = nodes /\ map fst r2 = nodes /\ map fst r3 = nodes /\
    forall nd v1 v2 v3, In (nd, v1) r1 -> In (nd, v2) r2 -> In (nd, v3) r3 -> R v1 v2 v3.
Proof.
  intros t lab w1 w2 w3 u1 u2 u3 nodes n R S1 S2 S3 LI LL Hr Hc P RR.
  destruct (raster_volumes_spec t lab w1 u1 nodes n S1 LI LL Hr Hc P) as (r1 & E1 & M1 & V1).
  destruct (raster_volumes_spec t lab w2 u2 nodes n S2 LI LL Hr Hc P) as (r2 & E2 & M2 & V2).
  destruct (raster_volumes_spec t lab w3 u3 nodes n S3 LI LL Hr Hc P) as (r3 & E3 & M3 & V3).
  exists r1, r2, r3. repeat (split; [assumption|]). intros nd v1 v2 v3 H1 H2 H3.
  destruct (V1 nd v1 H1) as (c1 & L1 & X1). destruct (V2 nd v2 H2) as (c2 & L2 & X2). destruct (V3 nd v3 H3) as (c3 & L3 & X3).
  assert (c2 = c1) by (eapply LabelProofs.lists_unique; eauto). assert (c3 = c1) by (eapply LabelProofs.lists_unique; eauto). subst c2 c3.
  eapply (RR c1); eauto. intros c Hin. apply (proj2 L1) in Hin. apply Hin.
Qed.

Theorem rain_adds : forall t lab (w1 w2 w3 : raster Q) u nodes n a b,
  same_shape lab w1 -> same_shape lab w2 -> same_shape lab w3 ->
  labels_in lab n -> largest_label lab n -> 1 <= nrows lab -> 1 <= ncols lab ->
  (forall nd, In nd nodes -> 0 <= nf_id nd) ->
  (forall c, inside (nrows lab) (ncols lab) c -> at_ w3 c == a * at_ w1 c + b * at_ w2 c)%Q ->
  exists r1 r2 r3, raster_volumes QOps 0%Q 0%Q t lab w1 u nodes = Ok r1 /\ raster_volumes QOps 0%Q 0%Q t lab w2 u nodes = Ok r2 /\
    raster_volumes QOps 0%Q 0%Q t lab w3 u nodes = Ok r3 /\ map fst r1 = nodes /\ map fst r2 = nodes /\ map fst r3 = nodes /\
    forall nd v1 v2 v3, In (nd, v1) r1 -> In (nd, v2) r2 -> In (nd, v3) r3 -> (v3 == a * v1 + b * v2)%Q.
Proof.
  intros t lab w1 w2 w3 u nodes n a b S1 S2 S3 LI LL Hr Hc P H.
  apply (three_volumes t lab w1 w2 w3 u u u nodes n (fun v1 v2 v3 => v3 == a * v1 + b * v2)%Q); auto.
  intros cs v1 v2 v3 In1 k X1 X2 X3. rewrite X1, X2, X3.
  rewrite (Qsum_lin (at_ w1) (at_ w2) (at_ w3) a b cs) by (intros; apply H; auto). ring.
Qed.

Theorem more_raster_rain : forall t lab (w1 w2 : raster Q) u nodes n,
  same_shape lab w1 -> same_shape lab w2 ->
  labels_in lab n -> largest_label lab n -> 1 <= nrows lab -> 1 <= ncols lab ->
  (forall nd, In nd nodes -> 0 <= nf_id nd) ->
  (forall c, inside (nrows lab) (ncols lab) c -> at_ w1 c <= at_ w2 c)%Q ->
  exists r1 r2, raster_volumes QOps 0%Q 0%Q t lab w1 u nodes = Ok r1 /\ raster_volumes QOps 0%Q 0%Q t lab w2 u nodes = Ok r2 /\
    map fst r1 = nodes /\ map fst r2 = nodes /\
    forall nd v1 v2, In (nd, v1) r1 -> In (nd, v2) r2 -> (v1 <= v2)%Q.
Proof.
  intros t lab w1 w2 u nodes n S1 S2 LI LL Hr Hc P H.
  destruct (three_volumes t lab w1 w2 w2 u u u nodes n (fun v1 v2 _ => v1 <= v2)%Q) as (r1 & r2 & r3 & E1 & E2 & E3 & M1 & M2 & M3 & V); auto.
  - intros cs v1 v2 v3 In1 k X1 X2 _. rewrite X1, X2. apply Qmult_le_compat_r.
    + apply Qsum_le. auto.
    + unfold k. destruct u; try discriminate. apply Qmult_le_0_compat; [apply Qmult_le_0_compat; apply Qabs_nonneg|discriminate].
  - exists r1, r2. repeat (split; [assumption|]). intros nd v1 v2 H1 H2. rewrite E2 in E3. injection E3 as <-. eapply V; eauto.
Qed.

Theorem units_convert : forall t lab (mm l m3 : raster Q) nodes n,
  same_shape lab mm -> same_shape lab l -> same_shape lab m3 ->
  labels_in lab n -> largest_label lab n -> 1 <= nrows lab -> 1 <= ncols lab ->
  (forall nd, In nd nodes -> 0 <= nf_id nd) ->
  (forall c, inside (nrows lab) (ncols lab) c -> at_ l c == at_ mm c * (Qabs (gt1 t) * Qabs (gt5 t)))%Q ->
  (forall c, inside (nrows lab) (ncols lab) c -> at_ m3 c == at_ l c / 1000)%Q ->
  exists r1 r2 r3, raster_volumes QOps 0%Q 0%Q t lab mm U_mm nodes = Ok r1 /\ raster_volumes QOps 0%Q 0%Q t lab l U_l nodes = Ok r2 /\
    raster_volumes QOps 0%Q 0%Q t lab m3 U_m3 nodes = Ok r3 /\ map fst r1 = nodes /\ map fst r2 = nodes /\ map fst r3 = nodes /\
    forall nd v1 v2 v3, In (nd, v1) r1 -> In (nd, v2) r2 -> In (nd, v3) r3 -> (v1 == v2)%Q /\ (v2 == v3)%Q.
Proof.
  intros t lab mm l m3 nodes n S1 S2 S3 LI LL Hr Hc P HL HM.
  apply (three_volumes t lab mm l m3 U_mm U_l U_m3 nodes n (fun v1 v2 v3 => (v1 == v2)%Q /\ (v2 == v3)%Q)); auto.
  intros cs v1 v2 v3 In1 k X1 X2 X3. rewrite X1, X2, X3. unfold k.
  rewrite (Qsum_lin (at_ mm) (at_ mm) (at_ l) (Qabs (gt1 t) * Qabs (gt5 t)) 0 cs) by (intros c Hin; rewrite (HL c (In1 c Hin)); ring).
  rewrite (Qsum_lin (at_ mm) (at_ mm) (at_ m3) (Qabs (gt1 t) * Qabs (gt5 t) / 1000) 0 cs)
    by (intros c Hin; rewrite (HM c (In1 c Hin)), (HL c (In1 c Hin)); unfold Qdiv; ring).
  split; [field|field].
Qed.

(** ** In binary64 *)
Definition add_lab : raster Z := of_rows 0 [[1; 1; 1]].
Definition add_w1 : raster b64 := of_rows f64_zero [[f64_ofZ (2 ^ 53); f64_zero; f64_zero]].
Definition add_w2 : raster b64 := of_rows f64_zero [[f64_zero; f64_ofZ 1; f64_ofZ 1]].
Definition add_w3 : raster b64 := of_rows f64_zero [[f64_ofZ (2 ^ 53); f64_ofZ 1; f64_ofZ 1]].
Definition add_gt : geotransform b64 := mkGT f64_zero (f64_ofZ 1) f64_zero f64_zero f64_zero (f64_ofZ (-1)).
Definition add_node : @node_feature b64 := mkNF 1 None false 0 0 (Some 1) f64_zero f64_zero f64_zero (f64_zero, f64_zero).

Theorem rounded_rain : exists t lab (w1 w2 w3 : raster b64) nd r1 r2 r3 v1 v2 v3,
  same_shape lab w1 /\ same_shape lab w2 /\ same_shape lab w3 /\
  (forall c, inside (nrows lab) (ncols lab) c -> at_ w3 c = f64_add (at_ w1 c) (at_ w2 c)) /\
  raster_volumes F64Ops f64_inf f64_ninf t lab w1 U_m3 [nd] = Ok r1 /\ map snd r1 = [v1] /\
  raster_volumes F64Ops f64_inf f64_ninf t lab w2 U_m3 [nd] = Ok r2 /\ map snd r2 = [v2] /\
  raster_volumes F64Ops f64_inf f64_ninf t lab w3 U_m3 [nd] = Ok r3 /\ map snd r3 = [v3] /\
  lt64 v3 (f64_add v1 v2).
Proof.
  assert (C : match raster_volumes F64Ops f64_inf f64_ninf add_gt add_lab add_w1 U_m3 [add_node],
                    raster_volumes F64Ops f64_inf f64_ninf add_gt add_lab add_w2 U_m3 [add_node],
                    raster_volumes F64Ops f64_inf f64_ninf add_gt add_lab add_w3 U_m3 [add_node] with
              | Ok [(_, v1)], Ok [(_, v2)], Ok [(_, v3)] => Bltb v3 (f64_add v1 v2) | _, _, _ => false end = true) by (vm_compute; reflexivity).
  exists add_gt, add_lab, add_w1, add_w2, add_w3, add_node.
  destruct (raster_volumes F64Ops f64_inf f64_ninf add_gt add_lab add_w1 U_m3 [add_node]) as [[|(n1 & v1) [|]]| |]; try discriminate C.
  destruct (raster_volumes F64Ops f64_inf f64_ninf add_gt add_lab add_w2 U_m3 [add_node]) as [[|(n2 & v2) [|]]| |]; try discriminate C.
  destruct (raster_volumes F64Ops f64_inf f64_ninf add_gt add_lab add_w3 U_m3 [add_node]) as [[|(n3 & v3) [|]]| |]; try discriminate C.
  exists [(n1, v1)], [(n2, v2)], [(n3, v3)], v1, v2, v3.
  split; [split; reflexivity|]. split; [split; reflexivity|]. split; [split; reflexivity|]. split.
  { intros [i j] [Hi Hj]. cbn in Hi, Hj. unfold at_. cbn [fst snd].
    assert (i = 0) by lia. subst i. assert (J : j = 0 \/ j = 1 \/ j = 2) by lia.
    destruct J as [->|[->| ->]]; apply B2SF_inj; vm_compute; reflexivity. }
  split; [reflexivity|]. split; [reflexivity|]. split; [reflexivity|]. split; [reflexivity|]. split; [reflexivity|]. split; [reflexivity|]. exact C.
Qed.
