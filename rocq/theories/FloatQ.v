(** * The exact value of a float as a rational number *)

From Coq Require Import QArith Qreals Reals Lra.
From Flocq Require Import Core IEEE754.BinarySingleNaN.
From Verif Require Import Base Num Float64 FillModel PipelineModel CompleteModel.
Local Open Scope Z_scope.

Lemma b64_Q_R : forall x, Q2R (b64_Q x) = B2R x.
Proof.
  intros [s|s| |s m e B]; cbn [b64_Q B2R]; try (unfold Q2R; cbn [Qnum Qden]; lra).
  unfold F2R. cbn [Fnum Fexp]. replace (cond_Zopp s (Z.pos m)) with (if s then Z.neg m else Z.pos m) by (destruct s; reflexivity).
  set (z := if s then Z.neg m else Z.pos m). destruct (Z.leb_spec 0 e) as [H|H].
  - unfold Q2R, inject_Z. cbn [Qnum Qden]. rewrite mult_IZR, <- (IZR_Zpower radix2) by auto. cbn. lra.
  - unfold Q2R. cbn [Qnum Qden]. rewrite Z2Pos.id by (apply Z.pow_pos_nonneg; lia).
    replace (bpow radix2 e) with (/ bpow radix2 (- e))%R by (rewrite <- bpow_opp; f_equal; lia).
    rewrite <- (IZR_Zpower radix2) by lia. reflexivity.
Qed.

Lemma b64_Q_le : forall x y, finite64 x -> finite64 y -> (le64 x y <-> (b64_Q x <= b64_Q y)%Q).
Proof.
  intros x y Hx Hy. unfold le64. rewrite Bleb_correct by auto. rewrite <- !b64_Q_R. split; intros H.
  - apply Rle_Qle. destruct (Rle_bool_spec (Q2R (b64_Q x)) (Q2R (b64_Q y))); auto. discriminate.
  - apply Qle_Rle in H. apply Rle_bool_true; auto.
Qed.

Lemma b64_Q_lt : forall x y, finite64 x -> finite64 y -> (lt64 x y <-> (b64_Q x < b64_Q y)%Q).
Proof.
  intros x y Hx Hy. unfold lt64. rewrite Bltb_correct by auto. rewrite <- !b64_Q_R. split; intros H.
  - apply Rlt_Qlt. destruct (Rlt_bool_spec (Q2R (b64_Q x)) (Q2R (b64_Q y))); auto. discriminate.
  - apply Qlt_Rlt in H. apply Rlt_bool_true; auto.
Qed.

Lemma b64_Q_eq : forall x y, finite64 x -> finite64 y -> (eq64 x y <-> (b64_Q x == b64_Q y)%Q).
Proof.
  intros x y Hx Hy. unfold eq64. rewrite Beqb_correct by auto. rewrite <- !b64_Q_R. split; intros H.
  - apply eqR_Qeq. destruct (Req_bool_spec (Q2R (b64_Q x)) (Q2R (b64_Q y))); auto. discriminate.
  - apply Qeq_eqR in H. apply Req_bool_true; auto.
Qed.

Lemma q_inf_R : Q2R q_inf = bpow radix2 1024.
Proof. unfold q_inf, Q2R, inject_Z. cbn [Qnum Qden]. rewrite <- (IZR_Zpower radix2) by lia. change (radix2 : Z) with 2. lra. Qed.

Lemma b64_Q_bound : forall x, (- q_inf < b64_Q x < q_inf)%Q.
Proof.
  intros x. pose proof (abs_B2R_lt_emax 53 1024 x) as H. rewrite <- b64_Q_R in H. apply Rabs_def2 in H.
  rewrite <- q_inf_R in H. destruct H as [H1 H2]. split; apply Rlt_Qlt; auto. rewrite Q2R_opp. lra.
Qed.
