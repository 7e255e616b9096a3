(** * Relative errors of binary64 operations *)

From Coq Require Import QArith Qabs Qreals Reals Lra Lia.
From Flocq Require Import Core IEEE754.BinarySingleNaN Relative Plus_error.
From Verif Require Import Base BaseProofs Num Float64 Float64Proofs Float64Arith FillModel FillProofs FillSpec PipelineModel
  FloatQ NetworkModel NetworkSpec NetworkFloatThms RoundSpec.
Local Open Scope R_scope.

Definition near (k : nat) (x y : R) : Prop := 0 <= y /\ (1 - u53) ^ k * y <= x <= (1 + u53) ^ k * y.

Lemma lo_pos : 0 < 1 - u53 <= 1. Proof. pose proof u53_pos. lra. Qed.
Lemma hi_pos : 1 <= 1 + u53. Proof. pose proof u53_pos. lra. Qed.
Lemma pow_lo : forall k, 0 < (1 - u53) ^ k <= 1.
Proof.
  intros k. pose proof lo_pos. split; [apply pow_lt; lra|].
  assert (H0 : (1 - u53) ^ k <= 1 ^ k) by (apply pow_incr; lra). rewrite pow1 in H0. exact H0.
Qed.
Lemma pow_hi : forall k, 1 <= (1 + u53) ^ k.
Proof.
  intros k. pose proof hi_pos. assert (H0 : 1 ^ k <= (1 + u53) ^ k) by (apply pow_incr; lra). rewrite pow1 in H0. exact H0.
Qed.

Lemma near_refl : forall x, 0 <= x -> near 0 x x.
Proof. intros x H. split; [exact H|]. cbn. lra. Qed.

Lemma near_nonneg : forall k x y, near k x y -> 0 <= x.
Proof. intros k x y (Y & L & _). pose proof (pow_lo k). eapply Rle_trans; [|exact L]. apply Rmult_le_pos; lra. Qed.

Lemma near_zero : forall k, near k 0 0.
Proof. intros k. split; [lra|]. rewrite !Rmult_0_r. lra. Qed.

Lemma near_more : forall k m x y, (k <= m)%nat -> near k x y -> near m x y.
Proof.
  intros k m x y L (Y & A & B). split; [exact Y|]. replace m with (k + (m - k))%nat by lia. rewrite !pow_add.
  pose proof (pow_lo k). pose proof (pow_lo (m - k)). pose proof (pow_hi k). pose proof (pow_hi (m - k)).
  set (p := (1 - u53) ^ k) in *. set (q := (1 - u53) ^ (m - k)) in *. set (p' := (1 + u53) ^ k) in *. set (q' := (1 + u53) ^ (m - k)) in *.
  split.
  - eapply Rle_trans; [|exact A]. rewrite (Rmult_comm p q), Rmult_assoc. rewrite <- (Rmult_1_l (p * y)) at 2.
    apply Rmult_le_compat_r; [apply Rmult_le_pos; lra|lra].
  - eapply Rle_trans; [exact B|]. rewrite (Rmult_comm p' q'), Rmult_assoc. rewrite <- (Rmult_1_l (p' * y)) at 1.
    apply Rmult_le_compat_r; [apply Rmult_le_pos; lra|lra].
Qed.

Lemma near_round : forall k x y e, Rabs e <= u53 -> near k x y -> near (S k) (x * (1 + e)) y.
Proof.
  intros k x y e E N. pose proof (near_nonneg _ _ _ N) as X. destruct N as (Y & A & B). split; [exact Y|]. cbn [pow].
  apply Rabs_le_inv in E. pose proof lo_pos. pose proof hi_pos. split.
  - rewrite Rmult_assoc, (Rmult_comm x). apply Rle_trans with ((1 - u53) * x).
    + apply Rmult_le_compat_l; lra.
    + apply Rmult_le_compat_r; lra.
  - rewrite Rmult_assoc, (Rmult_comm x). apply Rle_trans with ((1 + u53) * x).
    + apply Rmult_le_compat_r; lra.
    + apply Rmult_le_compat_l; lra.
Qed.

Lemma near_mult : forall k m x y a b, near k x y -> near m a b -> near (k + m) (x * a) (y * b).
Proof.
  intros k m x y a b N M. pose proof (near_nonneg _ _ _ N) as X. pose proof (near_nonneg _ _ _ M) as A.
  destruct N as (Y & N1 & N2), M as (B & M1 & M2). split; [apply Rmult_le_pos; auto|]. rewrite !pow_add.
  pose proof (pow_lo k). pose proof (pow_lo m). pose proof (pow_hi k). pose proof (pow_hi m).
  split.
  - replace ((1 - u53) ^ k * (1 - u53) ^ m * (y * b)) with (((1 - u53) ^ k * y) * ((1 - u53) ^ m * b)) by ring.
    apply Rmult_le_compat; auto; apply Rmult_le_pos; lra.
  - replace ((1 + u53) ^ k * (1 + u53) ^ m * (y * b)) with (((1 + u53) ^ k * y) * ((1 + u53) ^ m * b)) by ring.
    apply Rmult_le_compat; auto.
Qed.

(** Adding an exact number. *)
Lemma near_plus : forall k x y a b, near k x y -> near k a b -> near k (x + a) (y + b).
Proof. intros k x y a b (Y & N1 & N2) (B & M1 & M2). split; [lra|]. rewrite !Rmult_plus_distr_l. lra. Qed.

Lemma inv_lo : / (1 - u53) <= (1 + u53) ^ 2.
Proof.
  pose proof u53_pos as U. assert (u53 <= / 2). { unfold u53. change (/ 2) with (bpow radix2 (-1)). apply bpow_le. lia. }
  apply Rmult_le_reg_l with (1 - u53); [lra|]. rewrite Rinv_r by lra. cbn [pow]. rewrite Rmult_1_r.
  replace ((1 - u53) * ((1 + u53) * (1 + u53))) with (1 + u53 * (1 - u53 - u53 * u53)) by ring.
  assert (u53 * u53 <= / 2 * / 2) by (apply Rmult_le_compat; lra).
  assert (0 <= u53 * (1 - u53 - u53 * u53)) by (apply Rmult_le_pos; lra). lra.
Qed.

Lemma near_inv : forall k x y, 0 < y -> near k x y -> near (2 * k) (/ x) (/ y).
Proof.
  intros k x y P (Y & A & B). pose proof (pow_lo k) as L. pose proof (pow_hi k) as H.
  assert (X : 0 < x) by (eapply Rlt_le_trans; [|exact A]; apply Rmult_lt_0_compat; lra).
  pose proof (Rinv_0_lt_compat y P). split; [lra|]. split.
  - apply Rle_trans with (/ ((1 + u53) ^ k * y)); [|apply Rinv_le; auto].
    rewrite Rinv_mult. apply Rmult_le_compat_r; [lra|].
    apply Rle_trans with ((1 - u53) ^ k).
    + replace (2 * k)%nat with (k + k)%nat by lia. rewrite pow_add. rewrite <- (Rmult_1_r ((1 - u53) ^ k)) at 3.
      apply Rmult_le_compat_l; lra.
    + apply Rmult_le_reg_l with ((1 + u53) ^ k); [lra|]. rewrite Rinv_r by lra. rewrite <- Rpow_mult_distr.
      assert (H9 : ((1 + u53) * (1 - u53)) ^ k <= 1 ^ k); [|rewrite pow1 in H9; exact H9]. apply pow_incr.
      pose proof u53_pos. split; [apply Rmult_le_pos; lra|]. replace ((1 + u53) * (1 - u53)) with (1 - u53 * u53) by ring.
      assert (0 <= u53 * u53) by (apply Rmult_le_pos; lra). lra.
  - apply Rle_trans with (/ ((1 - u53) ^ k * y)); [apply Rinv_le; auto; apply Rmult_lt_0_compat; lra|].
    rewrite Rinv_mult. apply Rmult_le_compat_r; [lra|]. rewrite <- pow_inv.
    rewrite pow_mult. apply pow_incr. pose proof lo_pos. split; [left; apply Rinv_0_lt_compat; lra|apply inv_lo].
Qed.

(** ** The operations *)

Lemma u_ro53 : u_ro radix2 53 = u53.
Proof. unfold u_ro, u53. change (/ 2) with (bpow radix2 (-1)). rewrite <- bpow_plus. reflexivity. Qed.

Lemma add_rel : forall x y : b64, is_finite x = true -> is_finite y = true -> is_finite (f64_add x y) = true ->
  exists e, Rabs e <= u53 /\ B2R (f64_add x y) = (B2R x + B2R y) * (1 + e).
Proof.
  intros x y Hx Hy Hf.
  assert (E : B2R (f64_add x y) = rnd64 (B2R x + B2R y)).
  { destruct (add_cases x y Hx Hy) as [[_ H]|[[H _]|[H _]]]; auto; rewrite H in Hf; discriminate. }
  destruct (FLT_plus_error_N_ex radix2 (-1074) 53 (fun x => negb (Z.even x)) (B2R x) (B2R y)) as (e & He & H).
  - apply (generic_format_B2R 53 1024 x).
  - apply (generic_format_B2R 53 1024 y).
  - exists e. split; [|rewrite E; exact H]. rewrite u_ro53 in He. pose proof u53_pos.
    eapply Rle_trans; [exact He|]. apply Rmult_le_reg_r with (1 + u53); [lra|].
    unfold Rdiv. rewrite Rmult_assoc, Rinv_l by lra. assert (0 <= u53 * u53) by (apply Rmult_le_pos; lra). lra.
Qed.

Lemma rnd_rel : forall x, (x = 0 \/ bpow radix2 (-1022) <= Rabs x) -> exists e, Rabs e <= u53 /\ rnd64 x = x * (1 + e).
Proof.
  intros x [-> |H].
  - exists 0. rewrite Rabs_R0. pose proof u53_pos. split; [lra|]. rewrite rnd64_0. ring.
  - destruct (relative_error_N_FLT_ex radix2 (-1074) 53 ltac:(reflexivity) (fun x => negb (Z.even x)) x H) as (e & He & Hr).
    exists e. split; [|exact Hr]. eapply Rle_trans; [exact He|]. change (/ 2) with (bpow radix2 (-1)). rewrite <- bpow_plus. apply Rle_refl.
Qed.

Lemma mul_rnd : forall x y : b64, is_finite (f64_mul x y) = true ->
  is_finite x = true /\ is_finite y = true /\ B2R (f64_mul x y) = rnd64 (B2R x * B2R y).
Proof.
  intros x y H.
  assert (F : is_finite x = true /\ is_finite y = true) by (destruct x, y; try discriminate H; auto).
  split; [apply F|]. split; [apply F|]. pose proof (Bmult_correct 53 1024 _ _ mode_NE x y) as M. fold (f64_mul x y) in M.
  destruct (Rlt_bool _ _); [apply M|]. destruct (f64_mul x y); discriminate.
Qed.

Lemma mul_near : forall k m (x y : b64) a b, is_finite (f64_mul x y) = true ->
  near k (B2R x) a -> near m (B2R y) b -> B2R x * B2R y = 0 \/ bpow radix2 (-1022) <= B2R x * B2R y ->
  near (S (k + m)) (B2R (f64_mul x y)) (a * b).
Proof.
  intros k m x y a b H A B U. destruct (mul_rnd x y H) as (_ & _ & ->).
  destruct (rnd_rel (B2R x * B2R y)) as (e & He & ->).
  { destruct U as [U|U]; [left; exact U|right]. eapply Rle_trans; [exact U|apply Rle_abs]. }
  apply near_round; auto. apply near_mult; auto.
Qed.

Lemma div_rnd : forall x y : b64, is_finite (f64_div x y) = true -> is_finite y = true ->
  is_finite x = true /\ B2R y <> 0 /\ B2R (f64_div x y) = rnd64 (B2R x / B2R y).
Proof.
  intros x y H Fy.
  assert (Fx : is_finite x = true) by (destruct x, y; try discriminate H; auto).
  assert (Y : B2R y <> 0).
  { destruct y as [s|s| |s m e B]; try discriminate Fy.
    - destruct x; discriminate H.
    - cbn. apply F2R_neq_0. cbn. destruct s; discriminate. }
  split; [exact Fx|]. split; [exact Y|].
  pose proof (Bdiv_correct 53 1024 _ _ mode_NE x y Y) as M. fold (f64_div x y) in M.
  destruct (Rlt_bool _ _); [apply M|]. destruct (f64_div x y); discriminate.
Qed.

Lemma div_near : forall k m (x y : b64) a b, is_finite (f64_div x y) = true -> is_finite y = true ->
  near k (B2R x) a -> near m (B2R y) b -> B2R x = 0 \/ bpow radix2 (-1022) <= B2R x / B2R y ->
  near (S (k + 2 * m)) (B2R (f64_div x y)) (a / b).
Proof.
  intros k m x y a b H Fy A B U. destruct (div_rnd x y H Fy) as (_ & Y & ->).
  assert (b <> 0). { intros ->. destruct B as (_ & B1 & B2). rewrite Rmult_0_r in B1, B2. lra. }
  assert (0 < b) by (destruct B; lra).
  destruct (rnd_rel (B2R x / B2R y)) as (e & He & ->).
  { destruct U as [U|U]; [left; rewrite U; unfold Rdiv; ring|right]. eapply Rle_trans; [exact U|apply Rle_abs]. }
  apply near_round; auto. unfold Rdiv. apply near_mult; auto. apply near_inv; auto.
Qed.

(** ** Sums *)

Lemma sum_near : forall l k (a : b64) A, pos64 a -> (forall x, In x l -> pos64 x) -> is_finite (fold_left f64_add l a) = true ->
  near k (B2R a) A -> near (k + length l) (B2R (fold_left f64_add l a)) (A + Rsum (map B2R l)).
Proof.
  induction l as [|x l IH]; intros k a A Pa Pl F N; cbn [fold_left map Rsum length] in *.
  - rewrite Rplus_0_r, Nat.add_0_r. exact N.
  - assert (Px : pos64 x) by (apply Pl; left; auto).
    assert (Pax : pos64 (f64_add a x)) by (destruct Pa, Px; apply add_nonneg; auto).
    destruct (fold_err l _ Pax (fun y Hy => Pl y (or_intror Hy)) F) as (F1 & _).
    destruct (add_fin a x Pa Px F1) as (G1 & G2 & _).
    destruct (add_rel a x G1 G2 F1) as (e & He & Ea).
    replace (k + S (length l))%nat with (S k + length l)%nat by lia. rewrite <- Rplus_assoc. apply IH; auto; [intros y Hy; apply Pl; right; exact Hy|].
    rewrite Ea. apply near_round; auto. apply near_plus; auto.
    apply near_more with 0%nat; [lia|]. apply near_refl. apply pos64_R; auto. apply Px.
Qed.

Lemma total_near : forall l, (forall x, In x l -> pos64 x) -> is_finite (fold_left f64_add l f64_zero) = true ->
  near (length l - 1) (B2R (fold_left f64_add l f64_zero)) (Rsum (map B2R l)).
Proof.
  intros [|x l] Pl F; cbn [fold_left map Rsum length] in *; [apply near_zero|].
  assert (Px : pos64 x) by (apply Pl; left; auto).
  assert (P0 : pos64 f64_zero) by (split; [reflexivity | cbn; lia]).
  assert (Pax : pos64 (f64_add f64_zero x)) by (destruct P0, Px; apply add_nonneg; auto).
  destruct (fold_err l _ Pax (fun y Hy => Pl y (or_intror Hy)) F) as (F1 & _).
  destruct (add_fin _ x P0 Px F1) as (_ & G2 & _).
  replace (S (length l) - 1)%nat with (0 + length l)%nat by lia. apply sum_near; auto; [intros y Hy; apply Pl; right; exact Hy|].
  rewrite add_zero_l by auto. apply near_refl. apply pos64_R; auto. apply Px.
Qed.

(** ** Back to rationals *)

Lemma Q2R_u : Q2R (1 # 2 ^ 53) = u53.
Proof. unfold Q2R, u53. cbn [Qnum Qden]. change (-53)%Z with (- (53))%Z. rewrite bpow_opp, <- (IZR_Zpower radix2) by lia.
  change (radix2 ^ 53)%Z with (Z.pos (2 ^ 53)). lra. Qed.

Lemma Q2R_pow : forall q k, Q2R (q ^ Z.of_nat k) = (Q2R q) ^ k.
Proof.
  induction k as [|k IH]; [cbn; unfold Q2R; cbn; lra|].
  rewrite Nat2Z.inj_succ. unfold Z.succ. rewrite Z.add_comm.
  rewrite (Qeq_eqR _ (q ^ 1 * q ^ Z.of_nat k)%Q).
  - rewrite Q2R_mult, IH. cbn [pow]. f_equal.
  - destruct k; [cbn; ring|]. apply Qpower.Qpower_plus'; lia.
Qed.

Lemma near_within : forall k x y, near (Z.to_nat k) (Q2R x) (Q2R y) -> (0 <= k)%Z -> within k x y.
Proof.
  intros k x y (Y & A & B) K. unfold within. rewrite <- (Z2Nat.id k K). split; apply Rle_Qle; rewrite Q2R_mult, Q2R_pow.
  - rewrite Q2R_minus, Q2R_u. change (Q2R 1) with (1 * / 1). rewrite Rinv_1, Rmult_1_r. exact A.
  - rewrite Q2R_plus, Q2R_u. change (Q2R 1) with (1 * / 1). rewrite Rinv_1, Rmult_1_r. exact B.
Qed.
