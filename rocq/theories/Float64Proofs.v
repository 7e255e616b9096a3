(** * Order and rounding facts about binary64 *)

From Coq Require Import ZArith Bool Reals Lia Lra Psatz.
From Flocq Require Import Core.Core IEEE754.BinarySingleNaN.
From Verif Require Import Base Num Float64.

Notation fexp64 := (SpecFloat.fexp 53 1024).
Notation rnd64 := (round radix2 fexp64 (round_mode mode_NE)).
Notation fmt64 := (generic_format radix2 fexp64).

#[global] Instance valid_fexp64 : Valid_exp fexp64 := fexp_correct 53 1024 _.

Definition RINF : Z := Z.pow 2 2100.

(** Position of a binary64 value in the order of floats. *)
Definition rank (x : b64) : Z :=
  match x with
  | B754_zero _ => 0
  | B754_infinity s => if s then - RINF else RINF
  | B754_nan => 0
  | B754_finite s m e _ => cond_Zopp s (Zpos m) * 2 ^ (e + 1074)
  end.

Lemma RINF_val : RINF = Z.pow 2 2100. Proof. reflexivity. Qed.
Lemma RINF_pos : 0 < RINF. Proof. apply Z.pow_pos_nonneg; lia. Qed.
Opaque RINF.

Lemma bounded_facts : forall m e, SpecFloat.bounded 53 1024 m e = true ->
  Zpos m < 2 ^ 53 /\ -1074 <= e <= 971.
Proof.
  intros m e H. unfold SpecFloat.bounded in H. apply andb_true_iff in H. destruct H as [H1 H2].
  unfold SpecFloat.canonical_mantissa in H1. apply Zeq_bool_eq in H1.
  apply Zle_bool_imp_le in H2.
  unfold SpecFloat.fexp, SpecFloat.emin in H1.
  rewrite Digits.Zpos_digits2_pos in H1.
  assert (Hd : Digits.Zdigits radix2 (Zpos m) <= 53) by lia.
  split; [|lia].
  destruct (Digits.Zdigits_correct radix2 (Zpos m)) as [_ Hlt].
  rewrite Z.abs_eq in Hlt by lia.
  eapply Z.lt_le_trans; [exact Hlt|]. apply Z.pow_le_mono_r; [reflexivity | lia].
Qed.

Lemma rank_finite_bound : forall x, is_finite x = true -> - RINF < rank x < RINF.
Proof.
  intros [s|s| |s m e H] Hf; cbn [is_finite] in Hf; try discriminate.
  - cbn. pose proof RINF_pos. lia.
  - destruct (bounded_facts m e H) as [Hm He]. cbn [rank].
    assert (Hp : 0 < 2 ^ (e + 1074)) by (apply Z.pow_pos_nonneg; lia).
    assert (Hp2 : 2 ^ (e + 1074) <= 2 ^ 2045) by (apply Z.pow_le_mono_r; lia).
    assert (HR : RINF = 2 ^ 53 * 2 ^ 2045 * 2 ^ 2).
    { rewrite RINF_val, <- !Z.pow_add_r by lia. f_equal. }
    assert (Zpos m * 2 ^ (e + 1074) < RINF).
    { rewrite HR. assert (0 < 2^53) by lia. assert (0 < 2 ^ 2045) by (apply Z.pow_pos_nonneg; lia).
      apply Z.le_lt_trans with (Zpos m * 2 ^ 2045); [nia|].
      generalize dependent (2 ^ 2045). intros. nia. }
    assert (0 <= Zpos m * 2 ^ (e + 1074)) by nia.
    destruct s; cbn [cond_Zopp]; nia.
Qed.

Lemma B2R_rank : forall x, is_finite x = true -> B2R x = (IZR (rank x) * bpow radix2 (-1074))%R.
Proof.
  intros [s|s| |s m e H] Hf; cbn [is_finite] in Hf; try discriminate.
  - cbn [B2R rank]. ring.
  - destruct (bounded_facts m e H) as [_ He]. cbn [B2R rank]. unfold F2R. cbn [Fnum Fexp].
    rewrite mult_IZR, Rmult_assoc. f_equal.
    change 2 with (radix_val radix2). rewrite IZR_Zpower by lia. rewrite <- bpow_plus. f_equal. lia.
Qed.

Lemma bpowm_pos : (0 < bpow radix2 (-1074))%R.
Proof. apply bpow_gt_0. Qed.

Lemma rank_lt_R : forall x y, is_finite x = true -> is_finite y = true ->
  (rank x < rank y <-> (B2R x < B2R y)%R).
Proof.
  intros x y Hx Hy. rewrite !B2R_rank by auto. pose proof bpowm_pos. split; intros H1.
  - apply Rmult_lt_compat_r; auto. apply IZR_lt; auto.
  - apply lt_IZR. apply Rmult_lt_reg_r with (bpow radix2 (-1074)); auto.
Qed.

Lemma rank_le_R : forall x y, is_finite x = true -> is_finite y = true ->
  (rank x <= rank y <-> (B2R x <= B2R y)%R).
Proof.
  intros x y Hx Hy. pose proof (rank_lt_R y x Hy Hx). split; intros.
  - apply Rnot_lt_le. intros C. apply H in C. lia.
  - apply Z.nlt_ge. intros C. apply H in C. lra.
Qed.

Lemma rank_eq_R : forall x y, is_finite x = true -> is_finite y = true ->
  (rank x = rank y <-> (B2R x = B2R y)%R).
Proof.
  intros x y Hx Hy. pose proof (rank_le_R x y Hx Hy). pose proof (rank_le_R y x Hy Hx).
  split; intros E.
  - apply Rle_antisym; [apply H | apply H0]; lia.
  - apply Z.le_antisymm; [apply H | apply H0]; lra.
Qed.

Lemma not_nan_cases : forall x : b64, not_nan x ->
  is_finite x = true \/ x = B754_infinity false \/ x = B754_infinity true.
Proof.
  unfold not_nan. intros [s|[|]| |s m e H] Hn; cbn in *; auto.
Qed.

Lemma finite_not_nan : forall x : b64, is_finite x = true -> not_nan x.
Proof. unfold not_nan. intros [s|s| |s m e H] Hf; cbn in *; auto; try discriminate. Qed.

Lemma rank_pinf : rank (B754_infinity false) = RINF. Proof. reflexivity. Qed.
Lemma rank_ninf : rank (B754_infinity true) = - RINF. Proof. reflexivity. Qed.

Ltac fin_cases x :=
  let H := fresh "Hf" in
  match goal with
  | Hn : not_nan x |- _ => destruct (not_nan_cases x Hn) as [H|[H|H]]
  end.

Lemma rank_bounds : forall x, not_nan x -> - RINF <= rank x <= RINF.
Proof.
  intros x Hn. pose proof RINF_pos. fin_cases x; subst; rewrite ?rank_pinf, ?rank_ninf; try lia.
  pose proof (rank_finite_bound x Hf). lia.
Qed.

Lemma cmp_inf_l : forall (x : b64) s, is_finite x = true ->
  Bcompare (B754_infinity s) x = Some (if s then Lt else Gt).
Proof. intros [s'|s'| |[] m e H] [|] Hf; cbn in *; auto; try discriminate. Qed.

Lemma cmp_inf_r : forall (x : b64) s, is_finite x = true ->
  Bcompare x (B754_infinity s) = Some (if s then Gt else Lt).
Proof. intros [s'|s'| |[] m e H] [|] Hf; cbn in *; auto; try discriminate. Qed.

Lemma Bcompare_rank : forall x y : b64, not_nan x -> not_nan y ->
  Bcompare x y = Some (rank x ?= rank y).
Proof.
  intros x y Hx Hy. pose proof RINF_pos as HP.
  fin_cases x; fin_cases y; subst; rewrite ?cmp_inf_l, ?cmp_inf_r, ?rank_pinf, ?rank_ninf by auto;
    try (pose proof (rank_finite_bound x Hf)); try (pose proof (rank_finite_bound y Hf0));
    try reflexivity.
  { rewrite Bcompare_correct by auto. f_equal.
    destruct (Rcompare_spec (B2R x) (B2R y)) as [H1|H1|H1]; symmetry.
    + apply Z.compare_lt_iff. apply rank_lt_R; auto.
    + apply Z.compare_eq_iff. apply rank_eq_R; auto.
    + apply Z.compare_gt_iff. apply rank_lt_R; auto. }
  all: try change (Bcompare (B754_infinity false) (B754_infinity true)) with (Some Gt);
       try change (Bcompare (B754_infinity true) (B754_infinity false)) with (Some Lt).
  all: f_equal; symmetry; first [apply Z.compare_lt_iff; lia | apply Z.compare_gt_iff; lia].
Qed.

Lemma Bltb_rank : forall x y : b64, not_nan x -> not_nan y -> Bltb x y = (rank x <? rank y).
Proof.
  intros x y Hx Hy. unfold Bltb, SpecFloat.SFltb. fold (Bcompare x y).
  rewrite Bcompare_rank by auto. reflexivity.
Qed.

Lemma Bleb_rank : forall x y : b64, not_nan x -> not_nan y -> Bleb x y = (rank x <=? rank y).
Proof.
  intros x y Hx Hy. unfold Bleb, SpecFloat.SFleb. fold (Bcompare x y).
  rewrite Bcompare_rank by auto. unfold Z.leb. destruct (rank x ?= rank y); reflexivity.
Qed.

Lemma Beqb_rank : forall x y : b64, not_nan x -> not_nan y -> Beqb x y = (rank x =? rank y).
Proof.
  intros x y Hx Hy. unfold Beqb, SpecFloat.SFeqb. fold (Bcompare x y).
  rewrite Bcompare_rank by auto. rewrite Z.eqb_compare. destruct (rank x ?= rank y); reflexivity.
Qed.

(** ** Addition *)

Lemma B2SF_inf : forall (x : b64) s, B2SF x = SpecFloat.S754_infinity s -> x = B754_infinity s.
Proof. intros [s'|s'| |s' m e H] s E; cbn in E; try discriminate. inversion E; auto. Qed.

Lemma Bsign_false_nonneg : forall x : b64, Bsign x = false -> (0 <= B2R x)%R.
Proof.
  intros [s|s| |s m e H] Hs; cbn in *; try lra. subst. apply F2R_ge_0. cbn. lia.
Qed.

Lemma Bsign_true_nonpos : forall x : b64, Bsign x = true -> (B2R x <= 0)%R.
Proof.
  intros [s|s| |s m e H] Hs; cbn in *; try lra. subst. apply F2R_le_0. cbn. lia.
Qed.

Lemma rnd64_le : forall x y, (x <= y)%R -> (rnd64 x <= rnd64 y)%R.
Proof. intros. apply round_le; auto with typeclass_instances. Qed.

Lemma rnd64_0 : rnd64 0%R = 0%R.
Proof. apply round_0; auto with typeclass_instances. Qed.

Lemma rnd64_B2R : forall x : b64, rnd64 (B2R x) = B2R x.
Proof.
  intros. apply round_generic; auto with typeclass_instances. apply generic_format_B2R.
Qed.

Definition emax64 : R := bpow radix2 1024.

Lemma add_cases : forall x d : b64, is_finite x = true -> is_finite d = true ->
  (is_finite (f64_add x d) = true /\ B2R (f64_add x d) = rnd64 (B2R x + B2R d)%R)
  \/ (f64_add x d = B754_infinity false /\ (emax64 <= rnd64 (B2R x + B2R d))%R)
  \/ (f64_add x d = B754_infinity true /\ (rnd64 (B2R x + B2R d) <= - emax64)%R).
Proof.
  intros x d Hx Hd. pose proof (Bplus_correct 53 1024 _ _ mode_NE x d Hx Hd) as H.
  fold f64_add in H. unfold f64_add.
  destruct (Rlt_bool_spec (Rabs (rnd64 (B2R x + B2R d))) (bpow radix2 1024)) as [Hlt|Hge].
  - left. destruct H as (H1 & H2 & _). auto.
  - right. destruct H as (H1 & H2). cbn in H1. apply B2SF_inf in H1.
    destruct (Bsign x) eqn:Es.
    + right. split; [exact H1|].
      assert (Hneg : (rnd64 (B2R x + B2R d) <= 0)%R).
      { rewrite <- rnd64_0. apply rnd64_le.
        pose proof (Bsign_true_nonpos x Es). pose proof (Bsign_true_nonpos d (eq_sym H2)). lra. }
      rewrite Rabs_left1 in Hge by auto. unfold emax64. lra.
    + left. split; [exact H1|].
      assert (Hpos : (0 <= rnd64 (B2R x + B2R d))%R).
      { rewrite <- rnd64_0. apply rnd64_le.
        pose proof (Bsign_false_nonneg x Es). pose proof (Bsign_false_nonneg d (eq_sym H2)). lra. }
      rewrite Rabs_pos_eq in Hge by auto. exact Hge.
Qed.

Lemma B2R_lt_emax : forall x : b64, (- emax64 < B2R x < emax64)%R.
Proof.
  intros x. pose proof (abs_B2R_lt_emax 53 1024 x) as H. apply Rabs_def2 in H. exact (conj (proj2 H) (proj1 H)).
Qed.

Lemma add_inf_l : forall s (d : b64), is_finite d = true -> f64_add (B754_infinity s) d = B754_infinity s.
Proof. intros s [s'|s'| |s' m e H] Hd; cbn in *; auto; try discriminate. Qed.

Lemma add_not_nan : forall x d : b64, not_nan x -> is_finite d = true -> not_nan (f64_add x d).
Proof.
  intros x d Hx Hd. fin_cases x; subst; rewrite ?add_inf_l by auto; try exact eq_refl.
  destruct (add_cases x d Hf Hd) as [[H _]|[[H _]|[H _]]].
  - apply finite_not_nan; auto.
  - rewrite H. reflexivity.
  - rewrite H. reflexivity.
Qed.

Lemma add_mono : forall x y d : b64, not_nan x -> not_nan y -> is_finite d = true ->
  rank x <= rank y -> rank (f64_add x d) <= rank (f64_add y d).
Proof.
  intros x y d Hx Hy Hd Hle.
  pose proof (rank_bounds _ (add_not_nan x d Hx Hd)) as B1.
  pose proof (rank_bounds _ (add_not_nan y d Hy Hd)) as B2.
  pose proof RINF_pos as HP.
  fin_cases x; fin_cases y; subst; rewrite ?add_inf_l in * by auto;
    rewrite ?rank_pinf, ?rank_ninf in *; try lia.
  - assert (HR : (rnd64 (B2R x + B2R d) <= rnd64 (B2R y + B2R d))%R).
    { apply rnd64_le. apply rank_le_R in Hle; auto. lra. }
    destruct (add_cases x d Hf Hd) as [[H1 H2]|[[H1 H2]|[H1 H2]]];
    destruct (add_cases y d Hf0 Hd) as [[H3 H4]|[[H3 H4]|[H3 H4]]];
      rewrite ?H1, ?H3 in *; rewrite ?rank_pinf, ?rank_ninf in *; try lia.
    + apply rank_le_R; auto. rewrite H2, H4. auto.
    + pose proof (B2R_lt_emax (f64_add x d)). lra.
    + pose proof (B2R_lt_emax (f64_add y d)). lra.
    + assert (0 < emax64)%R by apply bpow_gt_0. lra.
  - pose proof (rank_finite_bound x Hf). lia.
  - pose proof (rank_finite_bound y Hf0). lia.
Qed.

Lemma add_infl : forall x d : b64, not_nan x -> is_finite d = true -> 0 <= rank d ->
  rank x <= rank (f64_add x d).
Proof.
  intros x d Hx Hd Hd0.
  fin_cases x; subst; rewrite ?add_inf_l by auto; try lia.
  assert (H0 : (0 <= B2R d)%R).
  { rewrite B2R_rank by auto. apply Rmult_le_pos; [apply IZR_le; auto | apply bpow_ge_0]. }
  assert (HR : (B2R x <= rnd64 (B2R x + B2R d))%R).
  { rewrite <- (rnd64_B2R x) at 1. apply rnd64_le. lra. }
  pose proof (B2R_lt_emax x) as Hb.
  destruct (add_cases x d Hf Hd) as [[H1 H2]|[[H1 H2]|[H1 H2]]].
  - apply rank_le_R; auto. rewrite H2. auto.
  - rewrite H1, rank_pinf. pose proof (rank_finite_bound x Hf). lia.
  - lra.
Qed.

Lemma add_lt_inf_finite : forall x d : b64, is_finite x = true -> is_finite d = true -> 0 <= rank d ->
  rank (f64_add x d) < RINF -> is_finite (f64_add x d) = true.
Proof.
  intros x d Hx Hd Hd0 Hlt.
  destruct (add_cases x d Hx Hd) as [[H1 H2]|[[H1 H2]|[H1 H2]]]; auto.
  - rewrite H1, rank_pinf in Hlt. lia.
  - pose proof (add_infl x d (finite_not_nan x Hx) Hd Hd0) as H.
    rewrite H1, rank_ninf in H. pose proof (rank_finite_bound x Hx). lia.
Qed.

(** Rank decides finiteness on non-NaN values. *)
Lemma rank_finite : forall x, not_nan x -> - RINF < rank x < RINF -> is_finite x = true.
Proof.
  intros x Hn H. fin_cases x; subst; auto; rewrite ?rank_pinf, ?rank_ninf in H; lia.
Qed.

(** Same rank: same value up to the sign of zero. *)
Lemma rank_inj : forall x y, not_nan x -> not_nan y -> rank x = rank y -> Beqb x y = true.
Proof. intros. rewrite Beqb_rank by auto. apply Z.eqb_eq. auto. Qed.

Lemma store32_not_nan_inf : forall s, is_f32 (B754_infinity s).
Proof. intros. reflexivity. Qed.
