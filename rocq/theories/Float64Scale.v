(** * Dividing by sqrt 2, multiplying by its rounded inverse, sign of differences *)

From Coq Require Import Reals Lra.
From Flocq Require Import Core IEEE754.BinarySingleNaN.
From Verif Require Import Base Num Float64 Float64Proofs Float64Arith.
Local Open Scope Z_scope.

(** The smallest positive number. *)
Definition f64_tiny : b64 := @B754_finite 53 1024 false 1 (-1074) eq_refl.

Lemma rank_tiny : rank f64_tiny = 1. Proof. reflexivity. Qed.

Lemma sub_pos : forall x y : b64, is_finite x = true -> is_finite y = true ->
  rank y < rank x -> 0 < rank (f64_sub x y).
Proof.
  intros x y Hx Hy L. rewrite sub_add_opp.
  assert (D : (B2R f64_tiny <= B2R x + B2R (Bopp y))%R).
  { rewrite B2R_Bopp, (B2R_rank x), (B2R_rank y), (B2R_rank f64_tiny) by auto. rewrite rank_tiny.
    pose proof bpowm_pos. assert (IZR (rank y) + 1 <= IZR (rank x))%R.
    { rewrite <- plus_IZR. apply IZR_le. lia. }
    nra. }
  apply rnd64_le in D. rewrite rnd64_B2R in D.
  assert (T : (0 < B2R f64_tiny)%R).
  { rewrite B2R_rank by auto. rewrite rank_tiny. pose proof bpowm_pos. lra. }
  pose proof RINF_pos.
  destruct (add_cases x (Bopp y) Hx (opp_finite _ Hy)) as [[F B]|[[E B]|[E B]]].
  - rewrite <- B in D. assert (1 <= rank (f64_add x (Bopp y))); [|lia].
    rewrite <- rank_tiny. apply rank_le_R; auto.
  - rewrite E, rank_pinf. auto.
  - assert (0 < emax64)%R by apply bpow_gt_0. lra.
Qed.

Lemma sub_pos_iff : forall x y : b64, is_finite x = true -> is_finite y = true ->
  (0 < rank (f64_sub x y) <-> rank y < rank x).
Proof.
  intros x y Hx Hy. split; [apply sub_pos_lt; auto; apply finite_not_nan; auto | apply sub_pos; auto].
Qed.

Lemma sub_neg_iff : forall x y : b64, is_finite x = true -> is_finite y = true ->
  (rank (f64_sub x y) < 0 <-> rank x < rank y).
Proof.
  intros x y Hx Hy. split.
  - intros L. destruct (Z_lt_le_dec (rank x) (rank y)) as [|G]; auto. exfalso.
    pose proof (sub_mono y x y (finite_not_nan _ Hy) (finite_not_nan _ Hx) Hy G) as M. rewrite sub_self_rank in M by auto. lia.
  - intros L. rewrite sub_add_opp.
    assert (D : (B2R x + B2R (Bopp y) <= B2R (Bopp f64_tiny))%R).
    { rewrite !B2R_Bopp, (B2R_rank x), (B2R_rank y), (B2R_rank f64_tiny) by auto. rewrite rank_tiny.
      pose proof bpowm_pos. assert (IZR (rank x) + 1 <= IZR (rank y))%R.
      { rewrite <- plus_IZR. apply IZR_le. lia. }
      nra. }
    apply rnd64_le in D. rewrite rnd64_B2R in D.
    assert (T : (0 < B2R f64_tiny)%R).
    { rewrite B2R_rank by auto. rewrite rank_tiny. pose proof bpowm_pos. lra. }
    assert (T2 : B2R (Bopp f64_tiny) = (- B2R f64_tiny)%R) by apply B2R_Bopp.
    pose proof RINF_pos.
    destruct (add_cases x (Bopp y) Hx (opp_finite _ Hy)) as [[F B]|[[E B]|[E B]]].
    + rewrite <- B in D. assert (rank (f64_add x (Bopp y)) <= -1); [|lia].
      change (-1) with (rank (Bopp f64_tiny)). apply rank_le_R; auto.
    + assert (0 < emax64)%R by apply bpow_gt_0. lra.
    + rewrite E. vm_compute. reflexivity.
Qed.

(** Operations that round (x * k) for some 0 < k <= 1. *)
Definition shrinks (g : b64 -> b64) (k : R) : Prop :=
  (0 < k <= 1)%R /\
  (forall x, is_finite x = true -> is_finite (g x) = true /\ B2R (g x) = rnd64 (B2R x * k)%R) /\
  (forall s, g (B754_infinity s) = B754_infinity s).

Lemma shrinks_not_nan : forall g k x, shrinks g k -> not_nan x -> not_nan (g x).
Proof.
  intros g k x (_ & H1 & H2) Hx. destruct (not_nan_cases x Hx) as [F|[-> | ->]].
  - apply finite_not_nan. apply H1; auto.
  - rewrite H2. reflexivity.
  - rewrite H2. reflexivity.
Qed.

Lemma shrinks_mono : forall g k x y, shrinks g k -> not_nan x -> not_nan y ->
  rank x <= rank y -> rank (g x) <= rank (g y).
Proof.
  intros g k x y (K & H1 & H2) Hx Hy L. pose proof RINF_pos.
  destruct (not_nan_cases x Hx) as [Fx|[-> | ->]]; destruct (not_nan_cases y Hy) as [Fy|[-> | ->]];
    rewrite ?H2, ?rank_pinf, ?rank_ninf in *; try lia.
  - destruct (H1 x Fx) as [A B], (H1 y Fy) as [C D]. apply rank_le_R; auto. rewrite B, D.
    apply rnd64_le. apply rank_le_R in L; auto. nra.
  - destruct (H1 x Fx) as [A B]. pose proof (rank_finite_bound _ A). lia.
  - pose proof (rank_finite_bound _ Fx). lia.
  - pose proof (rank_finite_bound _ Fy). lia.
  - destruct (H1 y Fy) as [A B]. pose proof (rank_finite_bound _ A). lia.
Qed.

Lemma shrinks_bound : forall x k, (0 < k <= 1)%R -> (Rabs (rnd64 (B2R (x : b64) * k)) < emax64)%R.
Proof.
  intros x k K. pose proof (B2R_lt_emax x) as B.
  assert (U : (rnd64 (B2R x * k) <= Rmax 0 (B2R x))%R).
  { destruct (Rle_lt_dec 0 (B2R x)).
    - rewrite Rmax_right by auto. rewrite <- (rnd64_B2R x) at 2. apply rnd64_le. nra.
    - rewrite Rmax_left by lra. rewrite <- rnd64_0. apply rnd64_le. nra. }
  assert (V : (Rmin 0 (B2R x) <= rnd64 (B2R x * k))%R).
  { destruct (Rle_lt_dec 0 (B2R x)).
    - rewrite Rmin_left by auto. rewrite <- rnd64_0. apply rnd64_le. nra.
    - rewrite Rmin_right by lra. rewrite <- (rnd64_B2R x) at 1. apply rnd64_le. nra. }
  assert (P : (0 < emax64)%R) by apply bpow_gt_0.
  apply Rabs_def1; unfold Rmax, Rmin in *; destruct (Rle_dec 0 (B2R x)); lra.
Qed.

Lemma one_rank : B2R (f64_ofZ 1) = 1%R.
Proof.
  assert (H : rank (f64_ofZ 1) = Z.pow 2 1074) by (apply Z.eqb_eq; vm_compute; reflexivity).
  rewrite B2R_rank by (vm_compute; reflexivity). rewrite H.
  change 2 with (radix_val radix2). rewrite IZR_Zpower by lia. rewrite <- bpow_plus. reflexivity.
Qed.

Lemma sqrt2_facts : is_finite f64_sqrt2 = true /\ (1 <= B2R f64_sqrt2)%R.
Proof.
  split; [vm_compute; reflexivity|]. rewrite <- one_rank.
  apply rank_le_R; try (vm_compute; reflexivity). apply Z.leb_le. vm_compute. reflexivity.
Qed.

Lemma inv_sqrt2_facts : is_finite f64_inv_sqrt2 = true /\ (0 < B2R f64_inv_sqrt2 <= 1)%R.
Proof.
  split; [vm_compute; reflexivity|]. split.
  - change 0%R with (B2R f64_zero). apply rank_lt_R; try (vm_compute; reflexivity).
  - rewrite <- one_rank. apply rank_le_R; try (vm_compute; reflexivity).
    apply Z.leb_le. vm_compute. reflexivity.
Qed.

Lemma div_sqrt2_shrinks : exists k, shrinks (fun x => f64_div x f64_sqrt2) k.
Proof.
  destruct sqrt2_facts as [F S]. exists (/ B2R f64_sqrt2)%R.
  assert (K : (0 < / B2R f64_sqrt2 <= 1)%R).
  { split; [apply Rinv_0_lt_compat; lra|]. rewrite <- Rinv_1. apply Rinv_le; lra. }
  split; [exact K|]. split.
  - intros x Fx. assert (NZ : B2R f64_sqrt2 <> 0%R) by lra.
    pose proof (Bdiv_correct 53 1024 _ _ mode_NE x f64_sqrt2 NZ) as H. fold f64_div in H.
    change (B2R x / B2R f64_sqrt2)%R with (B2R x * / B2R f64_sqrt2)%R in H.
    rewrite Rlt_bool_true in H.
    + destruct H as (H1 & H2 & _). cbv beta. rewrite H1, H2. auto.
    + apply (shrinks_bound x _ K).
  - intros [|]; vm_compute; reflexivity.
Qed.

Lemma mul_inv_sqrt2_shrinks : exists k, shrinks (fun x => f64_mul x f64_inv_sqrt2) k.
Proof.
  destruct inv_sqrt2_facts as [F K]. exists (B2R f64_inv_sqrt2)%R.
  split; [exact K|]. split.
  - intros x Fx.
    pose proof (Bmult_correct 53 1024 _ _ mode_NE x f64_inv_sqrt2) as H. fold f64_mul in H.
    rewrite Rlt_bool_true in H.
    + destruct H as (H1 & H2 & _). cbv beta. rewrite H1, H2, Fx, F. auto.
    + apply (shrinks_bound x _ K).
  - intros [|]; vm_compute; reflexivity.
Qed.

(** What a slope needs: order kept, sign kept. *)
Definition slope_op (g : b64 -> b64) : Prop :=
  (forall x, not_nan x -> not_nan (g x)) /\
  (forall x y, not_nan x -> not_nan y -> rank x <= rank y -> rank (g x) <= rank (g y)) /\
  (forall x, not_nan x -> (0 < rank (g x) <-> 0 < rank x)).

Lemma slope_op_intro : forall g, (exists k, shrinks g k) -> 0 < rank (g f64_tiny) ->
  rank (g f64_zero) = 0 -> slope_op g.
Proof.
  intros g (k & H) T Z. split; [intros; eapply shrinks_not_nan; eauto|].
  split; [intros; eapply shrinks_mono; eauto|]. intros x Hx. split; intros P.
  - destruct (Z_lt_le_dec 0 (rank x)); auto.
    assert (rank (g x) <= rank (g f64_zero)) by (eapply shrinks_mono; eauto; reflexivity). lia.
  - assert (rank (g f64_tiny) <= rank (g x)); [|lia].
    eapply shrinks_mono; eauto; [reflexivity|]. rewrite rank_tiny. lia.
Qed.

Lemma slope_div : slope_op (fun x => f64_div x f64_sqrt2).
Proof.
  apply slope_op_intro; [apply div_sqrt2_shrinks | | ].
  - apply Z.ltb_lt. vm_compute. reflexivity.
  - apply Z.eqb_eq. vm_compute. reflexivity.
Qed.

Lemma slope_mul : slope_op (fun x => f64_mul x f64_inv_sqrt2).
Proof.
  apply slope_op_intro; [apply mul_inv_sqrt2_shrinks | | ].
  - apply Z.ltb_lt. vm_compute. reflexivity.
  - apply Z.eqb_eq. vm_compute. reflexivity.
Qed.
