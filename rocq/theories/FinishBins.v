(** * The bins of a bluespot in binary64 *)

From Coq Require Import QArith Qabs Qreals Reals Lra Lia.
From Flocq Require Import Core IEEE754.BinarySingleNaN.
From Verif Require Import Base Num Float64 Float64Proofs Float64Arith NetworkFloatThms HypsModel ApproxModel LevelProofs RoundNetProofs RoundProofs OverflowProofs FinishArith.
Local Open Scope R_scope.

Definition eps : R := bpow radix2 (-10).

Lemma eps_val : eps = / 1024. Proof. unfold eps. cbn. lra. Qed.

Lemma two41 : bpow radix2 41 = 2199023255552. Proof. reflexivity. Qed.
Lemma two42 : bpow radix2 42 = 4398046511104. Proof. reflexivity. Qed.

(** ** A resolution that is not extreme *)
Section Res.
Variable w : b64.
Hypothesis Fw : is_finite w = true.
Hypothesis Wlo : bpow radix2 (-100) <= B2R w.
Hypothesis Whi : B2R w <= bpow radix2 100.

Lemma w_pos : 0 < B2R w. Proof. pose proof (bpow_gt_0 radix2 (-100)). lra. Qed.
Lemma w_abs : Rabs (B2R w) <= bpow radix2 100. Proof. pose proof w_pos. rewrite Rabs_pos_eq by lra. exact Whi. Qed.

(** Rounding a number of at most 2^42 resolutions. *)
Lemma rnd_w : forall x, Rabs x <= bpow radix2 42 * B2R w -> Rabs (rnd64 x - x) <= eps * B2R w.
Proof.
  intros x X. pose proof w_pos as P.
  destruct (Rle_dec (bpow radix2 (-1022)) (Rabs x)) as [G|G].
  - destruct (rnd_rel x (or_intror G)) as (e & He & ->). replace (x * (1 + e) - x) with (x * e) by ring. rewrite Rabs_mult.
    apply Rle_trans with ((bpow radix2 42 * B2R w) * u53); [apply Rmult_le_compat; auto using Rabs_pos|].
    rewrite Rmult_comm, <- Rmult_assoc. apply Rmult_le_compat_r; [lra|]. unfold u53, eps. rewrite <- bpow_plus. apply bpow_le. lia.
  - apply Rnot_le_lt in G. apply Rle_trans with (Rabs (rnd64 x) + Rabs x).
    { replace (rnd64 x - x) with (rnd64 x + - x) by ring. rewrite <- (Rabs_Ropp x). apply Rabs_triang. }
    assert (R1 : Rabs (rnd64 x) <= bpow radix2 (-1022)) by (apply rnd_abs_le; [lia|lra]).
    apply Rle_trans with (2 * bpow radix2 (-1022)); [lra|]. change 2 with (bpow radix2 1). rewrite <- bpow_plus.
    apply Rle_trans with (eps * bpow radix2 (-100)); [unfold eps; rewrite <- bpow_plus; apply bpow_le; lia|].
    apply Rmult_le_compat_l; [unfold eps; apply bpow_ge_0|exact Wlo].
Qed.

Let s := f64_div (f64_ofZ 1) w.
Lemma one_R : is_finite (f64_ofZ 1) = true /\ B2R (f64_ofZ 1) = 1. Proof. apply ofZ_int. lia. Qed.

Lemma scale_facts : is_finite s = true /\ 0 <= B2R s <= bpow radix2 100 /\ Rabs (B2R s * B2R w - 1) <= u53.
Proof.
  pose proof w_pos as P. destruct one_R as [F1 E1].
  destruct (div_abs (f64_ofZ 1) w 0 (-100) F1 Fw ltac:(lia)) as (F & E & A).
  { rewrite E1, Rabs_R1. apply Rle_refl. } { rewrite Rabs_pos_eq by lra. exact Wlo. }
  change (0 - -100)%Z with 100%Z in A. fold s in F, E, A. rewrite E1 in E.
  assert (Q : 0 < 1 / B2R w) by (apply Rdiv_lt_0_compat; lra).
  assert (Ps : 0 <= B2R s) by (rewrite E; apply rnd_pos; lra).
  split; [exact F|]. split; [split; [exact Ps|]|].
  - rewrite Rabs_pos_eq in A by exact Ps. exact A.
  - destruct (rnd_rel (1 / B2R w)) as (e & He & R).
    { right. rewrite Rabs_pos_eq by lra. apply Rle_trans with (bpow radix2 (-100)); [apply bpow_le; lia|].
      unfold Rdiv. rewrite Rmult_1_l. change (-100)%Z with (- (100))%Z. rewrite bpow_opp. apply Rinv_le; [exact P|exact Whi]. }
    rewrite E, R. replace (1 / B2R w * (1 + e) * B2R w - 1) with e by (field; lra). exact He.
Qed.

(** ** int(z * scale) for an elevation z *)
Section Elev.
Variable z : b64.
Hypothesis Fz : is_finite z = true.
Hypothesis Bz : Rabs (B2R z) <= bpow radix2 126.
Hypothesis Hz : Rabs (B2R z) <= bpow radix2 40 * B2R w.

Lemma zs_facts : is_finite (f64_mul z s) = true /\ B2R (f64_mul z s) = rnd64 (B2R z * B2R s) /\
  Rabs (B2R (f64_mul z s)) <= bpow radix2 41 /\ Rabs (B2R (f64_mul z s) * B2R w - B2R z) <= eps * B2R w.
Proof.
  pose proof w_pos as P. destruct scale_facts as (Fs & [S0 S1] & Sw).
  destruct (mul_abs z s 126 100 Fz Fs ltac:(lia) Bz) as (F & E & _); [rewrite Rabs_pos_eq; assumption|].
  split; [exact F|]. split; [exact E|].
  assert (U : u53 <= / 2) by (unfold u53; change (/ 2) with (bpow radix2 (-1)); apply bpow_le; lia).
  assert (S2 : B2R s * B2R w <= 2). { apply Rabs_le_inv in Sw. lra. }
  assert (Zs : Rabs (B2R z * B2R s) <= bpow radix2 41).
  { rewrite Rabs_mult, (Rabs_pos_eq (B2R s)) by exact S0. apply Rle_trans with (bpow radix2 40 * B2R w * B2R s); [apply Rmult_le_compat_r; assumption|].
    rewrite Rmult_assoc. change 41%Z with (40 + 1)%Z. rewrite bpow_plus. change (bpow radix2 1) with 2. apply Rmult_le_compat_l; [apply bpow_ge_0|].
    rewrite Rmult_comm. exact S2. }
  split; [rewrite E; apply rnd_abs_le; [lia|exact Zs]|].
  assert (R1 : Rabs (rnd64 (B2R z * B2R s) - B2R z * B2R s) * B2R w <= bpow radix2 (-12) * B2R w + eps / 4 * B2R w).
  { rewrite <- Rmult_plus_distr_r. apply Rmult_le_compat_r; [lra|]. pose proof (bpow_gt_0 radix2 (-12)). rewrite eps_val.
    destruct (Rle_dec (bpow radix2 (-1022)) (Rabs (B2R z * B2R s))) as [G|G].
    - destruct (rnd_rel _ (or_intror G)) as (e & He & ->). replace (B2R z * B2R s * (1 + e) - B2R z * B2R s) with (B2R z * B2R s * e) by ring.
      rewrite Rabs_mult. apply Rle_trans with (bpow radix2 41 * u53); [apply Rmult_le_compat; auto using Rabs_pos|].
      unfold u53. rewrite <- bpow_plus. change (41 + -53)%Z with (-12)%Z. lra.
    - apply Rnot_le_lt in G. apply Rle_trans with (Rabs (rnd64 (B2R z * B2R s)) + Rabs (B2R z * B2R s)).
      { unfold Rminus. rewrite <- (Rabs_Ropp (B2R z * B2R s)). apply Rabs_triang. }
      assert (Rabs (rnd64 (B2R z * B2R s)) <= bpow radix2 (-1022)) by (apply rnd_abs_le; [lia|lra]).
      assert (bpow radix2 (-1022) <= bpow radix2 (-14)) by (apply bpow_le; lia).
      assert (bpow radix2 (-12) = 4 * bpow radix2 (-14)) by (change 4 with (bpow radix2 2); rewrite <- bpow_plus; reflexivity). lra. }
  rewrite E. replace (rnd64 (B2R z * B2R s) * B2R w - B2R z) with ((rnd64 (B2R z * B2R s) - B2R z * B2R s) * B2R w + B2R z * (B2R s * B2R w - 1)) by ring.
  eapply Rle_trans; [apply Rabs_triang|]. rewrite !Rabs_mult, (Rabs_pos_eq (B2R w)) by lra.
  assert (R2 : Rabs (B2R z) * Rabs (B2R s * B2R w - 1) <= bpow radix2 (-13) * B2R w).
  { apply Rle_trans with ((bpow radix2 40 * B2R w) * u53); [apply Rmult_le_compat; auto using Rabs_pos|].
    rewrite Rmult_comm, <- Rmult_assoc. apply Rmult_le_compat_r; [lra|]. unfold u53. rewrite <- bpow_plus. apply bpow_le. lia. }
  assert (bpow radix2 (-12) = / 4096) by (cbn; lra). assert (bpow radix2 (-13) = / 8192) by (cbn; lra). rewrite eps_val in *. nra.
Qed.
End Elev.

(** ** The bins *)
Section Bins.
Variables zmin zmax : b64.
Hypothesis F0 : is_finite zmin = true.
Hypothesis F1 : is_finite zmax = true.
Hypothesis B0 : Rabs (B2R zmin) <= bpow radix2 126.
Hypothesis B1 : Rabs (B2R zmax) <= bpow radix2 126.
Hypothesis H0 : Rabs (B2R zmin) <= bpow radix2 40 * B2R w.
Hypothesis H1 : Rabs (B2R zmax) <= bpow radix2 40 * B2R w.
Hypothesis Le : B2R zmin <= B2R zmax.

Let t0 := B2R (f64_mul zmin s).
Let t1 := B2R (f64_mul zmax s).
Definition m0 : Z := Ztrunc t0.
Definition m1 : Z := Ztrunc t1.
Definition nb : Z := (m1 - m0 + 1)%Z.

Lemma trunc_41 : forall x, Rabs x <= bpow radix2 41 -> (Z.abs (Ztrunc x) <= 2 ^ 41)%Z.
Proof.
  intros x X. rewrite <- Ztrunc_abs. apply le_IZR. change (IZR (2 ^ 41)) with (bpow radix2 41).
  eapply Rle_trans; [|exact X]. rewrite Ztrunc_floor by apply Rabs_pos. apply Zfloor_lb.
Qed.

Lemma m_facts : (Z.abs m0 <= 2 ^ 41)%Z /\ (Z.abs m1 <= 2 ^ 41)%Z /\ (1 <= nb <= 2 ^ 43)%Z.
Proof.
  destruct (zs_facts zmin F0 B0 H0) as (_ & E0 & A0 & _). destruct (zs_facts zmax F1 B1 H1) as (_ & E1 & A1 & _).
  fold t0 in E0, A0. fold t1 in E1, A1. pose proof (trunc_41 _ A0) as M0. pose proof (trunc_41 _ A1) as M1. fold m0 in M0. fold m1 in M1.
  assert (M : (m0 <= m1)%Z).
  { apply Ztrunc_le. rewrite E0, E1. apply rnd64_le. apply Rmult_le_compat_r; [apply scale_facts|exact Le]. }
  unfold nb. lia.
Qed.

Theorem bins_ok : exists b, histogram_bins F64Ops b64_int zmin zmax w = Ok b /\ b_num b = nb /\ b_resolution b = w /\
  is_finite (b_lower b) = true /\ is_finite (b_upper b) = true /\
  Rabs (B2R (b_lower b)) <= bpow radix2 141 /\ Rabs (B2R (b_upper b)) <= bpow radix2 145 /\
  B2R (b_lower b) = rnd64 (IZR m0 * B2R w) /\
  Rabs (B2R (b_lower b) - IZR m0 * B2R w) <= eps * B2R w /\
  Rabs (B2R (b_upper b) - (IZR m0 + IZR nb) * B2R w) <= 3 * eps * B2R w /\
  B2R (b_lower b) < B2R (b_upper b).
Proof.
  pose proof w_pos as P. destruct m_facts as (M0 & M1 & N).
  destruct (zs_facts zmin F0 B0 H0) as (Fz0 & _). destruct (zs_facts zmax F1 B1 H1) as (Fz1 & _).
  unfold histogram_bins. cbn [ndiv nmul nadd nofZ F64Ops]. fold s. rewrite (b64_int_trunc _ Fz0), (b64_int_trunc _ Fz1). cbn [bind].
  fold t0 t1 m0 m1 nb. eexists. split; [reflexivity|]. cbn [b_num b_resolution b_lower b_upper]. split; [reflexivity|]. split; [reflexivity|].
  destruct (ofZ_int m0 ltac:(lia)) as [Fm Em]. destruct (ofZ_int nb ltac:(lia)) as [Fn En].
  assert (I0 : Rabs (IZR m0) <= bpow radix2 41) by (rewrite <- abs_IZR; change (bpow radix2 41) with (IZR (2 ^ 41)); apply IZR_le; exact M0).
  assert (I1 : Rabs (IZR nb) <= bpow radix2 43) by (rewrite <- abs_IZR; change (bpow radix2 43) with (IZR (2 ^ 43)); apply IZR_le; lia).
  assert (I2 : 1 <= IZR nb) by (apply IZR_le; lia).
  assert (I3 : Rabs (IZR nb) <= bpow radix2 42 + 1).
  { rewrite <- abs_IZR. change (bpow radix2 42) with (IZR (2 ^ 42)). rewrite <- plus_IZR. apply IZR_le. unfold nb. lia. }
  destruct (mul_abs (f64_ofZ m0) w 41 100 Fm Fw ltac:(lia)) as (Fl & El & Al); [rewrite Em; exact I0|exact w_abs|].
  destruct (mul_abs (f64_ofZ nb) w 43 100 Fn Fw ltac:(lia)) as (Fk & Ek & Ak); [rewrite En; exact I1|exact w_abs|].
  change (41 + 100)%Z with 141%Z in Al. change (43 + 100)%Z with 143%Z in Ak.
  assert (L144 : forall e x, (e <= 144)%Z -> Rabs x <= bpow radix2 e -> Rabs x <= bpow radix2 144) by (intros e x He Hx; eapply Rle_trans; [exact Hx|apply bpow_le; lia]).
  destruct (add_abs _ _ 144 Fl Fk ltac:(lia)) as (Fu & Eu & Au); [apply (L144 141%Z); [lia|exact Al]|apply (L144 143%Z); [lia|exact Ak]|].
  change (144 + 1)%Z with 145%Z in Au. rewrite Em in El. rewrite En in Ek.
  assert (X0 : Rabs (IZR m0 * B2R w) <= bpow radix2 41 * B2R w) by (rewrite Rabs_mult, (Rabs_pos_eq (B2R w)) by lra; apply Rmult_le_compat_r; lra).
  assert (R0 : Rabs (rnd64 (IZR m0 * B2R w) - IZR m0 * B2R w) <= eps * B2R w).
  { apply rnd_w. eapply Rle_trans; [exact X0|]. apply Rmult_le_compat_r; [lra|]. apply bpow_le. lia. }
  (* 2^42 + 1 resolutions *)
  assert (rnd_n : forall x, Rabs x <= (bpow radix2 42 + 1 + 2 * eps) * B2R w -> Rabs (rnd64 x - x) <= eps * B2R w).
  { intros x X. destruct (Rle_dec (bpow radix2 (-1022)) (Rabs x)) as [G|G].
    - destruct (rnd_rel x (or_intror G)) as (e & He & ->). replace (x * (1 + e) - x) with (x * e) by ring. rewrite Rabs_mult.
      apply Rle_trans with ((bpow radix2 43 * B2R w) * u53).
      + apply Rmult_le_compat; auto using Rabs_pos. eapply Rle_trans; [exact X|]. apply Rmult_le_compat_r; [lra|]. rewrite eps_val. cbn. lra.
      + rewrite Rmult_comm, <- Rmult_assoc. apply Rmult_le_compat_r; [lra|]. unfold u53, eps. rewrite <- bpow_plus. apply bpow_le. lia.
    - apply rnd_w. apply Rnot_le_lt in G. apply Rle_trans with (1 * B2R w); [|apply Rmult_le_compat_r; [lra|cbn; lra]].
      rewrite Rmult_1_l. left. eapply Rlt_le_trans; [exact G|]. eapply Rle_trans; [|exact Wlo]. apply bpow_le. lia. }
  assert (R1 : Rabs (rnd64 (IZR nb * B2R w) - IZR nb * B2R w) <= eps * B2R w).
  { apply rnd_n. rewrite Rabs_mult, (Rabs_pos_eq (B2R w)) by lra. apply Rmult_le_compat_r; [lra|]. rewrite eps_val. lra. }
  (* m0 + nb = m1 + 1 *)
  assert (MN : (IZR m0 + IZR nb) = IZR m1 + 1) by (rewrite <- plus_IZR; unfold nb; replace (m0 + (m1 - m0 + 1))%Z with (m1 + 1)%Z by lia; apply plus_IZR).
  assert (I4 : Rabs (IZR m1) <= bpow radix2 41) by (rewrite <- abs_IZR; change (bpow radix2 41) with (IZR (2 ^ 41)); apply IZR_le; exact M1).
  assert (C : Rabs (B2R (f64_mul (f64_ofZ m0) w) + B2R (f64_mul (f64_ofZ nb) w) - (IZR m0 + IZR nb) * B2R w) <= 2 * eps * B2R w).
  { rewrite El, Ek. replace (rnd64 (IZR m0 * B2R w) + rnd64 (IZR nb * B2R w) - (IZR m0 + IZR nb) * B2R w)
      with ((rnd64 (IZR m0 * B2R w) - IZR m0 * B2R w) + (rnd64 (IZR nb * B2R w) - IZR nb * B2R w)) by ring.
    eapply Rle_trans; [apply Rabs_triang|]. lra. }
  assert (R2 : Rabs (B2R (f64_add (f64_mul (f64_ofZ m0) w) (f64_mul (f64_ofZ nb) w)) - (B2R (f64_mul (f64_ofZ m0) w) + B2R (f64_mul (f64_ofZ nb) w))) <= eps * B2R w).
  { rewrite Eu. apply rnd_n. set (a := B2R (f64_mul (f64_ofZ m0) w) + B2R (f64_mul (f64_ofZ nb) w)) in *.
    replace a with ((a - (IZR m0 + IZR nb) * B2R w) + (IZR m0 + IZR nb) * B2R w) by ring. eapply Rle_trans; [apply Rabs_triang|].
    rewrite MN. rewrite MN in C. assert (Rabs ((IZR m1 + 1) * B2R w) <= (bpow radix2 41 + 1) * B2R w).
    { rewrite Rabs_mult, (Rabs_pos_eq (B2R w)) by lra. apply Rmult_le_compat_r; [lra|]. eapply Rle_trans; [apply Rabs_triang|]. rewrite Rabs_R1. lra. }
    rewrite eps_val in C |- *. rewrite two41 in H. rewrite two42. lra. }
  assert (D : Rabs (B2R (f64_add (f64_mul (f64_ofZ m0) w) (f64_mul (f64_ofZ nb) w)) - (IZR m0 + IZR nb) * B2R w) <= 3 * eps * B2R w).
  { apply Rabs_le_inv in C, R2. apply Rabs_le. lra. }
  rewrite <- El in R0.
  split; [exact Fl|]. split; [exact Fu|]. split; [exact Al|]. split; [exact Au|]. split; [exact El|]. split; [exact R0|]. split; [exact D|].
  apply Rabs_le_inv in R0, D. rewrite eps_val in *. nra.
Qed.
End Bins.
End Res.
