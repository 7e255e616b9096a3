(** * Bounds of binary64 operations *)

From Coq Require Import QArith Qabs Qreals Reals Lra Lia.
From Flocq Require Import Core IEEE754.BinarySingleNaN.
From Verif Require Import Base Num Float64 Float64Proofs Float64Arith HypsModel LevelProofs RoundProofs OverflowProofs.
Local Open Scope R_scope.

Notation fmt64 := (generic_format radix2 (SpecFloat.fexp 53 1024)).

Lemma fmt_bpow : forall e, (-1074 <= e)%Z -> fmt64 (bpow radix2 e).
Proof. intros e E. apply generic_format_bpow. unfold SpecFloat.fexp, SpecFloat.emin. lia. Qed.

Lemma rnd_fmt : forall x, fmt64 x -> rnd64 x = x.
Proof. intros x H. apply round_generic; auto with typeclass_instances. Qed.

Lemma rnd_bpow : forall e, (-1074 <= e)%Z -> rnd64 (bpow radix2 e) = bpow radix2 e.
Proof. intros e E. apply rnd_fmt, fmt_bpow, E. Qed.

Lemma rnd_abs_le : forall x e, (-1074 <= e)%Z -> Rabs x <= bpow radix2 e -> Rabs (rnd64 x) <= bpow radix2 e.
Proof. intros x e E H. apply abs_round_le_generic; auto with typeclass_instances. apply fmt_bpow, E. Qed.

Lemma rnd_abs_ge : forall x e, (-1074 <= e)%Z -> bpow radix2 e <= Rabs x -> bpow radix2 e <= Rabs (rnd64 x).
Proof. intros x e E H. apply abs_round_ge_generic; auto with typeclass_instances. apply fmt_bpow, E. Qed.

Lemma below_emax : forall x e, Rabs x <= bpow radix2 e -> (e <= 1023)%Z -> Rabs x < bpow radix2 1024.
Proof. intros x e H E. eapply Rle_lt_trans; [exact H|]. apply bpow_lt. lia. Qed.

Lemma add_abs : forall (x y : b64) a, is_finite x = true -> is_finite y = true -> (-1074 <= a <= 1000)%Z ->
  Rabs (B2R x) <= bpow radix2 a -> Rabs (B2R y) <= bpow radix2 a ->
  is_finite (f64_add x y) = true /\ B2R (f64_add x y) = rnd64 (B2R x + B2R y) /\ Rabs (B2R (f64_add x y)) <= bpow radix2 (a + 1).
Proof.
  intros x y a Fx Fy A X Y. pose proof (Bplus_correct 53 1024 _ _ mode_NE x y Fx Fy) as M. fold (f64_add x y) in M.
  assert (U : Rabs (rnd64 (B2R x + B2R y)) <= bpow radix2 (a + 1)).
  { apply rnd_abs_le; [lia|]. eapply Rle_trans; [apply Rabs_triang|]. rewrite bpow_plus. change (bpow radix2 1) with 2. lra. }
  rewrite Rlt_bool_true in M by (apply (below_emax _ (a + 1)); [exact U|lia]). destruct M as (M1 & M2 & _). rewrite M1. auto.
Qed.

Lemma sub_abs : forall (x y : b64) a, is_finite x = true -> is_finite y = true -> (-1074 <= a <= 1000)%Z ->
  Rabs (B2R x) <= bpow radix2 a -> Rabs (B2R y) <= bpow radix2 a ->
  is_finite (f64_sub x y) = true /\ B2R (f64_sub x y) = rnd64 (B2R x - B2R y) /\ Rabs (B2R (f64_sub x y)) <= bpow radix2 (a + 1).
Proof.
  intros x y a Fx Fy A X Y. pose proof (Bminus_correct 53 1024 _ _ mode_NE x y Fx Fy) as M. fold (f64_sub x y) in M.
  assert (U : Rabs (rnd64 (B2R x - B2R y)) <= bpow radix2 (a + 1)).
  { apply rnd_abs_le; [lia|]. unfold Rminus. eapply Rle_trans; [apply Rabs_triang|]. rewrite Rabs_Ropp, bpow_plus. change (bpow radix2 1) with 2. lra. }
  rewrite Rlt_bool_true in M by (apply (below_emax _ (a + 1)); [exact U|lia]). destruct M as (M1 & M2 & _). rewrite M1. auto.
Qed.

Lemma mul_abs : forall (x y : b64) a b, is_finite x = true -> is_finite y = true -> (-1074 <= a + b <= 1000)%Z ->
  Rabs (B2R x) <= bpow radix2 a -> Rabs (B2R y) <= bpow radix2 b ->
  is_finite (f64_mul x y) = true /\ B2R (f64_mul x y) = rnd64 (B2R x * B2R y) /\ Rabs (B2R (f64_mul x y)) <= bpow radix2 (a + b).
Proof.
  intros x y a b Fx Fy A X Y. pose proof (Bmult_correct 53 1024 _ _ mode_NE x y) as M. fold (f64_mul x y) in M.
  assert (U : Rabs (rnd64 (B2R x * B2R y)) <= bpow radix2 (a + b)).
  { apply rnd_abs_le; [lia|]. rewrite Rabs_mult, bpow_plus. apply Rmult_le_compat; auto using Rabs_pos. }
  rewrite Rlt_bool_true in M by (apply (below_emax _ (a + b)); [exact U|lia]). destruct M as (M1 & M2 & _). rewrite M1, M2, Fx, Fy. auto.
Qed.

Lemma div_abs : forall (x y : b64) a b, is_finite x = true -> is_finite y = true -> (-1074 <= a - b <= 1000)%Z ->
  Rabs (B2R x) <= bpow radix2 a -> bpow radix2 b <= Rabs (B2R y) ->
  is_finite (f64_div x y) = true /\ B2R (f64_div x y) = rnd64 (B2R x / B2R y) /\ Rabs (B2R (f64_div x y)) <= bpow radix2 (a - b).
Proof.
  intros x y a b Fx Fy A X Y. pose proof (bpow_gt_0 radix2 b) as Pb.
  assert (Ny : B2R y <> 0). { intros E. rewrite E, Rabs_R0 in Y. lra. }
  pose proof (Bdiv_correct 53 1024 _ _ mode_NE x y Ny) as M. fold (f64_div x y) in M.
  assert (U : Rabs (rnd64 (B2R x / B2R y)) <= bpow radix2 (a - b)).
  { apply rnd_abs_le; [lia|]. unfold Rdiv. rewrite Rabs_mult, Rabs_inv. unfold Zminus. rewrite bpow_plus, bpow_opp.
    apply Rmult_le_compat; auto using Rabs_pos; [|apply Rinv_le; auto]. left. apply Rinv_0_lt_compat. lra. }
  rewrite Rlt_bool_true in M by (apply (below_emax _ (a - b)); [exact U|lia]). destruct M as (M1 & M2 & _). rewrite M1, M2, Fx. auto.
Qed.

Lemma ofZ_abs : forall k a, (0 <= a <= 1000)%Z -> Rabs (IZR k) <= bpow radix2 a ->
  is_finite (f64_ofZ k) = true /\ B2R (f64_ofZ k) = rnd64 (IZR k) /\ Rabs (B2R (f64_ofZ k)) <= bpow radix2 a.
Proof.
  intros k a A K. unfold f64_ofZ, f64. pose proof (binary_normalize_correct 53 1024 _ _ mode_NE k 0 false) as M. cbn zeta in M.
  assert (E : F2R (beta := radix2) {| Fnum := k; Fexp := 0 |} = IZR k).
  { unfold F2R. cbn [Fnum Fexp]. change (bpow radix2 0) with 1. lra. }
  rewrite E in M. assert (U : Rabs (rnd64 (IZR k)) <= bpow radix2 a) by (apply rnd_abs_le; [lia|exact K]).
  rewrite Rlt_bool_true in M by (apply (below_emax _ a); [exact U|lia]). destruct M as (M1 & M2 & _). rewrite M1. auto.
Qed.

Lemma int_fmt : forall k, (Z.abs k <= 2 ^ 53)%Z -> fmt64 (IZR k).
Proof.
  intros k K. pose proof (multiple_format (Z.abs k) 0 ltac:(lia) ltac:(lia)) as H. change (bpow radix2 0) with 1 in H. rewrite Rmult_1_r in H.
  destruct (Z.abs_eq_or_opp k) as [E|E]; rewrite E in H; [exact H|]. rewrite <- (Ropp_involutive (IZR k)), <- opp_IZR. apply generic_format_opp. exact H.
Qed.

Lemma ofZ_int : forall k, (Z.abs k <= 2 ^ 53)%Z -> is_finite (f64_ofZ k) = true /\ B2R (f64_ofZ k) = IZR k.
Proof.
  intros k K. destruct (ofZ_abs k 53 ltac:(lia)) as (F & E & _).
  - rewrite <- abs_IZR, <- (IZR_Zpower radix2) by lia. apply IZR_le. exact K.
  - split; [exact F|]. rewrite E. apply rnd_fmt, int_fmt, K.
Qed.

(** int() of a finite float truncates. *)
Lemma b64_int_trunc : forall x : b64, is_finite x = true -> b64_int x = Ok (Ztrunc (B2R x)).
Proof.
  intros [s|s| |s m e B] F; try discriminate F; cbn [b64_int B2R].
  - rewrite Ztrunc_IZR. reflexivity.
  - f_equal. unfold F2R. cbn [Fnum Fexp].
    assert (P : Ztrunc (IZR (Zpos m) * bpow radix2 e) = (if (0 <=? e)%Z then Zpos m * 2 ^ e else Zpos m / 2 ^ (- e))%Z).
    { destruct (Z.leb_spec 0 e) as [E|E].
      - rewrite <- (IZR_Zpower radix2) by exact E. rewrite <- mult_IZR, Ztrunc_IZR. reflexivity.
      - rewrite Ztrunc_floor by (apply Rmult_le_pos; [apply IZR_le; lia|apply bpow_ge_0]).
        replace e with (- (- e))%Z at 1 by lia. rewrite bpow_opp, <- (IZR_Zpower radix2) by lia.
        change (IZR (Zpos m) * / IZR (radix2 ^ (- e))) with (IZR (Zpos m) / IZR (radix2 ^ (- e))).
        rewrite Zfloor_div; [reflexivity|]. change (radix2 ^ (- e))%Z with (2 ^ (- e))%Z. pose proof (Z.pow_pos_nonneg 2 (- e)). lia. }
    destruct s; cbn [cond_Zopp].
    + rewrite <- P. change (Zneg m) with (- Zpos m)%Z. rewrite opp_IZR, Ropp_mult_distr_l_reverse. rewrite Ztrunc_opp. reflexivity.
    + rewrite P. reflexivity.
Qed.

(** Comparisons of finite floats. *)
Lemma leb_R : forall x y : b64, is_finite x = true -> is_finite y = true -> Bleb x y = true <-> B2R x <= B2R y.
Proof.
  intros x y Fx Fy. rewrite Bleb_rank by (apply finite_not_nan; assumption). rewrite Z.leb_le. rewrite !B2R_rank by assumption.
  pose proof bpowm_pos. split; intros H'; [apply Rmult_le_compat_r; [lra|apply IZR_le; exact H']|].
  apply le_IZR. apply Rmult_le_reg_r with (2 := H'). assumption.
Qed.
Lemma ltb_R : forall x y : b64, is_finite x = true -> is_finite y = true -> Bltb x y = true <-> B2R x < B2R y.
Proof.
  intros x y Fx Fy. rewrite Bltb_rank by (apply finite_not_nan; assumption). rewrite Z.ltb_lt. rewrite !B2R_rank by assumption.
  pose proof bpowm_pos. split; intros H'; [apply Rmult_lt_compat_r; [lra|apply IZR_lt; exact H']|].
  apply lt_IZR. apply Rmult_lt_reg_r with (2 := H'). assumption.
Qed.
Lemma eqb_R : forall x y : b64, is_finite x = true -> is_finite y = true -> Beqb x y = true <-> B2R x = B2R y.
Proof.
  intros x y Fx Fy. rewrite Beqb_rank by (apply finite_not_nan; assumption). rewrite Z.eqb_eq. rewrite !B2R_rank by assumption.
  pose proof bpowm_pos. split; intros H'; [rewrite H'; reflexivity|]. apply eq_IZR. apply Rmult_eq_reg_r with (1 := H'). lra.
Qed.

(** Floats that are zero or not tiny are multiples of a power of two. *)
Lemma fmt_multiple : forall x e, fmt64 x -> (-1022 <= e)%Z -> bpow radix2 e <= Rabs x -> exists k, x = IZR k * bpow radix2 (e - 52).
Proof.
  intros x e G E X. unfold generic_format, F2R in G. cbn [Fnum Fexp] in G. set (c := cexp radix2 (SpecFloat.fexp 53 1024) x) in *.
  assert (C : (e - 52 <= c)%Z).
  { unfold c, cexp, SpecFloat.fexp, SpecFloat.emin. assert (e < mag radix2 x)%Z by (apply mag_gt_bpow; exact X). lia. }
  exists (Ztrunc (scaled_mantissa radix2 (SpecFloat.fexp 53 1024) x) * radix2 ^ (c - (e - 52)))%Z.
  rewrite mult_IZR, IZR_Zpower by lia. rewrite Rmult_assoc, <- bpow_plus. replace (c - (e - 52) + (e - 52))%Z with c by lia. exact G.
Qed.

Definition gridlike (e : Z) (x : b64) : Prop := is_finite x = true /\ 0 <= B2R x /\ (B2R x = 0 \/ bpow radix2 e <= B2R x).

Lemma gridlike_diff : forall e (x y : b64), (-1022 <= e)%Z -> gridlike e x -> gridlike e y -> B2R x < B2R y -> bpow radix2 (e - 52) <= B2R y - B2R x.
Proof.
  intros e x y E (Fx & Px & Gx) (Fy & Py & Gy) L. destruct Gy as [Gy|Gy]; [lra|].
  assert (Le : bpow radix2 (e - 52) <= bpow radix2 e) by (apply bpow_le; lia).
  destruct Gx as [Gx|Gx]; [rewrite Gx; lra|].
  destruct (fmt_multiple (B2R x) e (generic_format_B2R 53 1024 x) E) as (i & Ei); [rewrite Rabs_pos_eq; assumption|].
  destruct (fmt_multiple (B2R y) e (generic_format_B2R 53 1024 y) E) as (j & Ej); [rewrite Rabs_pos_eq; assumption|].
  rewrite Ei, Ej in *. pose proof (bpow_gt_0 radix2 (e - 52)) as P. apply Rmult_lt_reg_r in L; [|exact P]. apply lt_IZR in L.
  rewrite <- Rmult_minus_distr_r, <- minus_IZR. rewrite <- (Rmult_1_l (bpow radix2 (e - 52))) at 1. apply Rmult_le_compat_r; [lra|]. apply IZR_le. lia.
Qed.
