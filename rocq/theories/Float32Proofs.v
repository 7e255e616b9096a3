(** * Differences of float32 values *)

From Coq Require Import Reals Lra.
From Flocq Require Import Core IEEE754.BinarySingleNaN.
From Verif Require Import Base Num Float64 Float64Proofs.
Local Open Scope Z_scope.

Notation rnd32 := (round radix2 (SpecFloat.fexp 24 128) (round_mode mode_NE)).

(** Widening is exact. *)
Lemma widen : forall y : b32, is_finite y = true ->
  is_finite (f32_to_f64 y) = true /\ B2R (f32_to_f64 y) = B2R y.
Proof.
  intros [s|s| |s m e H] F; try discriminate; [auto|].
  cbn [f32_to_f64].
  pose proof (abs_B2R_lt_emax 24 128 (B754_finite s m e H)) as Hb.
  pose proof (binary_normalize_correct 53 1024 _ _ mode_NE (cond_Zopp s (Zpos m)) e s) as Hn. cbn zeta in Hn.
  change (F2R {| Fnum := cond_Zopp s (Zpos m); Fexp := e |}) with (B2R (B754_finite (prec:=24) (emax:=128) s m e H)) in Hn.
  assert (G : generic_format radix2 (SpecFloat.fexp 53 1024) (B2R (B754_finite (prec:=24) (emax:=128) s m e H))).
  { apply generic_inclusion_mag with (SpecFloat.fexp 24 128); [|apply generic_format_B2R].
    intros _. unfold SpecFloat.fexp, SpecFloat.emin. lia. }
  rewrite (round_generic radix2 _ _ _ G) in Hn. rewrite Rlt_bool_true in Hn.
  - destruct Hn as (N1 & N2 & _). auto.
  - apply Rlt_trans with (1 := Hb). apply bpow_lt. lia.
Qed.

Lemma narrow : forall x : b64, is_f32 x -> is_finite x = true ->
  is_finite (f64_to_f32 x) = true /\ B2R (f64_to_f32 x) = B2R x.
Proof.
  intros x S F. unfold is_f32, store32 in S.
  assert (is_finite (f64_to_f32 x) = true).
  { destruct (f64_to_f32 x); auto; cbn in S; rewrite <- S in F; discriminate. }
  split; auto. destruct (widen _ H) as [_ W]. rewrite S in W. auto.
Qed.

Lemma rnd32_le : forall x y, (x <= y)%R -> (rnd32 x <= rnd32 y)%R.
Proof. intros. apply round_le; auto with typeclass_instances. apply fexp_correct. reflexivity. Qed.

(** Smallest positive float32. *)
Definition f32_tiny : b32 := @B754_finite 24 128 false 1 (-149) eq_refl.

(** A float32 value is a whole multiple of 2^-149. *)
Lemma grid32 : forall y : b32, exists k, B2R y = (IZR k * bpow radix2 (-149))%R.
Proof.
  intros [s|s| |s m e H]; try (exists 0; cbn; lra).
  assert (E : -149 <= e).
  { pose proof H as H'. unfold SpecFloat.bounded in H'. apply andb_prop in H'. destruct H' as [H' _].
    unfold SpecFloat.canonical_mantissa in H'. apply Zeq_bool_eq in H'.
    unfold SpecFloat.fexp, SpecFloat.emin in H'. lia. }
  exists (cond_Zopp s (Zpos m) * 2 ^ (e + 149)). cbn [B2R]. unfold F2R. cbn [Fnum Fexp].
  rewrite mult_IZR. change 2 with (radix_val radix2). rewrite IZR_Zpower by lia.
  rewrite Rmult_assoc, <- bpow_plus. f_equal. f_equal. lia.
Qed.

(** The possible outcomes of a float32 difference. *)
Lemma sub32_cases : forall a b : b32, is_finite a = true -> is_finite b = true ->
  (is_finite (Bminus mode_NE a b) = true /\ B2R (Bminus mode_NE a b) = rnd32 (B2R a - B2R b)) \/
  (exists s, Bminus mode_NE a b = B754_infinity s /\ Bsign a = s /\ Bsign b = negb s /\
     (0 < Rabs (B2R a - B2R b))%R).
Proof.
  intros a b Fa Fb. pose proof (Bminus_correct 24 128 _ _ mode_NE a b Fa Fb) as H.
  destruct (Rlt_bool_spec (Rabs (rnd32 (B2R a - B2R b))) (bpow radix2 128)) as [L|L].
  - left. destruct H as (H1 & H2 & _). auto.
  - right. destruct H as [H1 H2]. exists (Bsign a). split.
    + cbn in H1.
      destruct (Bminus mode_NE a b); cbn in H1; inversion H1. reflexivity.
    + split; auto. split; [rewrite H2, negb_involutive; auto|].
      destruct (Req_dec (B2R a - B2R b) 0) as [E|E]; [|apply Rabs_pos_lt; auto].
      exfalso. rewrite E, round_0, Rabs_R0 in L by auto with typeclass_instances.
      assert (0 < bpow radix2 128)%R by apply bpow_gt_0. lra.
Qed.

Lemma sign32_pos : forall a : b32, Bsign a = false -> (0 <= B2R a)%R.
Proof. intros [s|s| |s m e H] S; cbn in *; try lra. subst s. apply F2R_ge_0. cbn. lia. Qed.
Lemma sign32_neg : forall a : b32, Bsign a = true -> (B2R a <= 0)%R.
Proof. intros [s|s| |s m e H] S; cbn in *; try lra. subst s. apply F2R_le_0. cbn. lia. Qed.

Section Sub.
Variables x y : b64.
Hypothesis Hx : is_f32 x.
Hypothesis Hy : is_f32 y.
Hypothesis Fx : is_finite x = true.
Hypothesis Fy : is_finite y = true.

Lemma sub32_not_nan : not_nan (f32_sub x y).
Proof.
  destruct (narrow x Hx Fx) as [Na _], (narrow y Hy Fy) as [Nb _].
  unfold f32_sub. destruct (sub32_cases _ _ Na Nb) as [[F _]|(s & E & _)].
  - apply finite_not_nan. apply widen; auto.
  - rewrite E. reflexivity.
Qed.

Lemma rank0 : rank f64_zero = 0. Proof. reflexivity. Qed.

Lemma sub32_sign : (0 < rank (f32_sub x y) <-> rank y < rank x) /\ (rank (f32_sub x y) = 0 <-> rank x = rank y).
Proof.
  destruct (narrow x Hx Fx) as [Na Ba], (narrow y Hy Fy) as [Nb Bb].
  assert (T : rank x < rank y \/ rank x = rank y \/ rank y < rank x) by lia.
  assert (G : (rank y < rank x -> 0 < rank (f32_sub x y)) /\ (rank x = rank y -> rank (f32_sub x y) = 0) /\
              (rank x < rank y -> rank (f32_sub x y) < 0)).
  2:{ destruct G as (G1 & G2 & G3). destruct T as [T|[T|T]]; [specialize (G3 T)|specialize (G2 T)|specialize (G1 T)]; lia. }
  clear T. unfold f32_sub. set (a := f64_to_f32 x) in *. set (b := f64_to_f32 y) in *.
  pose proof RINF_pos as RP.
  destruct (sub32_cases a b Na Nb) as [[F E]|(s & E & Sa & Sb & Nz)].
  - destruct (widen _ F) as [WF WE]. set (d := f32_to_f64 (Bminus mode_NE a b)) in *.
    destruct (grid32 a) as (ka & Ka). destruct (grid32 b) as (kb & Kb).
    assert (Q : (0 < bpow radix2 (-149))%R) by apply bpow_gt_0.
    assert (TT : B2R f32_tiny = (1 * bpow radix2 (-149))%R) by reflexivity.
    assert (Tg : generic_format radix2 (SpecFloat.fexp 24 128) (bpow radix2 (-149))).
    { replace (bpow radix2 (-149)) with (B2R f32_tiny) by lra. apply generic_format_B2R. }
    assert (Lt : forall p q : b32, (B2R p < B2R q)%R -> (bpow radix2 (-149) <= B2R q - B2R p)%R).
    { intros p q L. destruct (grid32 p) as (kp & Kp). destruct (grid32 q) as (kq & Kq). rewrite Kp, Kq in *.
      assert (kp < kq). { apply lt_IZR. apply Rmult_lt_reg_r with (1 := Q). auto. }
      assert (IZR kp + 1 <= IZR kq)%R. { rewrite <- plus_IZR. apply IZR_le. lia. } nra. }
    split; [|split]; intros L.
    + apply rank_lt_R in L; auto. rewrite <- Ba, <- Bb in L. apply Lt in L.
      apply rnd32_le in L. rewrite round_generic in L by auto with typeclass_instances.
      rewrite <- rank0. apply rank_lt_R; auto. cbn [B2R f64_zero]. rewrite WE, E. lra.
    + apply rank_eq_R in L; auto. rewrite <- Ba, <- Bb in L.
      rewrite <- rank0. apply rank_eq_R; auto. cbn [B2R f64_zero]. rewrite WE, E, L, Rminus_diag_eq by auto.
      apply round_0; auto with typeclass_instances.
    + apply rank_lt_R in L; auto. rewrite <- Ba, <- Bb in L. apply Lt in L.
      rewrite <- rank0. apply rank_lt_R; auto. cbn [B2R f64_zero]. rewrite WE, E.
      assert (L' : (B2R a - B2R b <= - bpow radix2 (-149))%R) by lra.
      apply rnd32_le in L'. rewrite (round_generic radix2 (SpecFloat.fexp 24 128) _ (- bpow radix2 (-149))) in L'.
      2:{ apply generic_format_opp; auto. } lra.
  - rewrite E. cbn [f32_to_f64].
    destruct s; cbn in Sb.
    + assert (B2R x < B2R y)%R.
      { rewrite <- Ba, <- Bb. apply sign32_neg in Sa. apply sign32_pos in Sb.
        destruct (Req_dec (B2R a) (B2R b)); [|lra]. exfalso. rewrite H, Rminus_diag_eq, Rabs_R0 in Nz by auto. lra. }
      apply rank_lt_R in H; auto. rewrite rank_ninf. lia.
    + assert (B2R y < B2R x)%R.
      { rewrite <- Ba, <- Bb. apply sign32_pos in Sa. apply sign32_neg in Sb.
        destruct (Req_dec (B2R a) (B2R b)); [|lra]. exfalso. rewrite H, Rminus_diag_eq, Rabs_R0 in Nz by auto. lra. }
      apply rank_lt_R in H; auto. rewrite rank_pinf. lia.
Qed.
End Sub.

(** Subtracting more from less gives less. *)
Lemma sub32_anti : forall x x' y z : b64, is_f32 x -> is_f32 x' -> is_f32 y -> is_f32 z ->
  is_finite x = true -> is_finite x' = true -> is_finite y = true -> is_finite z = true ->
  rank x <= rank x' -> rank y <= rank z -> rank z <= rank x -> rank (f32_sub x z) <= rank (f32_sub x' y).
Proof.
  intros x x' y z Hx Hx' Hy Hz Fx Fx' Fy Fz LX L PS.
  destruct (narrow x Hx Fx) as [Na Ba], (narrow x' Hx' Fx') as [Na' Ba'],
    (narrow y Hy Fy) as [Nb Bb], (narrow z Hz Fz) as [Nc Bc].
  pose proof (rank_bounds _ (sub32_not_nan x z Hx Hz Fx Fz)) as Bd. pose proof RINF_pos as RP.
  unfold f32_sub in *. set (a := f64_to_f32 x) in *. set (b := f64_to_f32 y) in *. set (c := f64_to_f32 z) in *.
  set (a' := f64_to_f32 x') in *.
  pose proof (Bminus_correct 24 128 _ _ mode_NE a c Na Nc) as HC.
  pose proof (Bminus_correct 24 128 _ _ mode_NE a' b Na' Nb) as HB.
  apply rank_le_R in L; auto. apply rank_le_R in PS; auto. apply rank_le_R in LX; auto.
  rewrite <- ?Ba, <- ?Ba', <- ?Bb, <- ?Bc in *.
  assert (M : (0 <= rnd32 (B2R a - B2R c) <= rnd32 (B2R a' - B2R b))%R).
  { split; [|apply rnd32_le; lra].
    replace 0%R with (rnd32 0) by (apply round_0; auto with typeclass_instances). apply rnd32_le. lra. }
  destruct (Rlt_bool_spec (Rabs (rnd32 (B2R a' - B2R b))) (bpow radix2 128)) as [LB|LB].
  - destruct HB as (B1 & B2 & _). rewrite Rlt_bool_true in HC.
    2:{ rewrite Rabs_pos_eq in * by lra. lra. }
    destruct HC as (C1 & C2 & _). destruct (widen _ B2) as [W1 W2], (widen _ C2) as [W3 W4].
    apply rank_le_R; auto. rewrite W2, W4, B1, C1. lra.
  - destruct HB as [B1 B2].
    assert (E : Bminus mode_NE a' b = B754_infinity (Bsign a')).
    { cbn in B1. destruct (Bminus mode_NE a' b); cbn in B1; inversion B1. reflexivity. }
    rewrite E. cbn [f32_to_f64]. destruct (Bsign a') eqn:Sa; [|rewrite rank_pinf; lia].
    exfalso. apply sign32_neg in Sa. symmetry in B2. apply Bool.negb_true_iff in B2. apply sign32_pos in B2.
    assert (B2R a' - B2R b = 0)%R by lra. rewrite H, round_0, Rabs_R0 in LB by auto with typeclass_instances.
    assert (0 < bpow radix2 128)%R by apply bpow_gt_0. lra.
Qed.
