(** * Numbers in filters *)

From Coq Require Import Reals Lra String.
From Flocq Require Import Core.Core IEEE754.BinarySingleNaN.
From Verif Require Import Base Num Float64 BluespotModel FilterModel FilterEvalModel FilterEvalSpec.
Local Open Scope Z_scope.
Local Open Scope list_scope.

Lemma dec_app : forall ds a, fold_left (fun a c => 10 * a + (c - 48)) (digits ds) a = a * 10 ^ Z.of_nat (length ds) + natural ds.
Proof.
  induction ds as [|d ds IH]; intros a; cbn [digits map fold_left natural length]; [cbn; lia|].
  change (map (Z.add 48) ds) with (digits ds). rewrite IH, Nat2Z.inj_succ, Z.pow_succ_r by lia. ring.
Qed.
Lemma dec_digits : forall ds, dec (digits ds) = natural ds.
Proof. intros. unfold dec. rewrite dec_app. lia. Qed.
Lemma digits_app : forall a b, digits (a ++ b) = digits a ++ digits b.
Proof. intros. apply map_app. Qed.
Lemma natural_app : forall a b, natural (a ++ b) = natural a * 10 ^ Z.of_nat (length b) + natural b.
Proof.
  induction a as [|d a IH]; intros b; cbn [app natural]; [lia|]. rewrite IH, app_length, Nat2Z.inj_add, Z.pow_add_r by lia. ring.
Qed.
Lemma natural_pos : forall ds, (forall d, In d ds -> 0 <= d <= 9) -> 0 <= natural ds.
Proof.
  induction ds as [|d ds IH]; intros H; cbn [natural]; [lia|]. specialize (IH (fun x Hx => H x (or_intror Hx))).
  specialize (H d (or_introl eq_refl)). assert (0 <= 10 ^ Z.of_nat (length ds)) by (apply Z.pow_nonneg; lia). nia.
Qed.

Lemma big : (IZR (10 ^ 300) <= bpow radix2 1000)%R.
Proof. rewrite <- IZR_Zpower by lia. apply IZR_le. vm_compute. discriminate. Qed.

(** Numbers below 10^300 do not overflow. *)
Lemma no_overflow : forall r, (0 <= r < IZR (10 ^ 300))%R ->
  Rlt_bool (Rabs (round radix2 (FLT_exp (-1074) 53) (Znearest (fun n => negb (Z.even n))) r)) (bpow radix2 1024) = true.
Proof.
  intros r [L U]. apply Rlt_bool_true. apply Rle_lt_trans with (bpow radix2 1000); [|apply bpow_lt; lia].
  apply abs_round_le_generic; auto with typeclass_instances.
  - apply generic_format_bpow. cbn. lia.
  - rewrite Rabs_pos_eq by exact L. pose proof big. lra.
Qed.

Lemma closest_int : forall z, 0 <= z -> (IZR z < IZR (10 ^ 300))%R -> closest (IZR z) (f64_ofZ z).
Proof.
  intros z N H. unfold f64_ofZ, f64.
  pose proof (binary_normalize_correct 53 1024 _ _ mode_NE z 0 false) as C.
  assert (E : F2R (Float radix2 z 0) = IZR z) by (unfold F2R; cbn; lra).
  rewrite E in C. cbv zeta in C.
  match type of C with (if ?b then _ else _) => assert (b = true) as Eb by (apply no_overflow; split; [apply IZR_le; exact N|exact H]); rewrite Eb in C end.
  destruct C as (C1 & C2 & _). split; [exact C2|exact C1].
Qed.

Lemma closest_ratio : forall p q, (IZR (Zpos p) / IZR (Zpos q) < IZR (10 ^ 300))%R -> closest (IZR (Zpos p) / IZR (Zpos q)) (b64_ratio p q).
Proof.
  intros p q H. unfold b64_ratio. pose proof (proj2 (Bdiv_correct_aux 53 1024 _ _ mode_NE false p 0 false q 0)) as C.
  generalize (proj1 (Bdiv_correct_aux 53 1024 _ _ mode_NE false p 0 false q 0)). intros V. cbv zeta in C.
  assert (E : forall n, F2R (Float radix2 (cond_Zopp false (Zpos n)) 0) = IZR (Zpos n)) by (intros; unfold F2R; cbn; lra).
  rewrite !E in C.
  match type of C with (if ?b then _ else _) => assert (b = true) as Eb; [|rewrite Eb in C] end.
  - apply no_overflow. split; [|exact H]. apply Rmult_le_pos; [apply IZR_le; lia|]. apply Rlt_le, Rinv_0_lt_compat, IZR_lt. lia.
  - destruct C as (C1 & C2 & _). split; [unfold finite64; rewrite is_finite_SF2B; exact C2|rewrite B2R_SF2B; exact C1].
Qed.

Lemma pow10 : forall n, (0 < n)%nat -> Zpos (10 ^ Pos.of_nat n) = 10 ^ Z.of_nat n.
Proof. intros n H. rewrite Pos2Z.inj_pow. f_equal. lia. Qed.

Lemma closest_zero : closest 0 f64_zero.
Proof. split; [reflexivity|]. cbn [B2R f64_zero]. rewrite round_0; auto with typeclass_instances. Qed.

Lemma closest_literal : forall ip fp, (forall d, In d (ip ++ fp) -> 0 <= d <= 9) -> fp <> [] ->
  (decimal ip (Some fp) < IZR (10 ^ 300))%R -> closest (decimal ip (Some fp)) (float_literal (digits ip) (digits fp)).
Proof.
  intros ip fp D NE H. unfold float_literal. rewrite <- digits_app, dec_digits. unfold digits. rewrite map_length.
  assert (L : (0 < length fp)%nat) by (destruct fp; [congruence|cbn; lia]).
  assert (P : (0 < IZR (10 ^ Z.of_nat (length fp)))%R) by (apply IZR_lt, Z.pow_pos_nonneg; lia).
  assert (V : decimal ip (Some fp) = (IZR (natural (ip ++ fp)) / IZR (10 ^ Z.of_nat (length fp)))%R).
  { unfold decimal. rewrite natural_app, plus_IZR, mult_IZR. field. lra. }
  rewrite V in *. pose proof (natural_pos _ D) as N. destruct (natural (ip ++ fp)) as [|p|p]; [|..|lia].
  - unfold Rdiv. rewrite Rmult_0_l. apply closest_zero.
  - rewrite <- (pow10 _ L) in *. apply closest_ratio. exact H.
Qed.

(** ** Comparing does not depend on the sign of zero *)
Lemma same_value : forall x y : b64, finite64 x -> finite64 y -> B2R x = B2R y ->
  x = y \/ exists s s', x = B754_zero s /\ y = B754_zero s'.
Proof.
  intros [s|s| |s m e B] [s'|s'| |s' m' e' B']; unfold finite64; cbn [is_finite]; try discriminate; intros _ _ E.
  - right. eauto.
  - exfalso. cbn [B2R] in E. symmetry in E. apply eq_0_F2R in E. cbn in E. destruct s'; discriminate.
  - exfalso. cbn [B2R] in E. apply eq_0_F2R in E. cbn in E. destruct s; discriminate.
  - left. apply (B2R_inj 53 1024); auto.
Qed.

Lemma compares_same : forall o x x' y y', (x = x' \/ exists s s', x = B754_zero s /\ x' = B754_zero s') ->
  (y = y' \/ exists s s', y = B754_zero s /\ y' = B754_zero s') -> compares o x y -> compares o x' y'.
Proof.
  intros o x x' y y' X Y H. destruct X as [<-|(s & s' & -> & ->)], Y as [<-|(r & r' & -> & ->)]; [exact H|..];
    destruct o; cbn [compares] in *; unfold lt64, le64, eq64 in *; try (destruct s, s'); try (destruct r, r'); try exact H;
    try (destruct x; exact H); try (destruct y; exact H).
Qed.
