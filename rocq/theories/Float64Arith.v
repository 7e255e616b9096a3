(** * More facts about binary64 arithmetic *)

From Coq Require Import Reals Lra.
From Flocq Require Import Core IEEE754.BinarySingleNaN.
From Verif Require Import Base Num Float64 Float64Proofs.
Local Open Scope Z_scope.

Lemma sub_add_opp : forall x y : b64, f64_sub x y = f64_add x (Bopp y).
Proof. intros [sx|sx| |sx mx ex Hx] [sy|sy| |sy my ey Hy]; reflexivity. Qed.

Lemma rank_opp : forall x : b64, rank (Bopp x) = - rank x.
Proof.
  intros [s|s| |s m e H]; cbn [Bopp rank]; try reflexivity.
  - destruct s; cbn [negb]; rewrite ?Z.opp_involutive; reflexivity.
  - destruct s; cbn [negb SpecFloat.cond_Zopp]; ring.
Qed.

Lemma opp_finite : forall x : b64, is_finite x = true -> is_finite (Bopp x) = true.
Proof. intros [s|s| |s m e H]; auto. Qed.

Lemma opp_not_nan : forall x : b64, not_nan x -> not_nan (Bopp x).
Proof. intros [s|s| |s m e H]; auto. Qed.

Lemma sub_not_nan : forall x c : b64, not_nan x -> is_finite c = true -> not_nan (f64_sub x c).
Proof. intros. rewrite sub_add_opp. apply add_not_nan; auto. apply opp_finite; auto. Qed.

Lemma sub_self_rank : forall c : b64, is_finite c = true -> rank (f64_sub c c) = 0.
Proof.
  intros c H. rewrite sub_add_opp. pose proof RINF_pos.
  assert (E : (B2R c + B2R (Bopp c))%R = 0%R) by (rewrite B2R_Bopp; lra).
  assert (P : (0 < emax64)%R) by apply bpow_gt_0.
  destruct (add_cases c (Bopp c) H (opp_finite _ H)) as [[F B]|[[_ B]|[_ B]]];
    rewrite E, rnd64_0 in B; try lra.
  rewrite B2R_rank in B by auto. pose proof bpowm_pos.
  apply Rmult_integral in B. destruct B as [B|B]; [apply eq_IZR in B; auto | lra].
Qed.

Lemma sub_mono : forall x y c : b64, not_nan x -> not_nan y -> is_finite c = true ->
  rank x <= rank y -> rank (f64_sub x c) <= rank (f64_sub y c).
Proof. intros. rewrite !sub_add_opp. apply add_mono; auto. apply opp_finite; auto. Qed.

Lemma sub_pos_lt : forall x c : b64, not_nan x -> is_finite c = true ->
  0 < rank (f64_sub x c) -> rank c < rank x.
Proof.
  intros x c Hx Hc H. destruct (Z_lt_le_dec (rank c) (rank x)) as [L|L]; auto.
  pose proof (sub_mono x c c Hx (finite_not_nan _ Hc) Hc L). rewrite sub_self_rank in H0 by auto. lia.
Qed.

(** Adding a possibly infinite non-negative number. *)
Lemma add_nonneg : forall x d : b64, not_nan x -> not_nan d -> 0 <= rank x -> 0 <= rank d ->
  not_nan (f64_add x d) /\ 0 <= rank (f64_add x d).
Proof.
  intros x d Hx Hd Px Pd. pose proof RINF_pos.
  destruct (not_nan_cases d Hd) as [F|[E|E]].
  - split; [apply add_not_nan; auto|]. pose proof (add_infl x d Hx F Pd). lia.
  - subst. destruct (not_nan_cases x Hx) as [F|[E|E]]; subst.
    + destruct x as [s|s| |s m e B]; try discriminate; (split; [reflexivity | cbn -[RINF]; lia]).
    + split; [reflexivity | cbn -[RINF]; lia].
    + rewrite rank_ninf in Px. lia.
  - subst. rewrite rank_ninf in Pd. lia.
Qed.
