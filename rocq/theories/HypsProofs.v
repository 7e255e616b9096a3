(** * Proofs about hypsometry *)

From Coq Require Import QArith Lqa Ascii String Decimal DecimalString DecimalZ DecimalFacts.
From Verif Require Import Base BaseProofs Num Dict LabelModel LabelSpec LabelProofs CompProofs BluespotProofs HypsModel HypsSpec.
Local Open Scope Z_scope.

(** ** Truncation *)

Lemma Qlt_inject : forall (q : Q) k, (q < inject_Z k)%Q <-> Qnum q < k * Zpos (Qden q).
Proof. intros [n d] k. unfold Qlt, inject_Z. cbn [Qnum Qden]. lia. Qed.
Lemma Qle_inject : forall (q : Q) k, (inject_Z k <= q)%Q <-> k * Zpos (Qden q) <= Qnum q.
Proof. intros [n d] k. unfold Qle, inject_Z. cbn [Qnum Qden]. lia. Qed.
Lemma Qgt_inject : forall (q : Q) k, (inject_Z k < q)%Q <-> k * Zpos (Qden q) < Qnum q.
Proof. intros [n d] k. unfold Qlt, inject_Z. cbn [Qnum Qden]. lia. Qed.
Lemma Qge_inject : forall (q : Q) k, (q <= inject_Z k)%Q <-> Qnum q <= k * Zpos (Qden q).
Proof. intros [n d] k. unfold Qle, inject_Z. cbn [Qnum Qden]. lia. Qed.

Lemma Q_int_spec : forall q k, Q_int q = Ok k ->
  (inject_Z (k - 1) < q < inject_Z (k + 1))%Q /\ (0 <= q -> inject_Z k <= q)%Q /\ (q <= 0 -> q <= inject_Z k)%Q.
Proof.
  intros q k H. unfold Q_int in H. injection H as H.
  rewrite Qlt_inject, Qgt_inject, Qle_inject, Qge_inject.
  pose proof (Z.quot_rem' (Qnum q) (Zpos (Qden q))) as E. rewrite H in E.
  assert (P : 0 < Zpos (Qden q)) by lia.
  destruct (Z.eq_dec (Qnum q) 0) as [Z0|Z0].
  - rewrite Z0 in *. rewrite Z.quot_0_l in H by lia. subst k. split; [lia|]. split; intros; lia.
  - destruct (Z.le_ge_cases 0 (Qnum q)) as [L|L].
    + pose proof (Z.rem_bound_pos _ _ L P). split; [nia|]. split; [intros _; nia|].
      intros G. change 0%Q with (inject_Z 0) in G. rewrite Qge_inject in G. lia.
    + assert (B : - Zpos (Qden q) < Z.rem (Qnum q) (Zpos (Qden q)) <= 0) by
        (pose proof (Z.rem_bound_pos (- Qnum q) (Zpos (Qden q)) ltac:(lia) P); rewrite Z.rem_opp_l in * by lia; lia).
      split; [nia|]. split; [|intros _; nia].
      intros G. change 0%Q with (inject_Z 0) in G. rewrite Qle_inject in G. lia.
Qed.

Lemma Q_int_mono : forall a b i j, (a <= b)%Q -> Q_int a = Ok i -> Q_int b = Ok j -> i <= j.
Proof.
  intros a b i j L A B. apply Q_int_spec in A. apply Q_int_spec in B.
  destruct A as ((A1 & A2) & A3 & A4). destruct B as ((B1 & B2) & B3 & B4).
  destruct (Qlt_le_dec a 0) as [N|P].
  - destruct (Qlt_le_dec b 0) as [N'|P'].
    + assert (inject_Z (i - 1) < inject_Z j)%Q.
      { eapply Qlt_le_trans; [exact A1|]. eapply Qle_trans; [exact L|]. apply B4. lra. }
      rewrite <- Zlt_Qlt in H. lia.
    + assert (i <= 0).
      { assert (X : (inject_Z (i - 1) < inject_Z 0)%Q) by (change (inject_Z 0) with 0%Q; lra).
        rewrite <- Zlt_Qlt in X. lia. }
      assert (0 <= j).
      { assert (X : (inject_Z 0 < inject_Z (j + 1))%Q) by (change (inject_Z 0) with 0%Q; lra).
        rewrite <- Zlt_Qlt in X. lia. }
      lia.
  - assert (X : (inject_Z i < inject_Z (j + 1))%Q).
    { eapply Qle_lt_trans; [apply A3; lra|]. lra. }
    rewrite <- Zlt_Qlt in X. lia.
Qed.

(** ** Counting *)

Lemma filter_and : forall {A} (p q : A -> bool) l, filter p (filter q l) = filter (fun x => q x && p x) l.
Proof.
  intros A p q l. induction l as [|x l IH]; cbn; auto.
  destruct (q x); cbn; [|auto]. destruct (p x); cbn; congruence.
Qed.

Lemma Qltb_lt : forall a b, Qltb a b = true <-> (a < b)%Q.
Proof.
  intros a b. unfold Qltb. rewrite negb_true_iff. split; intros H.
  - destruct (Qlt_le_dec a b) as [L|L]; auto. apply Qle_bool_iff in L. congruence.
  - destruct (Qle_bool b a) eqn:E; auto. apply Qle_bool_iff in E. lra.
Qed.
Lemma Qltb_ge : forall a b, Qltb a b = false <-> (b <= a)%Q.
Proof.
  intros a b. unfold Qltb. rewrite negb_false_iff. apply Qle_bool_iff.
Qed.

Lemma Qle_bool_lt : forall a b, Qle_bool a b = false <-> (b < a)%Q.
Proof. intros a b. rewrite <- Qltb_lt. unfold Qltb. destruct (Qle_bool a b); split; cbn; congruence. Qed.

Lemma bool_iff : forall a b : bool, (a = true <-> b = true) -> a = b.
Proof. intros [] [] H; auto; destruct H; auto; symmetry; auto. Qed.

Lemma between_step : forall zs a b c, (a <= b)%Q -> (b <= c)%Q ->
  (length (between a c zs) = length (between a b zs) + length (between b c zs))%nat.
Proof.
  intros zs a b c L1 L2. unfold between. induction zs as [|z zs IH]; cbn; auto.
  destruct (Qle_bool a z) eqn:E1; destruct (Qltb z c) eqn:E2; destruct (Qltb z b) eqn:E3; destruct (Qle_bool b z) eqn:E4;
    cbn; rewrite ?IH; try lia;
  repeat match goal with
  | H : Qle_bool _ _ = true |- _ => apply Qle_bool_iff in H
  | H : Qle_bool _ _ = false |- _ => apply Qle_bool_lt in H
  | H : Qltb _ _ = true |- _ => apply Qltb_lt in H
  | H : Qltb _ _ = false |- _ => apply Qltb_ge in H
  end; exfalso; lra.
Qed.

Lemma between_empty : forall zs a, between a a zs = [].
Proof.
  intros zs a. unfold between. induction zs as [|z zs IH]; cbn; auto.
  destruct (Qle_bool a z) eqn:E1; destruct (Qltb z a) eqn:E2; cbn; auto.
  apply Qle_bool_iff in E1. apply Qltb_lt in E2. exfalso; lra.
Qed.

Lemma between_ext : forall zs a a' b b', (a == a')%Q -> (b == b')%Q -> between a b zs = between a' b' zs.
Proof.
  intros zs a a' b b' E1 E2. apply filter_ext. intros z. apply bool_iff.
  rewrite !andb_true_iff, !Qle_bool_iff, !Qltb_lt, E1, E2. reflexivity.
Qed.

Lemma inject_S : forall i, (inject_Z (i + 1) == inject_Z i + 1)%Q.
Proof. intros i. rewrite inject_Z_plus. reflexivity. Qed.

Lemma inject_P : forall i, (inject_Z (i - 1) == inject_Z i - 1)%Q.
Proof. intros i. unfold Z.sub. rewrite inject_Z_plus. reflexivity. Qed.

Lemma zsum_app : forall a b, zsum (a ++ b) = zsum a + zsum b.
Proof. intros a b. unfold zsum. induction a as [|x a IH]; cbn; [reflexivity|]. rewrite IH. lia. Qed.

Lemma inject_nonneg : forall i, 0 <= i -> (0 <= inject_Z i)%Q.
Proof. intros i H. change 0%Q with (inject_Z 0). rewrite <- Zle_Qle. auto. Qed.
Lemma inject_pos : forall i, 0 < i -> (0 < inject_Z i)%Q.
Proof. intros i H. change 0%Q with (inject_Z 0). rewrite <- Zlt_Qlt. auto. Qed.

Lemma bins_total : forall zs lo w n, (0 < w)%Q ->
  zsum (map (fun i => Z.of_nat (length (between (lo + inject_Z i * w) (lo + inject_Z (i + 1) * w) zs))) (zseq 0 n)) =
  Z.of_nat (length (between lo (lo + inject_Z (Z.of_nat n) * w) zs)).
Proof.
  intros zs lo w n W. induction n as [|n IH].
  - cbn [zseq map]. rewrite (between_ext zs lo lo _ lo); [rewrite between_empty; reflexivity|reflexivity|].
    change (inject_Z (Z.of_nat 0)) with 0%Q. lra.
  - replace (S n) with (n + 1)%nat by lia. rewrite zseq_app, map_app, zsum_app, IH.
    cbn [zseq map]. unfold zsum at 1. cbn [fold_right].
    rewrite (between_step zs lo (lo + inject_Z (Z.of_nat n) * w) (lo + inject_Z (Z.of_nat (n + 1)) * w)).
    + replace (0 + Z.of_nat n + 1) with (Z.of_nat (n + 1)) by lia.
      replace (0 + Z.of_nat n) with (Z.of_nat n) by lia. lia.
    + pose proof (inject_nonneg (Z.of_nat n)). assert (0 <= inject_Z (Z.of_nat n))%Q by (apply H; lia). nra.
    + replace (Z.of_nat (n + 1)) with (Z.of_nat n + 1) by lia. rewrite inject_S. nra.
Qed.

(** ** The histogram of one bluespot in exact arithmetic *)

Lemma edge_Q : forall n lo hi w i, 1 <= n -> 0 <= i <= n -> (hi == lo + inject_Z n * w)%Q ->
  (edge QOps n lo hi i == lo + inject_Z i * w)%Q.
Proof.
  intros n lo hi w i Hn Hi E. unfold edge. destruct (Z.eqb_spec i n) as [->|N]; auto.
  cbn [nadd nmul nofZ ndiv nsub QOps]. pose proof (inject_pos n) as P. assert (P' : (0 < inject_Z n)%Q) by (apply P; lia).
  assert (X : ((hi - lo) / inject_Z n == w)%Q).
  { rewrite E. field. lra. }
  rewrite X. lra.
Qed.

Theorem exact_histogram : forall zs zmin zmax resolution, (0 < resolution)%Q ->
  least zs zmin -> greatest zs zmax ->
  exists b counts, histogram_bins QOps Q_int zmin zmax resolution = Ok b /\
    np_histogram QOps zs (b_num b) (b_lower b) (b_upper b) = Ok counts /\
    histogram_of zs resolution (mkHist counts b) /\
    (exists k, b_lower b == inject_Z k * resolution)%Q /\
    (zmax < b_upper b)%Q /\ (b_lower b < zmin + resolution)%Q /\ (zmin < b_lower b + resolution)%Q /\ (0 <= zmin -> b_lower b <= zmin)%Q /\
    (b_upper b <= (if Qlt_le_dec zmax 0 then zmax + 2 * resolution else zmax + resolution))%Q /\
    zsum counts = Z.of_nat (length (between (b_lower b) (b_upper b) zs)).
Proof.
  intros zs zmin zmax w W [Imin Lmin] [Imax Lmax].
  unfold histogram_bins. cbn [ndiv nmul nadd nofZ QOps].
  destruct (Q_int (zmin * (inject_Z 1 / w))) as [m| |] eqn:Em; try discriminate.
  destruct (Q_int (zmax * (inject_Z 1 / w))) as [M| |] eqn:EM; try discriminate.
  assert (Zs : (zmin * (inject_Z 1 / w) == zmin / w)%Q) by (change (inject_Z 1) with 1%Q; field; lra).
  assert (ZS : (zmax * (inject_Z 1 / w) == zmax / w)%Q) by (change (inject_Z 1) with 1%Q; field; lra).
  assert (Hmm : (zmin <= zmax)%Q) by auto.
  assert (Hm : m <= M).
  { eapply Q_int_mono; [|exact Em|exact EM]. rewrite Zs, ZS.
    apply Qmult_le_compat_r; auto. apply Qinv_le_0_compat. lra. }
  pose proof (Q_int_spec _ _ Em) as ((A1 & A2) & A3 & A4).
  pose proof (Q_int_spec _ _ EM) as ((B1 & B2) & B3 & B4).
  rewrite Zs in A1, A2, A3, A4. rewrite ZS in B1, B2, B3, B4.
  assert (Ez : (zmin / w * w == zmin)%Q) by (field; lra).
  assert (EZ : (zmax / w * w == zmax)%Q) by (field; lra).
  set (z' := (zmin / w)%Q) in *. set (Z' := (zmax / w)%Q) in *.
  cbn [bind]. set (n := M - m + 1).
  do 2 eexists. split; [reflexivity|]. cbn [b_num b_lower b_upper].
  set (lo := (inject_Z m * w)%Q). set (hi := (lo + inject_Z n * w)%Q).
  assert (Ehi : (hi == inject_Z (M + 1) * w)%Q).
  { unfold hi, lo, n. replace (M - m + 1) with (M + 1 + - m) by lia. rewrite (inject_Z_plus (M + 1)), inject_Z_opp. lra. }
  assert (Hn : 1 <= n) by (unfold n; lia).
  assert (Pn : (0 < inject_Z n)%Q) by (apply inject_pos; lia).
  assert (Hlt : (lo < hi)%Q) by (unfold hi; nra).
  assert (Hup : (zmax < hi)%Q).
  { rewrite Ehi, <- EZ. apply Qmult_lt_compat_r; auto. }
  unfold np_histogram. destruct (Z.ltb_spec n 1); [lia|]. cbn [nltb neqb nleb QOps].
  replace (Qltb hi lo) with false by (symmetry; apply Qltb_ge; lra).
  replace (Qeq_bool lo hi) with false.
  2:{ symmetry. destruct (Qeq_bool lo hi) eqn:E; auto. apply Qeq_bool_iff in E. lra. }
  split; [reflexivity|].
  assert (BIN : forall i, 0 <= i < n ->
    filter (fun x => Qle_bool (edge QOps n lo hi i) x && ((i =? n - 1) || Qltb x (edge QOps n lo hi (i + 1))))
      (filter (fun x => Qle_bool lo x && Qle_bool x hi) zs) =
    between (lo + inject_Z i * w) (lo + inject_Z (i + 1) * w) zs).
  { intros i Hi. rewrite filter_and. apply filter_ext_in. intros x Hx. apply bool_iff.
    pose proof (edge_Q n lo hi w i Hn ltac:(lia) (Qeq_refl _)) as E1.
    pose proof (edge_Q n lo hi w (i + 1) Hn ltac:(lia) (Qeq_refl _)) as E2.
    rewrite !andb_true_iff, orb_true_iff, !Qle_bool_iff, !Qltb_lt, E1, E2, Z.eqb_eq.
    pose proof (Lmax x Hx) as Lx. assert (Pi : (0 <= inject_Z i)%Q) by (apply inject_nonneg; lia).
    split.
    - intros [[X1 X2] [X3 [X4|X4]]]; split; auto. subst i. replace (n - 1 + 1) with n by lia. fold hi. lra.
    - intros [X3 X4]. repeat split; auto; nra. }
  split; [|split; [|split; [|split; [|split; [|split; [|split]]]]]].
  - unfold histogram_of. cbn [h_bins h_counts b_resolution b_num b_lower b_upper].
    split; [reflexivity|]. split; [exact Hn|]. rewrite map_length, pyrange_from0, zseq_length. split; [lia|].
    split; [reflexivity|]. intros i Hi. rewrite nth_error_map, nth_error_zseq by lia. cbn [option_map].
    rewrite Z2Nat.id by lia. cbn [Z.add]. rewrite BIN by lia. reflexivity.
  - exists m. reflexivity.
  - exact Hup.
  - unfold lo. rewrite <- Ez. rewrite inject_P in A1. nra.
  - unfold lo. rewrite <- Ez. rewrite inject_S in A2. nra.
  - intros P. unfold lo. assert (P' : (0 <= z')%Q).
    { unfold z'. apply Qle_shift_div_l; auto. lra. }
    specialize (A3 P'). rewrite <- Ez. apply Qmult_le_compat_r; lra.
  - rewrite Ehi. rewrite inject_S. destruct (Qlt_le_dec zmax 0) as [N|P].
    + rewrite inject_P in B1. rewrite <- EZ. nra.
    + assert (P' : (0 <= Z')%Q).
      { unfold Z'. apply Qle_shift_div_l; auto. lra. }
      specialize (B3 P'). rewrite <- EZ. nra.
  - rewrite pyrange_from0.
    rewrite (map_ext_in _ (fun i => Z.of_nat (length (between (lo + inject_Z i * w) (lo + inject_Z (i + 1) * w) zs)))).
    + rewrite bins_total by auto. rewrite Z2Nat.id by lia. reflexivity.
    + intros i Hi. apply in_zseq in Hi. f_equal. f_equal. apply BIN. lia.
Qed.
