(** * The float32 edges of the bins enclose every cell *)

From Coq Require Import QArith Reals Lra Lia.
From Flocq Require Import Core Relative IEEE754.BinarySingleNaN.
From Verif Require Import Base BaseProofs Num Float64 Float64Proofs Float64Arith Float32Proofs HypsModel HypsSpec HypsProofs NetworkFloatThms
  FloatFinishModel RoundProofs OverflowProofs FinishArith FinishBins FinishLevel FinishStats.
Local Open Scope R_scope.

Notation fmt32 := (generic_format radix2 (SpecFloat.fexp 24 128)).

Lemma store32_R : forall x : b64, is_finite x = true -> Rabs (B2R x) <= bpow radix2 127 ->
  is_finite (store32 x) = true /\ B2R (store32 x) = rnd32 (B2R x).
Proof.
  intros [s|s| |s m e H] F B; try discriminate F.
  - split; [reflexivity|]. cbn [B2R]. rewrite round_0; [reflexivity|apply valid_rnd_round_mode].
  - unfold store32. cbn [f64_to_f32].
    pose proof (binary_normalize_correct 24 128 _ _ mode_NE (cond_Zopp s (Zpos m)) e s) as Hn. cbn zeta in Hn.
    change (F2R {| Fnum := cond_Zopp s (Zpos m); Fexp := e |}) with (B2R (B754_finite (prec:=53) (emax:=1024) s m e H)) in Hn.
    rewrite Rlt_bool_true in Hn.
    + destruct Hn as (N1 & N2 & _). destruct (widen _ N2) as [W1 W2]. split; [exact W1|]. rewrite W2. exact N1.
    + apply Rle_lt_trans with (bpow radix2 127); [|apply bpow_lt; lia]. apply abs_round_le_generic; auto with typeclass_instances.
      * apply fexp_correct. reflexivity.
      * apply generic_format_bpow. unfold SpecFloat.fexp, SpecFloat.emin. lia.
Qed.

Lemma f32_fmt : forall x : b64, is_f32 x -> is_finite x = true -> fmt32 (B2R x).
Proof. intros x S F. destruct (narrow x S F) as [_ E]. rewrite <- E. apply generic_format_B2R. Qed.

Lemma rnd32_fmt : forall x, fmt32 x -> rnd32 x = x.
Proof. intros x H. apply round_generic; auto with typeclass_instances. Qed.

Lemma fmt_rnd32 : forall x, fmt32 (rnd32 x).
Proof. intros x. apply generic_format_round; auto with typeclass_instances. apply fexp_correct. reflexivity. Qed.

Lemma rnd32_near : forall x a, fmt32 a -> Rabs (rnd32 x - x) <= Rabs (a - x).
Proof.
  intros x a A. pose proof (@round_N_pt radix2 (SpecFloat.fexp 24 128) (fexp_correct 24 128 eq_refl) (fun x => negb (Z.even x)) x) as [_ N].
  apply N. exact A.
Qed.

(** Two float32 values are a relative 2^-24 apart. *)
Lemma gap32 : forall a b, fmt32 a -> fmt32 b -> 0 <= a -> a < b -> a + a * bpow radix2 (-24) <= b /\ 0 < b.
Proof.
  intros a b A B P L. split; [|lra]. assert (V : Valid_exp (SpecFloat.fexp 24 128)) by (apply fexp_correct; reflexivity).
  apply Rle_trans with (a + ulp radix2 (SpecFloat.fexp 24 128) a).
  - apply Rplus_le_compat_l. pose proof (@ulp_FLT_gt radix2 (-149) 24 eq_refl a) as U. rewrite Rabs_pos_eq in U by exact P. apply Rlt_le. exact U.
  - pose proof (@succ_le_lt radix2 (SpecFloat.fexp 24 128) V a b A B L) as S. rewrite succ_eq_pos in S by exact P. exact S.
Qed.

Lemma near_low : forall a y, fmt32 a -> 0 <= a -> 0 <= y <= a * (1 + bpow radix2 (-40)) -> rnd32 y <= a.
Proof.
  intros a y A P [Y0 Y]. destruct (Rle_or_lt (rnd32 y) a) as [L|L]; [exact L|exfalso].
  assert (Ya : a < y). { apply Rnot_le_lt. intros H. apply rnd32_le in H. rewrite (rnd32_fmt a A) in H. lra. }
  pose proof (rnd32_near y a A) as N. rewrite (Rabs_left1 (a - y)) in N by lra. apply Rabs_le_inv in N.
  destruct (gap32 a (rnd32 y) A (fmt_rnd32 y) P L) as [G _].
  assert (E40 : bpow radix2 (-40) = / 1099511627776) by (cbn; lra). assert (E24 : bpow radix2 (-24) = / 16777216) by (cbn; lra). rewrite E40, E24 in *. lra.
Qed.

Lemma near_high : forall a y, fmt32 a -> 0 <= a -> a * (1 - bpow radix2 (-40)) <= y -> a <= rnd32 y.
Proof.
  intros a y A P Y. destruct (Rle_or_lt a (rnd32 y)) as [L|L]; [exact L|exfalso].
  assert (Ya : y < a). { apply Rnot_le_lt. intros H. apply rnd32_le in H. rewrite (rnd32_fmt a A) in H. lra. }
  assert (E40 : bpow radix2 (-40) = / 1099511627776) by (cbn; lra). assert (E24 : bpow radix2 (-24) = / 16777216) by (cbn; lra).
  assert (R0 : 0 <= rnd32 y). { rewrite <- (rnd32_fmt 0) by apply generic_format_0. apply rnd32_le. rewrite E40 in Y. nra. }
  pose proof (rnd32_near y a A) as N. rewrite (Rabs_pos_eq (a - y)) in N by lra. apply Rabs_le_inv in N.
  destruct (gap32 (rnd32 y) a (fmt_rnd32 y) A R0 L) as [G _].
  rewrite E40, E24 in *. lra.
Qed.

(** ** Counting with increasing edges *)
Definition ind (b : bool) : Z := if b then 1%Z else 0%Z.

Lemma zsum_cons : forall x l, zsum (x :: l) = (x + zsum l)%Z. Proof. reflexivity. Qed.

Lemma zsum_counts : forall {A} (P : Z -> A -> bool) is (data : list A), (forall x, In x data -> zsum (map (fun i => ind (P i x)) is) = 1%Z) ->
  zsum (map (fun i => Z.of_nat (length (filter (P i) data))) is) = Z.of_nat (length data).
Proof.
  intros A P is data. induction data as [|x data IH]; intros H.
  - cbn [filter length]. induction is as [|i is IH]; [reflexivity|]. cbn [map]. rewrite zsum_cons, IH; [reflexivity|]. intros x [].
  - assert (E : zsum (map (fun i => Z.of_nat (length (filter (P i) (x :: data)))) is) =
      (zsum (map (fun i => ind (P i x)) is) + zsum (map (fun i => Z.of_nat (length (filter (P i) data))) is))%Z).
    { clear. induction is as [|i is IH]; [reflexivity|]. cbn [map]. rewrite !zsum_cons, IH. cbn [filter]. destruct (P i x); cbn [length ind]; lia. }
    rewrite E, (H x (or_introl eq_refl)), IH by (intros y Hy; apply H; right; exact Hy). cbn [length]. lia.
Qed.

Lemma zseq_snoc : forall k a, zseq a (S k) = zseq a k ++ [(a + Z.of_nat k)%Z].
Proof.
  induction k as [|k IH]; intros a; [cbn; rewrite Z.add_0_r; reflexivity|]. cbn [zseq app] in *. f_equal. rewrite IH. f_equal. f_equal. lia.
Qed.

Lemma one_bin : forall (E : Z -> R) (le lt : Z -> bool) x n, (1 <= n)%Z -> (forall i, (0 <= i < n - 1)%Z -> E i <= E (i + 1)%Z) -> E 0%Z <= x ->
  (forall i, (0 <= i <= n)%Z -> le i = true <-> E i <= x) -> (forall i, (0 <= i <= n)%Z -> lt i = true <-> x < E i) ->
  zsum (map (fun i => ind (le i && ((i =? n - 1)%Z || lt (i + 1)%Z))) (zseq 0 (Z.to_nat n))) = 1%Z.
Proof.
  intros E le lt x n N M X HL HT.
  assert (LT : forall i, (0 <= i <= n)%Z -> lt i = negb (le i)).
  { intros i Hi. destruct (le i) eqn:A; destruct (lt i) eqn:B; try reflexivity; exfalso.
    - apply HL in A; auto. apply HT in B; auto. lra.
    - assert (~ E i <= x) by (intros H; apply HL in H; auto; congruence). assert (~ x < E i) by (intros H'; apply HT in H'; auto; congruence). lra. }
  assert (MO : forall i, (0 <= i < n - 1)%Z -> le (i + 1)%Z = true -> le i = true).
  { intros i Hi H. apply HL in H; [|lia]. apply HL; [lia|]. specialize (M i Hi). lra. }
  assert (L0 : le 0%Z = true) by (apply HL; [lia|exact X]).
  assert (PRE : forall k, (Z.of_nat k <= n - 1)%Z ->
    zsum (map (fun i => ind (le i && ((i =? n - 1)%Z || lt (i + 1)%Z))) (zseq 0 k)) = ind (negb (le (Z.of_nat k)))).
  { induction k as [|k IH]; intros Hk; [cbn [zseq map]; change (Z.of_nat 0) with 0%Z; rewrite L0; reflexivity|].
    rewrite zseq_snoc, map_app, zsum_app, IH by lia. cbn [map]. rewrite zsum_cons. change (zsum []) with 0%Z. rewrite Z.add_0_l.
    assert (Q : (Z.of_nat k =? n - 1)%Z = false) by (apply Z.eqb_neq; lia). rewrite Q. cbn [orb]. rewrite LT by lia.
    replace (Z.of_nat k + 1)%Z with (Z.of_nat (S k)) by lia.
    destruct (le (Z.of_nat (S k))) eqn:A.
    - assert (le (Z.of_nat k) = true) as -> by (apply MO; [lia|replace (Z.of_nat k + 1)%Z with (Z.of_nat (S k)) by lia; exact A]). reflexivity.
    - destruct (le (Z.of_nat k)); reflexivity. }
  replace (Z.to_nat n) with (S (Z.to_nat (n - 1))) by lia. rewrite zseq_snoc, map_app, zsum_app, PRE by lia.
  cbn [map]. rewrite zsum_cons. change (zsum []) with 0%Z. rewrite !Z2Nat.id, Z.add_0_l, Z.eqb_refl by lia. cbn [orb]. rewrite andb_true_r.
  destruct (le (n - 1)%Z); reflexivity.
Qed.

Lemma u53_val : u53 = / 9007199254740992. Proof. unfold u53. cbn. lra. Qed.

(** ** The bounds of the bins of a bluespot *)
Section Edges.
Variables w zmin zmax : b64.
Hypothesis Fw : is_finite w = true.
Hypothesis Wlo : bpow radix2 (-100) <= B2R w.
Hypothesis Whi : B2R w <= bpow radix2 100.
Hypothesis F0 : is_finite zmin = true.
Hypothesis F1 : is_finite zmax = true.
Hypothesis B0 : Rabs (B2R zmin) <= bpow radix2 126.
Hypothesis B1 : Rabs (B2R zmax) <= bpow radix2 126.
Hypothesis H0 : Rabs (B2R zmin) <= bpow radix2 40 * B2R w.
Hypothesis H1 : Rabs (B2R zmax) <= bpow radix2 40 * B2R w.
Hypothesis Le : B2R zmin <= B2R zmax.
Hypothesis Pz : 0 <= B2R zmin.
Variable b : @bins_info b64.
Hypothesis Eb : histogram_bins F64Ops b64_int zmin zmax w = Ok b.

Let s := f64_div (f64_ofZ 1) w.
Let n := nb w zmin zmax.
Let lo := B2R (b_lower b).
Let up := B2R (b_upper b).

Lemma bounds : b_num b = n /\ is_finite (b_lower b) = true /\ is_finite (b_upper b) = true /\ lo = rnd64 (IZR (m0 w zmin) * B2R w) /\
  Rabs (lo - IZR (m0 w zmin) * B2R w) <= eps * B2R w /\ Rabs (up - (IZR (m0 w zmin) + IZR n) * B2R w) <= 3 * eps * B2R w /\ lo < up /\
  (1 <= n <= 2 ^ 43)%Z /\ (0 <= m0 w zmin <= 2 ^ 41)%Z /\ up = rnd64 (lo + rnd64 (IZR n * B2R w)).
Proof.
  destruct (bins_ok w Fw Wlo Whi zmin zmax F0 F1 B0 B1 H0 H1 Le) as (b' & E & A1 & A2 & A3 & A4 & _ & _ & A5 & A6 & A7 & A8).
  assert (b' = b) by congruence. subst b'.
  destruct (m_facts w Fw Wlo Whi zmin zmax F0 F1 B0 B1 H0 H1 Le) as (M0 & M1 & N).
  split; [exact A1|]. split; [exact A3|]. split; [exact A4|]. split; [exact A5|]. split; [exact A6|]. split; [exact A7|]. split; [exact A8|]. split; [exact N|].
  split.
  - split; [|lia]. unfold m0. rewrite Ztrunc_floor.
    + apply Zfloor_lub. destruct (zs_facts w Fw Wlo Whi zmin F0 B0 H0) as (_ & -> & _). apply rnd_pos. apply Rmult_le_pos; [exact Pz|].
      apply (scale_facts w Fw Wlo Whi).
    + destruct (zs_facts w Fw Wlo Whi zmin F0 B0 H0) as (_ & -> & _). apply rnd_pos. apply Rmult_le_pos; [exact Pz|]. apply (scale_facts w Fw Wlo Whi).
  - pose proof Eb as Eb'. unfold histogram_bins in Eb'. apply bind_ok in Eb'. destruct Eb' as (k0 & K0 & Eb'). apply bind_ok in Eb'. destruct Eb' as (k1 & K1 & Eb').
    cbn [nmul ndiv nofZ F64Ops] in K0, K1, Eb'. destruct (zs_facts w Fw Wlo Whi zmin F0 B0 H0) as (Fz0 & _). destruct (zs_facts w Fw Wlo Whi zmax F1 B1 H1) as (Fz1 & _).
    rewrite (b64_int_trunc _ Fz0) in K0. rewrite (b64_int_trunc _ Fz1) in K1.
    assert (X0 : k0 = m0 w zmin) by (injection K0 as <-; reflexivity). assert (X1 : k1 = m1 w zmax) by (injection K1 as <-; reflexivity). subst k0 k1.
    assert (EB : b = mkBins (nb w zmin zmax) (f64_mul (f64_ofZ (m0 w zmin)) w) (f64_add (f64_mul (f64_ofZ (m0 w zmin)) w) (f64_mul (f64_ofZ (nb w zmin zmax)) w)) w) by (injection Eb' as <-; reflexivity).
    unfold up, lo. rewrite EB in *. cbn [b_lower b_upper b_num] in *.
    assert (WA : Rabs (B2R w) <= bpow radix2 100) by (pose proof (bpow_gt_0 radix2 (-100)); rewrite Rabs_pos_eq; lra).
    destruct (ofZ_int (nb w zmin zmax) ltac:(lia)) as [Fn En].
    destruct (mul_abs (f64_ofZ (nb w zmin zmax)) w 43 100 Fn Fw ltac:(lia)) as (Fk & Ek & Ak); [|exact WA|].
    { rewrite En, <- abs_IZR. change (bpow radix2 43) with (IZR (2 ^ 43)). apply IZR_le. unfold n in N. lia. }
    change (43 + 100)%Z with 143%Z in Ak. rewrite En in Ek.
    destruct (ofZ_int (m0 w zmin) ltac:(lia)) as [Fm Em].
    destruct (mul_abs (f64_ofZ (m0 w zmin)) w 41 100 Fm Fw ltac:(lia)) as (Fl & El & Al); [|exact WA|].
    { rewrite Em, <- abs_IZR. change (bpow radix2 41) with (IZR (2 ^ 41)). apply IZR_le. lia. }
    destruct (add_abs _ _ 144 Fl Fk ltac:(lia)) as (_ & -> & _); [eapply Rle_trans; [exact Al|apply bpow_le; lia]|eapply Rle_trans; [exact Ak|apply bpow_le; lia]|].
    rewrite Ek. reflexivity.
Qed.

Lemma w_pos' : 0 < B2R w. Proof. pose proof (bpow_gt_0 radix2 (-100)). lra. Qed.

Lemma lower_le : 0 <= lo <= B2R zmin * (1 + bpow radix2 (-40)).
Proof.
  destruct bounds as (_ & _ & _ & El & _ & _ & _ & _ & M & _). pose proof w_pos' as P.
  assert (P0 : 0 <= lo) by (rewrite El; apply rnd_pos; apply Rmult_le_pos; [apply IZR_le; lia|lra]). split; [exact P0|].
  destruct (Z.eq_dec (m0 w zmin) 0) as [E0|E0].
  { rewrite El, E0, Rmult_0_l, rnd64_0. apply Rmult_le_pos; [exact Pz|]. pose proof (bpow_gt_0 radix2 (-40)). lra. }
  destruct (zs_facts w Fw Wlo Whi zmin F0 B0 H0) as (_ & Et & _). fold s in Et.
  destruct (scale_facts w Fw Wlo Whi) as (_ & [S0 _] & Sw). fold s in S0, Sw. apply Rabs_le_inv in Sw.
  assert (Pt : 0 <= B2R zmin * B2R s) by (apply Rmult_le_pos; assumption).
  assert (T : IZR (m0 w zmin) <= rnd64 (B2R zmin * B2R s)).
  { unfold m0. fold s. rewrite Et. rewrite Ztrunc_floor by (apply rnd_pos; exact Pt). apply Zfloor_lb. }
  assert (M1' : 1 <= IZR (m0 w zmin)) by (apply IZR_le; lia).
  assert (G : / 2 <= B2R zmin * B2R s).
  { apply Rnot_lt_le. intros L. assert (X : Rabs (rnd64 (B2R zmin * B2R s)) <= bpow radix2 (-1)) by (apply rnd_abs_le; [lia|rewrite Rabs_pos_eq by exact Pt; change (bpow radix2 (-1)) with (/ 2); lra]).
    rewrite Rabs_pos_eq in X by (apply rnd_pos; exact Pt). change (bpow radix2 (-1)) with (/ 2) in X. lra. }
  destruct (rnd_rel (B2R zmin * B2R s)) as (e & He & R1).
  { right. rewrite Rabs_pos_eq by exact Pt. apply Rle_trans with (bpow radix2 (-1)); [apply bpow_le; lia|change (bpow radix2 (-1)) with (/ 2); lra]. }
  rewrite R1 in T. apply Rabs_le_inv in He.
  assert (Q : 0 <= IZR (m0 w zmin) * B2R w) by (apply Rmult_le_pos; lra).
  destruct (rnd_rel (IZR (m0 w zmin) * B2R w)) as (e' & He' & R2).
  { right. rewrite Rabs_pos_eq by exact Q. apply Rle_trans with (bpow radix2 (-100)); [apply bpow_le; lia|]. nra. }
  rewrite El, R2. apply Rabs_le_inv in He'. rewrite u53_val in *. replace (bpow radix2 (-40)) with (/ 1099511627776) by (cbn; lra).
  assert (T2 : IZR (m0 w zmin) * B2R w <= B2R zmin * (B2R s * B2R w) * (1 + e)) by nra.
  assert (T3 : B2R zmin * (B2R s * B2R w) <= B2R zmin * (1 + / 9007199254740992)) by (apply Rmult_le_compat_l; lra).
  assert (T4 : B2R zmin * (B2R s * B2R w) * (1 + e) <= B2R zmin * (1 + / 9007199254740992) * (1 + / 9007199254740992)).
  { apply Rmult_le_compat; [|lra|exact T3|lra]. apply Rmult_le_pos; lra. }
  apply Rle_trans with (B2R zmin * (1 + / 9007199254740992) * (1 + / 9007199254740992) * (1 + / 9007199254740992)).
  - apply Rmult_le_compat; [exact Q|lra|lra|lra].
  - lra.
Qed.

Lemma upper_ge : B2R zmax * (1 - bpow radix2 (-40)) <= up.
Proof.
  destruct bounds as (_ & _ & _ & El & _ & _ & _ & N & M & Eu). pose proof w_pos' as P.
  destruct (zs_facts w Fw Wlo Whi zmax F1 B1 H1) as (_ & Et & _). fold s in Et.
  destruct (m_facts w Fw Wlo Whi zmin zmax F0 F1 B0 B1 H0 H1 Le) as (_ & M1 & _).
  destruct (scale_facts w Fw Wlo Whi) as (_ & [S0 _] & Sw). fold s in S0, Sw. apply Rabs_le_inv in Sw.
  assert (Pm : 0 <= B2R zmax) by lra.
  assert (Pt : 0 <= B2R zmax * B2R s) by (apply Rmult_le_pos; assumption).
  assert (T : B2R zmax * B2R s < IZR (m1 w zmax) + 1).
  { apply Rnot_le_lt. intros L. rewrite <- plus_IZR in L. apply rnd64_le in L. rewrite (rnd_fmt (IZR _)) in L by (apply int_fmt; lia).
    unfold m1 in L. fold s in L. rewrite <- Et in L. assert (X : (Ztrunc (B2R (f64_mul zmax s)) + 1 <= Zfloor (B2R (f64_mul zmax s)))%Z) by (apply Zfloor_lub; exact L).
    rewrite Ztrunc_floor in X by (rewrite Et; apply rnd_pos; exact Pt). lia. }
  assert (Nm : IZR (m0 w zmin) + IZR n = IZR (m1 w zmax) + 1) by (unfold n, nb; rewrite <- !plus_IZR; f_equal; lia).
  assert (N1 : 1 <= IZR n) by (apply IZR_le; lia). assert (M0' : 0 <= IZR (m0 w zmin)) by (apply IZR_le; lia).
  assert (Rn : IZR n * B2R w * (1 - u53) <= rnd64 (IZR n * B2R w)).
  { destruct (rnd_rel (IZR n * B2R w)) as (e & He & ->).
    - right. rewrite Rabs_pos_eq by nra. apply Rle_trans with (bpow radix2 (-100)); [apply bpow_le; lia|]. nra.
    - apply Rabs_le_inv in He. apply Rmult_le_compat_l; [nra|lra]. }
  assert (Rl : IZR (m0 w zmin) * B2R w * (1 - u53) <= lo).
  { rewrite El. destruct (Z.eq_dec (m0 w zmin) 0) as [E0|E0]; [rewrite E0, Rmult_0_l, rnd64_0; lra|].
    assert (1 <= IZR (m0 w zmin)) by (apply IZR_le; lia).
    destruct (rnd_rel (IZR (m0 w zmin) * B2R w)) as (e & He & ->).
    - right. rewrite Rabs_pos_eq by nra. apply Rle_trans with (bpow radix2 (-100)); [apply bpow_le; lia|]. nra.
    - apply Rabs_le_inv in He. apply Rmult_le_compat_l; [nra|lra]. }
  set (x := lo + rnd64 (IZR n * B2R w)) in *.
  assert (U : u53 = / 9007199254740992) by exact u53_val.
  assert (Xl : (IZR (m1 w zmax) + 1) * B2R w * (1 - u53) <= x). { rewrite <- Nm. unfold x. lra. }
  assert (Xp : B2R w / 2 <= x). { assert (B2R w * (1 - u53) <= rnd64 (IZR n * B2R w)) by (rewrite U in *; nra). unfold x. pose proof (proj1 lower_le). rewrite U in *. lra. }
  destruct (rnd_rel x) as (e & He & R).
  { right. rewrite Rabs_pos_eq by lra. apply Rle_trans with (bpow radix2 (-101)); [apply bpow_le; lia|]. change (-101)%Z with (-100 + -1)%Z. rewrite bpow_plus. change (bpow radix2 (-1)) with (/ 2). lra. }
  rewrite Eu, R. apply Rabs_le_inv in He. rewrite U in *. replace (bpow radix2 (-40)) with (/ 1099511627776) by (cbn; lra).
  assert (S2 : / 2 <= B2R s * B2R w) by lra.
  assert (Z1 : B2R zmax * (B2R s * B2R w) <= (IZR (m1 w zmax) + 1) * B2R w). { rewrite <- Rmult_assoc. apply Rmult_le_compat_r; lra. }
  assert (Z2 : B2R zmax * (1 - / 9007199254740992) <= B2R zmax * (B2R s * B2R w)) by (apply Rmult_le_compat_l; lra).
  apply Rle_trans with (B2R zmax * (1 - / 9007199254740992) * (1 - / 9007199254740992) * (1 - / 9007199254740992)); [lra|].
  apply Rmult_le_compat; [|lra| |lra].
  - apply Rmult_le_pos; [|lra]. apply Rmult_le_pos; lra.
  - eapply Rle_trans; [|exact Xl]. apply Rmult_le_compat_r; lra.
Qed.

Lemma upper_small : up <= bpow radix2 127.
Proof.
  destruct bounds as (_ & _ & _ & _ & _ & Bu & _ & N & M & _). pose proof w_pos' as P.
  destruct (zs_facts w Fw Wlo Whi zmax F1 B1 H1) as (_ & Et & _ & Ez). fold s in Et, Ez.
  assert (Pt : 0 <= B2R (f64_mul zmax s)) by (rewrite Et; apply rnd_pos; apply Rmult_le_pos; [lra|apply (scale_facts w Fw Wlo Whi)]).
  assert (T : IZR (m1 w zmax) <= B2R (f64_mul zmax s)).
  { unfold m1. fold s. rewrite Ztrunc_floor by exact Pt. apply Zfloor_lb. }
  assert (Nm : IZR (m0 w zmin) + IZR n = IZR (m1 w zmax) + 1) by (unfold n, nb; rewrite <- !plus_IZR; f_equal; lia).
  rewrite Nm in Bu. apply Rabs_le_inv in Bu. apply Rabs_le_inv in Ez. apply Rabs_le_inv in B1. rewrite eps_val in *.
  assert (Q : IZR (m1 w zmax) * B2R w <= B2R (f64_mul zmax s) * B2R w) by (apply Rmult_le_compat_r; lra).
  assert (X : bpow radix2 127 = 2 * bpow radix2 126) by (change 127%Z with (1 + 126)%Z; rewrite bpow_plus; reflexivity).
  assert (Y : 4 * bpow radix2 100 <= bpow radix2 126) by (change 4 with (bpow radix2 2); rewrite <- bpow_plus; apply bpow_le; lia). lra.
Qed.

(** The edges in float64. *)
Let st := f64_div (f64_sub (b_upper b) (b_lower b)) (f64_ofZ n).

Lemma step_R : is_finite st = true /\ B2R w / 2 <= B2R st <= bpow radix2 128 /\ IZR n * B2R st <= (up - lo) * (1 + u53) * (1 + u53).
Proof.
  destruct bounds as (_ & Fl & Fu & _ & Bl & Bu & L & N & M & _). pose proof w_pos' as P. pose proof upper_small as US. pose proof (proj1 lower_le) as L0.
  assert (N1 : 1 <= IZR n) by (apply IZR_le; lia). pose proof (bpow_gt_0 radix2 127).
  destruct (sub_abs (b_upper b) (b_lower b) 127 Fu Fl ltac:(lia)) as (Fd & Ed & Ad); [rewrite Rabs_pos_eq; unfold up, lo in *; lra|rewrite Rabs_pos_eq; unfold up, lo in *; lra|].
  fold up lo in Ed. apply Rabs_le_inv in Bl. apply Rabs_le_inv in Bu. rewrite eps_val in *.
  assert (D0 : B2R w * 3 / 4 * IZR n <= up - lo) by nra.
  destruct (rnd_rel (up - lo)) as (e & He & Re).
  { right. rewrite Rabs_pos_eq by lra. apply Rle_trans with (bpow radix2 (-101)); [apply bpow_le; lia|]. change (-101)%Z with (-100 + -1)%Z. rewrite bpow_plus. change (bpow radix2 (-1)) with (/ 2). nra. }
  apply Rabs_le_inv in He. rewrite Re in Ed.
  destruct (ofZ_int n ltac:(lia)) as [Fn En].
  destruct (div_abs (f64_sub (b_upper b) (b_lower b)) (f64_ofZ n) 128 0 Fd Fn ltac:(lia)) as (Fs & Es & As).
  { exact Ad. } { rewrite En, Rabs_pos_eq by lra. exact N1. }
  fold st in Fs, Es, As. change (128 - 0)%Z with 128%Z in As. rewrite En, Ed in Es.
  set (q := (up - lo) * (1 + e) / IZR n) in *.
  assert (U : u53 = / 9007199254740992) by exact u53_val. rewrite U in *.
  assert (Qn : q * IZR n = (up - lo) * (1 + e)) by (unfold q; field; lra).
  assert (Ql : B2R w * 5 / 8 <= q).
  { apply Rmult_le_reg_r with (IZR n); [lra|]. rewrite Qn. nra. }
  destruct (rnd_rel q) as (e' & He' & Re').
  { right. rewrite Rabs_pos_eq by lra. apply Rle_trans with (bpow radix2 (-101)); [apply bpow_le; lia|]. change (-101)%Z with (-100 + -1)%Z. rewrite bpow_plus. change (bpow radix2 (-1)) with (/ 2). lra. }
  apply Rabs_le_inv in He'. rewrite U in He'. rewrite Es in *. rewrite Re' in *.
  split; [exact Fs|]. split.
  - split; [nra|]. apply Rabs_le_inv in As. apply As.
  - replace (IZR n * (q * (1 + e'))) with (q * IZR n * (1 + e')) by ring. rewrite Qn. apply Rmult_le_compat; [|lra| |lra].
    + apply Rmult_le_pos; lra.
    + apply Rmult_le_compat_l; lra.
Qed.

Definition edge64 (i : Z) : b64 := edge F64Ops n (b_lower b) (b_upper b) i.

Lemma edge_inner : forall i, (0 <= i < n)%Z -> is_finite (edge64 i) = true /\ B2R (edge64 i) = rnd64 (rnd64 (IZR i * B2R st) + lo) /\
  lo <= B2R (edge64 i) <= up.
Proof.
  intros i Hi. destruct bounds as (_ & Fl & Fu & _ & Bl & Bu & L & N & M & _). pose proof w_pos' as P. pose proof upper_small as US. pose proof (proj1 lower_le) as L0.
  destruct step_R as (Fs & [S1 S2] & S3). unfold edge64, edge. destruct (Z.eqb_spec i n); [lia|]. cbn [nadd nmul nofZ ndiv nsub F64Ops]. fold st.
  destruct (ofZ_int i ltac:(lia)) as [Fi Ei]. assert (I0 : 0 <= IZR i) by (apply IZR_le; lia).
  destruct (mul_abs (f64_ofZ i) st 43 128 Fi Fs ltac:(lia)) as (Fp & Ep & Ap).
  { rewrite Ei, Rabs_pos_eq by exact I0. change (bpow radix2 43) with (IZR (2 ^ 43)). apply IZR_le. lia. } { rewrite Rabs_pos_eq; lra. }
  rewrite Ei in Ep. change (43 + 128)%Z with 171%Z in Ap.
  destruct (add_abs (f64_mul (f64_ofZ i) st) (b_lower b) 171 Fp Fl ltac:(lia) Ap) as (Fa & Ea & _).
  { fold lo. rewrite Rabs_pos_eq by exact L0. apply Rle_trans with (bpow radix2 127); [lra|apply bpow_le; lia]. }
  fold lo in Ea. rewrite Ep in Ea. split; [exact Fa|]. split; [exact Ea|]. rewrite Ea.
  assert (Q0 : 0 <= rnd64 (IZR i * B2R st)) by (apply rnd_pos; apply Rmult_le_pos; lra).
  assert (fl : rnd64 lo = lo) by (apply rnd_fmt; apply generic_format_B2R). assert (fu : rnd64 up = up) by (apply rnd_fmt; apply generic_format_B2R).
  split; [rewrite <- fl at 1; apply rnd64_le; lra|]. rewrite <- fu. apply rnd64_le.
  destruct (Z.eq_dec i 0) as [->|I1]; [rewrite Rmult_0_l, rnd64_0; lra|].
  assert (I1' : 1 <= IZR i) by (apply IZR_le; lia). assert (In1 : IZR i <= IZR n - 1) by (rewrite <- minus_IZR; apply IZR_le; lia).
  destruct (rnd_rel (IZR i * B2R st)) as (e & He & ->).
  { right. rewrite Rabs_pos_eq by nra. apply Rle_trans with (bpow radix2 (-101)); [apply bpow_le; lia|]. change (-101)%Z with (-100 + -1)%Z. rewrite bpow_plus. change (bpow radix2 (-1)) with (/ 2). nra. }
  apply Rabs_le_inv in He. rewrite u53_val in *.
  assert (N43 : IZR n <= 8796093022208) by (apply IZR_le; lia).
  set (D := up - lo) in *. assert (Dp : 0 < D) by (unfold D; lra).
  assert (X : IZR i * B2R st <= D * (1 - / 8796093022208) * (1 + / 9007199254740992) * (1 + / 9007199254740992)).
  { assert (N1 : 1 <= IZR n) by (apply IZR_le; lia).
    apply Rmult_le_reg_r with (IZR n); [lra|]. apply Rle_trans with (IZR i * (D * (1 + / 9007199254740992) * (1 + / 9007199254740992))); [nra|].
    assert (IZR i <= IZR n * (1 - / 8796093022208)) by lra. nra. }
  assert (Y : IZR i * B2R st * (1 + e) <= D * (1 - / 8796093022208) * (1 + / 9007199254740992) * (1 + / 9007199254740992) * (1 + / 9007199254740992)).
  { apply Rmult_le_compat; [nra|lra|exact X|lra]. }
  apply Rle_trans with (D * 1 + lo); [|unfold D; lra]. apply Rplus_le_compat_r. eapply Rle_trans; [exact Y|]. rewrite !Rmult_assoc. apply Rmult_le_compat_l; lra.
Qed.

Lemma edge_last : is_finite (edge64 n) = true /\ B2R (edge64 n) = up.
Proof. unfold edge64, edge. rewrite Z.eqb_refl. split; [apply bounds|reflexivity]. Qed.

Lemma edge_first : B2R (edge64 0) = lo.
Proof.
  destruct bounds as (_ & _ & _ & _ & _ & _ & _ & N & _). destruct (edge_inner 0 ltac:(lia)) as (_ & -> & _). rewrite Rmult_0_l, rnd64_0, Rplus_0_l.
  apply rnd_fmt. apply generic_format_B2R.
Qed.

Lemma edge_range : forall i, (0 <= i <= n)%Z -> is_finite (edge64 i) = true /\ 0 <= B2R (edge64 i) <= bpow radix2 127.
Proof.
  intros i Hi. pose proof upper_small. pose proof (proj1 lower_le). destruct bounds as (_ & _ & _ & _ & _ & _ & L & _).
  destruct (Z.eq_dec i n) as [->|]; [destruct edge_last as [A ->]; split; [exact A|lra]|].
  destruct (edge_inner i ltac:(lia)) as (A & _ & B). split; [exact A|lra].
Qed.

Lemma edge_mono : forall i, (0 <= i < n)%Z -> B2R (edge64 i) <= B2R (edge64 (i + 1)).
Proof.
  intros i Hi. destruct (Z.eq_dec (i + 1) n) as [->|].
  - destruct edge_last as [_ ->]. apply edge_inner. exact Hi.
  - destruct (edge_inner i Hi) as (_ & -> & _). destruct (edge_inner (i + 1) ltac:(lia)) as (_ & -> & _).
    apply rnd64_le. apply Rplus_le_compat_r. apply rnd64_le. apply Rmult_le_compat_r; [pose proof w_pos'; destruct step_R as (_ & [A _] & _); lra|]. apply IZR_le. lia.
Qed.

Definition e32 (i : Z) : R := rnd32 (B2R (edge64 i)).

Lemma e32_R : forall i, (0 <= i <= n)%Z -> is_finite (store32 (edge64 i)) = true /\ B2R (store32 (edge64 i)) = e32 i.
Proof. intros i Hi. destruct (edge_range i Hi) as (A & B). apply store32_R; [exact A|rewrite Rabs_pos_eq; apply B]. Qed.

Hypothesis S0 : is_f32 zmin.
Hypothesis S1 : is_f32 zmax.

Lemma e32_first : e32 0 <= B2R zmin.
Proof. unfold e32. rewrite edge_first. apply near_low; [apply f32_fmt; assumption|exact Pz|apply lower_le]. Qed.

Lemma e32_last : B2R zmax <= e32 n.
Proof. unfold e32. destruct edge_last as [_ ->]. apply near_high; [apply f32_fmt; assumption|lra|apply upper_ge]. Qed.

(** Every value between the least and the greatest is counted. *)
Theorem counts_all : forall data counts, (forall z, In z data -> is_finite z = true /\ B2R zmin <= B2R z <= B2R zmax) ->
  np_histogram32 data (b_num b) (b_lower b) (b_upper b) = Ok counts -> zsum counts = Z.of_nat (length data).
Proof.
  intros data counts HD HC. destruct bounds as (Nb & Fl & Fu & _ & _ & _ & L & N & _). rewrite Nb in HC.
  destruct (histogram32_ok data n (b_lower b) (b_upper b) ltac:(lia) Fl Fu L) as (counts' & E & _ & _ & EC). rewrite HC in E. injection E as <-.
  pose proof e32_first as Lo. pose proof e32_last as Up.
  assert (Kp : filter (fun x => Bleb (store32 (b_lower b)) x && Bleb x (store32 (b_upper b))) data = data).
  { assert (G : forall z, In z data -> Bleb (store32 (b_lower b)) z && Bleb z (store32 (b_upper b)) = true).
    { intros z Hz. destruct (HD z Hz) as (Fz & A). apply andb_true_intro.
      pose proof upper_small as US. pose proof (proj1 lower_le) as LP.
      destruct (store32_R (b_lower b) Fl) as [FL EL]; [fold lo; rewrite Rabs_pos_eq by exact LP; fold lo up in L; lra|].
      destruct (store32_R (b_upper b) Fu) as [FU EU]; [fold up; rewrite Rabs_pos_eq; fold lo up in L; lra|].
      unfold e32 in Lo, Up. rewrite edge_first in Lo. destruct edge_last as [_ El']. rewrite El' in Up.
      split; apply leb_R; auto; [rewrite EL; fold lo|rewrite EU; fold up]; lra. }
    clear - G. induction data as [|z data IH]; [reflexivity|]. cbn [filter]. rewrite (G z (or_introl eq_refl)), IH; [reflexivity|]. intros y Hy. apply G. right. exact Hy. }
  rewrite Kp in EC. rewrite EC. apply (zsum_counts (fun i x => Bleb (store32 (edge64 i)) x && ((i =? n - 1)%Z || Bltb x (store32 (edge64 (i + 1)))))).
  intros z Hz. destruct (HD z Hz) as (Fz & A).
  apply (one_bin e32 (fun i => Bleb (store32 (edge64 i)) z) (fun i => Bltb z (store32 (edge64 i))) (B2R z)).
  - lia.
  - intros i Hi. apply rnd32_le. apply edge_mono. lia.
  - lra.
  - intros i Hi. destruct (e32_R i Hi) as [Fe <-]. apply leb_R; assumption.
  - intros i Hi. destruct (e32_R i Hi) as [Fe <-]. apply ltb_R; assumption.
Qed.

(** ** Whether the lowest value is in the first bin *)
Theorem first_count : forall data counts, In zmin data -> np_histogram32 data (b_num b) (b_lower b) (b_upper b) = Ok counts ->
  (n = 1%Z \/ B2R zmin < e32 1) -> exists c rest, counts = c :: rest /\ (1 <= c)%Z.
Proof.
  intros data counts HD HC HN. destruct bounds as (Nb & Fl & Fu & _ & _ & _ & L & N & _). rewrite Nb in HC.
  destruct (histogram32_ok data n (b_lower b) (b_upper b) ltac:(lia) Fl Fu L) as (counts' & E & _ & _ & EC). rewrite HC in E. injection E as <-.
  destruct (Z.to_nat n) as [|k] eqn:EN; [lia|]. cbn [zseq map] in EC. eexists _, _. split; [exact EC|].
  pose proof e32_first as Lo. pose proof e32_last as Up. pose proof upper_small as US. pose proof (proj1 lower_le) as LP. fold lo up in L.
  destruct (store32_R (b_lower b) Fl) as [FL EL]; [fold lo; rewrite Rabs_pos_eq by exact LP; lra|].
  destruct (store32_R (b_upper b) Fu) as [FU EU]; [fold up; rewrite Rabs_pos_eq; lra|].
  match goal with |- context [filter ?P (filter ?Q data)] => assert (I : In zmin (filter P (filter Q data))) end.
  { apply filter_In. split; [apply filter_In; split; [exact HD|]|]; apply andb_true_intro.
    - unfold e32 in Lo, Up. rewrite edge_first in Lo. destruct edge_last as [_ El']. rewrite El' in Up.
      split; apply leb_R; auto; [rewrite EL; fold lo|rewrite EU; fold up]; lra.
    - fold (edge64 0) (edge64 (0 + 1)). split; [destruct (e32_R 0 ltac:(lia)) as [Fe Ee]; apply leb_R; auto; rewrite Ee; exact Lo|].
      destruct HN as [HN|HN]; [rewrite HN; reflexivity|]. apply Bool.orb_true_iff. right. destruct (e32_R (0 + 1) ltac:(lia)) as [Fe Ee]. apply ltb_R; auto. rewrite Ee. exact HN. }
  destruct (filter _ _); [destruct I|]. cbn [length]. lia.
Qed.

Lemma rel_bounds : IZR (m0 w zmin) * B2R w * (1 - u53) <= lo <= IZR (m0 w zmin) * B2R w * (1 + u53) /\
  (IZR (m0 w zmin) + IZR n) * B2R w * (1 - 2 * u53) <= up.
Proof.
  destruct bounds as (_ & _ & _ & El & _ & _ & _ & N & M & Eu). pose proof w_pos' as P.
  assert (N1 : 1 <= IZR n) by (apply IZR_le; lia). assert (M0' : 0 <= IZR (m0 w zmin)) by (apply IZR_le; lia).
  assert (Rn : IZR n * B2R w * (1 - u53) <= rnd64 (IZR n * B2R w)).
  { destruct (rnd_rel (IZR n * B2R w)) as (e & He & ->).
    - right. rewrite Rabs_pos_eq by nra. apply Rle_trans with (bpow radix2 (-100)); [apply bpow_le; lia|]. nra.
    - apply Rabs_le_inv in He. apply Rmult_le_compat_l; [nra|lra]. }
  assert (Rl : IZR (m0 w zmin) * B2R w * (1 - u53) <= lo <= IZR (m0 w zmin) * B2R w * (1 + u53)).
  { rewrite El. destruct (Z.eq_dec (m0 w zmin) 0) as [E0|E0]; [rewrite E0, Rmult_0_l, rnd64_0; lra|].
    assert (1 <= IZR (m0 w zmin)) by (apply IZR_le; lia).
    destruct (rnd_rel (IZR (m0 w zmin) * B2R w)) as (e & He & ->).
    - right. rewrite Rabs_pos_eq by nra. apply Rle_trans with (bpow radix2 (-100)); [apply bpow_le; lia|]. nra.
    - apply Rabs_le_inv in He. split; (apply Rmult_le_compat_l; [nra|lra]). }
  split; [exact Rl|]. set (x := lo + rnd64 (IZR n * B2R w)) in *.
  assert (U : u53 = / 9007199254740992) by exact u53_val.
  assert (Xl : (IZR (m0 w zmin) + IZR n) * B2R w * (1 - u53) <= x) by (unfold x; lra).
  assert (Xp : B2R w / 2 <= x). { assert (B2R w * (1 - u53) <= rnd64 (IZR n * B2R w)) by (rewrite U in *; nra). unfold x. pose proof (proj1 lower_le). rewrite U in *. lra. }
  destruct (rnd_rel x) as (e & He & R).
  { right. rewrite Rabs_pos_eq by lra. apply Rle_trans with (bpow radix2 (-101)); [apply bpow_le; lia|]. change (-101)%Z with (-100 + -1)%Z. rewrite bpow_plus. change (bpow radix2 (-1)) with (/ 2). lra. }
  rewrite Eu, R. apply Rabs_le_inv in He. rewrite U in *.
  apply Rle_trans with ((IZR (m0 w zmin) + IZR n) * B2R w * (1 - / 9007199254740992) * (1 - / 9007199254740992)).
  - rewrite (Rmult_assoc ((IZR (m0 w zmin) + IZR n) * B2R w)). apply Rmult_le_compat_l; [|lra]. apply Rmult_le_pos; lra.
  - apply Rmult_le_compat; [|lra|exact Xl|lra]. apply Rmult_le_pos; [|lra]. apply Rmult_le_pos; lra.
Qed.

Lemma step_low : (up - lo) * (1 - u53) * (1 - u53) <= IZR n * B2R st.
Proof.
  destruct bounds as (_ & Fl & Fu & _ & Bl & Bu & L & N & M & _). pose proof w_pos' as P. pose proof upper_small as US. pose proof (proj1 lower_le) as L0.
  assert (N1 : 1 <= IZR n) by (apply IZR_le; lia). pose proof (bpow_gt_0 radix2 127).
  destruct (sub_abs (b_upper b) (b_lower b) 127 Fu Fl ltac:(lia)) as (Fd & Ed & Ad); [rewrite Rabs_pos_eq; unfold up, lo in *; lra|rewrite Rabs_pos_eq; unfold up, lo in *; lra|].
  fold up lo in Ed. apply Rabs_le_inv in Bl. apply Rabs_le_inv in Bu. rewrite eps_val in *.
  assert (D0 : B2R w * 3 / 4 * IZR n <= up - lo) by nra.
  destruct (rnd_rel (up - lo)) as (e & He & Re).
  { right. rewrite Rabs_pos_eq by lra. apply Rle_trans with (bpow radix2 (-101)); [apply bpow_le; lia|]. change (-101)%Z with (-100 + -1)%Z. rewrite bpow_plus. change (bpow radix2 (-1)) with (/ 2). nra. }
  apply Rabs_le_inv in He. rewrite Re in Ed.
  destruct (ofZ_int n ltac:(lia)) as [Fn En].
  destruct (div_abs (f64_sub (b_upper b) (b_lower b)) (f64_ofZ n) 128 0 Fd Fn ltac:(lia)) as (Fs & Es & As).
  { exact Ad. } { rewrite En, Rabs_pos_eq by lra. exact N1. }
  fold st in Es. rewrite En, Ed in Es.
  set (q := (up - lo) * (1 + e) / IZR n) in *.
  assert (U : u53 = / 9007199254740992) by exact u53_val. rewrite U in *.
  assert (Qn : q * IZR n = (up - lo) * (1 + e)) by (unfold q; field; lra).
  assert (Ql : B2R w * 5 / 8 <= q).
  { apply Rmult_le_reg_r with (IZR n); [lra|]. rewrite Qn. nra. }
  destruct (rnd_rel q) as (e' & He' & Re').
  { right. rewrite Rabs_pos_eq by lra. apply Rle_trans with (bpow radix2 (-101)); [apply bpow_le; lia|]. change (-101)%Z with (-100 + -1)%Z. rewrite bpow_plus. change (bpow radix2 (-1)) with (/ 2). lra. }
  apply Rabs_le_inv in He'. rewrite U in He'. rewrite Es, Re'.
  replace (IZR n * (q * (1 + e'))) with (q * IZR n * (1 + e')) by ring. rewrite Qn. apply Rmult_le_compat; [|lra| |lra].
  - apply Rmult_le_pos; lra.
  - apply Rmult_le_compat_l; lra.
Qed.

Lemma edge_one : (2 <= n)%Z -> (IZR (m0 w zmin) + 1) * B2R w * (1 - bpow radix2 (-40)) <= B2R (edge64 1).
Proof.
  intros N2. destruct bounds as (_ & _ & _ & _ & _ & _ & L & N & M & _). pose proof w_pos' as P. pose proof (proj1 lower_le) as L0.
  destruct rel_bounds as [[l1 l2] u1]. pose proof step_low as SL. destruct step_R as (_ & [S1' _] & _).
  destruct (edge_inner 1 ltac:(lia)) as (_ & -> & _). rewrite Rmult_1_l.
  assert (fs : rnd64 (B2R st) = B2R st) by (apply rnd_fmt; apply generic_format_B2R). rewrite fs.
  destruct (rnd_rel (B2R st + lo)) as (e & He & ->).
  { right. rewrite Rabs_pos_eq by lra. apply Rle_trans with (bpow radix2 (-101)); [apply bpow_le; lia|]. change (-101)%Z with (-100 + -1)%Z. rewrite bpow_plus. change (bpow radix2 (-1)) with (/ 2). lra. }
  apply Rabs_le_inv in He. rewrite u53_val in *. replace (bpow radix2 (-40)) with (/ 1099511627776) by (cbn; lra).
  set (m := IZR (m0 w zmin)) in *. set (k := IZR n) in *. set (W := B2R w) in *. set (s1 := B2R st) in *.
  assert (k2 : 2 <= k) by (apply IZR_le; lia). assert (m0' : 0 <= m) by (apply IZR_le; lia).
  assert (mW : 0 <= m * W) by (apply Rmult_le_pos; lra). assert (kW : 0 <= k * W) by (apply Rmult_le_pos; lra).
  assert (D : k * W - (m + k) * W * (4 / 9007199254740992) <= up - lo) by (clearbody m k W; lra).
  assert (X : k * W - (m + k) * W * (8 / 9007199254740992) <= k * s1).
  { apply Rle_trans with ((k * W - (m + k) * W * (4 / 9007199254740992)) * (1 - / 9007199254740992) * (1 - / 9007199254740992)).
    - clearbody m k W. lra.
    - eapply Rle_trans; [|exact SL]. apply Rmult_le_compat_r; [lra|]. apply Rmult_le_compat_r; [lra|]. exact D. }
  assert (Y : W - (m + 1) * W * (8 / 9007199254740992) <= s1).
  { apply Rmult_le_reg_l with k; [lra|]. eapply Rle_trans; [|exact X].
    assert ((m + k) * W <= k * ((m + 1) * W)). { assert (m * W <= k * (m * W)) by nra. lra. } lra. }
  assert (Z : (m + 1) * W * (1 - 9 / 9007199254740992) <= s1 + lo) by lra.
  apply Rle_trans with ((m + 1) * W * (1 - 9 / 9007199254740992) * (1 - / 9007199254740992)).
  - rewrite (Rmult_assoc ((m + 1) * W)). apply Rmult_le_compat_l; [|lra]. apply Rmult_le_pos; lra.
  - apply Rmult_le_compat; [|lra|exact Z|lra]. apply Rmult_le_pos; [|lra]. apply Rmult_le_pos; lra.
Qed.

Lemma next_multiple : B2R zmin * (1 - bpow radix2 (-40)) <= (IZR (m0 w zmin) + 1) * B2R w.
Proof.
  pose proof w_pos' as P. destruct (zs_facts w Fw Wlo Whi zmin F0 B0 H0) as (_ & Et & _). fold s in Et.
  destruct (m_facts w Fw Wlo Whi zmin zmax F0 F1 B0 B1 H0 H1 Le) as (M0 & _ & _).
  destruct (scale_facts w Fw Wlo Whi) as (_ & [Z0 _] & Sw). fold s in Z0, Sw. apply Rabs_le_inv in Sw.
  assert (Pt : 0 <= B2R zmin * B2R s) by (apply Rmult_le_pos; assumption).
  assert (T : B2R zmin * B2R s < IZR (m0 w zmin) + 1).
  { apply Rnot_le_lt. intros L. rewrite <- plus_IZR in L. apply rnd64_le in L. rewrite (rnd_fmt (IZR _)) in L by (apply int_fmt; lia).
    unfold m0 in L. fold s in L. rewrite <- Et in L. assert (X : (Ztrunc (B2R (f64_mul zmin s)) + 1 <= Zfloor (B2R (f64_mul zmin s)))%Z) by (apply Zfloor_lub; exact L).
    rewrite Ztrunc_floor in X by (rewrite Et; apply rnd_pos; exact Pt). lia. }
  rewrite u53_val in *. replace (bpow radix2 (-40)) with (/ 1099511627776) by (cbn; lra).
  assert (Z1 : B2R zmin * (B2R s * B2R w) <= (IZR (m0 w zmin) + 1) * B2R w). { rewrite <- Rmult_assoc. apply Rmult_le_compat_r; lra. }
  eapply Rle_trans; [|exact Z1]. apply Rmult_le_compat_l; lra.
Qed.

(** It is, unless it lies close to a multiple of the resolution ... *)
Theorem first_away : (forall k, (1 <= k)%Z -> bpow radix2 (-22) * (IZR k * B2R w) < Rabs (B2R zmin - IZR k * B2R w)) -> n = 1%Z \/ B2R zmin < e32 1.
Proof.
  intros H. destruct bounds as (_ & _ & _ & _ & _ & _ & L & N & M & _). pose proof w_pos' as P.
  destruct (Z.eq_dec n 1) as [E|E]; [left; exact E|right]. pose proof (edge_one ltac:(lia)) as E1. pose proof next_multiple as NM.
  specialize (H (m0 w zmin + 1)%Z ltac:(lia)). rewrite plus_IZR in H. set (x := (IZR (m0 w zmin) + 1) * B2R w) in *.
  assert (X : B2R w <= x). { unfold x. assert (0 <= IZR (m0 w zmin)) by (apply IZR_le; lia). nra. }
  replace (bpow radix2 (-40)) with (/ 1099511627776) in * by (cbn; lra). replace (bpow radix2 (-22)) with (/ 4194304) in H by (cbn; lra).
  assert (Z : B2R zmin < x * (1 - / 4194304)).
  { destruct (Rle_or_lt (B2R zmin) x) as [A|A]; [rewrite Rabs_left1 in H by lra; lra|]. rewrite Rabs_pos_eq in H by lra. exfalso. lra. }
  set (y := B2R (edge64 1)) in *. assert (Yp : B2R w / 2 <= y) by lra.
  assert (R : y * (1 - / 16777216) <= e32 1).
  { unfold e32. fold y. pose proof (@relative_error_N_FLT radix2 (-149) 24 eq_refl (fun x => negb (Z.even x)) y) as RE.
    assert (B : bpow radix2 (-149 + 24 - 1) <= Rabs y).
    { rewrite Rabs_pos_eq by lra. apply Rle_trans with (bpow radix2 (-101)); [apply bpow_le; lia|]. change (-101)%Z with (-100 + -1)%Z. rewrite bpow_plus. change (bpow radix2 (-1)) with (/ 2). lra. }
    specialize (RE B). change (round radix2 (FLT_exp (-149) 24) (Znearest (fun x => negb (Z.even x))) y) with (rnd32 y) in RE.
    rewrite (Rabs_pos_eq y) in RE by lra. change (bpow radix2 (- (24) + 1)) with (/ 8388608) in RE. apply Rabs_le_inv in RE. lra. }
  lra.
Qed.

(** ... and always, if the resolution is a power of two. *)
Theorem first_dyadic : forall j, (-100 <= j <= 100)%Z -> B2R w = bpow radix2 j -> B2R zmin <= bpow radix2 23 * B2R w -> n = 1%Z \/ B2R zmin < e32 1.
Proof.
  intros j J Ew Z23. destruct bounds as (_ & Fl & Fu & El & _ & _ & L & N & M & Eu). pose proof w_pos' as P.
  destruct (Z.eq_dec n 1) as [E|E]; [left; exact E|right]. rewrite Ew in El, Eu.
  assert (MF : forall k, (0 <= k <= 2 ^ 53)%Z -> rnd64 (IZR k * bpow radix2 j) = IZR k * bpow radix2 j).
  { intros k K. apply rnd_fmt. apply multiple_format; lia. }
  rewrite MF in El by lia. rewrite MF, El, <- Rmult_plus_distr_r, <- plus_IZR, MF in Eu by lia.
  assert (Est : B2R st = bpow radix2 j).
  { pose proof upper_small as US. pose proof (proj1 lower_le) as L0. pose proof (bpow_gt_0 radix2 127).
    destruct (sub_abs (b_upper b) (b_lower b) 127 Fu Fl ltac:(lia)) as (Fd & Ed & Ad); [rewrite Rabs_pos_eq; unfold up, lo in *; lra|rewrite Rabs_pos_eq; unfold up, lo in *; lra|].
    fold up lo in Ed. rewrite Eu, El, <- Rmult_minus_distr_r, <- minus_IZR in Ed. replace (m0 w zmin + n - m0 w zmin)%Z with n in Ed by lia. rewrite MF in Ed by lia.
    destruct (ofZ_int n ltac:(lia)) as [Fn En]. assert (N1 : 1 <= IZR n) by (apply IZR_le; lia).
    destruct (div_abs (f64_sub (b_upper b) (b_lower b)) (f64_ofZ n) 128 0 Fd Fn ltac:(lia)) as (Fs & Es & _); [exact Ad|rewrite En, Rabs_pos_eq by lra; exact N1|].
    fold st in Es. rewrite En, Ed in Es. rewrite Es. replace (IZR n * bpow radix2 j / IZR n) with (bpow radix2 j) by (field; lra). apply rnd_bpow. lia. }
  assert (Ed1 : B2R (edge64 1) = IZR (m0 w zmin + 1) * bpow radix2 j).
  { destruct (edge_inner 1 ltac:(lia)) as (_ & -> & _). rewrite Rmult_1_l, Est, El, rnd_bpow by lia.
    replace (bpow radix2 j + IZR (m0 w zmin) * bpow radix2 j) with (IZR (m0 w zmin + 1) * bpow radix2 j) by (rewrite plus_IZR; ring). apply MF. lia. }
  assert (Es : B2R s = bpow radix2 (- j)).
  { destruct (ofZ_int 1 ltac:(lia)) as [Fo Eo].
    destruct (div_abs (f64_ofZ 1) w 0 j Fo Fw ltac:(lia)) as (_ & E' & _).
    - rewrite Eo, Rabs_pos_eq by lra. cbn. lra.
    - rewrite Ew, Rabs_pos_eq by apply bpow_ge_0. apply Rle_refl.
    - unfold s. rewrite E', Eo, Ew. unfold Rdiv. rewrite Rmult_1_l, <- bpow_opp. apply rnd_bpow. lia. }
  assert (T : B2R zmin * bpow radix2 (- j) < IZR (m0 w zmin) + 1).
  { destruct (zs_facts w Fw Wlo Whi zmin F0 B0 H0) as (_ & Et & _). fold s in Et. rewrite Es in Et.
    assert (Pt : 0 <= B2R zmin * bpow radix2 (- j)) by (apply Rmult_le_pos; [assumption|apply bpow_ge_0]).
    apply Rnot_le_lt. intros A. rewrite <- plus_IZR in A. apply rnd64_le in A. rewrite (rnd_fmt (IZR _)) in A by (apply int_fmt; lia).
    unfold m0 in A. fold s in A. rewrite <- Et in A. assert (X : (Ztrunc (B2R (f64_mul zmin s)) + 1 <= Zfloor (B2R (f64_mul zmin s)))%Z) by (apply Zfloor_lub; exact A).
    rewrite Ztrunc_floor in X by (rewrite Et; apply rnd_pos; exact Pt). lia. }
  assert (Z : B2R zmin < IZR (m0 w zmin + 1) * bpow radix2 j).
  { rewrite plus_IZR. apply Rmult_lt_compat_r with (r := bpow radix2 j) in T; [|apply bpow_gt_0]. rewrite Rmult_assoc, <- bpow_plus in T.
    replace (- j + j)%Z with 0%Z in T by lia. change (bpow radix2 0) with 1 in T. rewrite Rmult_1_r in T. exact T. }
  assert (M23 : (m0 w zmin <= 2 ^ 23)%Z).
  { destruct (zs_facts w Fw Wlo Whi zmin F0 B0 H0) as (_ & Et & _). fold s in Et. rewrite Es in Et.
    assert (Pt : 0 <= B2R zmin * bpow radix2 (- j)) by (apply Rmult_le_pos; [assumption|apply bpow_ge_0]).
    assert (Q : B2R (f64_mul zmin s) <= IZR (2 ^ 23)).
    { rewrite Et. rewrite <- (rnd_fmt (IZR (2 ^ 23))) by (apply int_fmt; lia). apply rnd64_le. change (IZR (2 ^ 23)) with (bpow radix2 23).
      rewrite Ew in Z23. apply Rmult_le_compat_r with (r := bpow radix2 (- j)) in Z23; [|apply bpow_ge_0]. rewrite Rmult_assoc, <- bpow_plus in Z23.
      replace (j + - j)%Z with 0%Z in Z23 by lia. change (bpow radix2 0) with 1 in Z23. lra. }
    unfold m0. fold s. rewrite Ztrunc_floor by (rewrite Et; apply rnd_pos; exact Pt). apply le_IZR. eapply Rle_trans; [apply Zfloor_lb|exact Q]. }
  unfold e32. rewrite Ed1, rnd32_fmt; [exact Z|]. change (SpecFloat.fexp 24 128) with (FLT_exp (-149) 24). apply generic_format_FLT.
  exists (Float radix2 (m0 w zmin + 1) j); [reflexivity| |cbn; lia]. cbn [Fnum]. change (Z.pow radix2 24) with (2 ^ 24)%Z. lia.
Qed.

(** ** Where the edges are *)
Lemma up_high : up <= (IZR (m0 w zmin) + IZR n) * B2R w * (1 + 3 * u53).
Proof.
  destruct bounds as (_ & _ & _ & El & _ & _ & _ & N & M & Eu). pose proof w_pos' as P.
  assert (N1 : 1 <= IZR n) by (apply IZR_le; lia). assert (M0' : 0 <= IZR (m0 w zmin)) by (apply IZR_le; lia).
  assert (Rn : rnd64 (IZR n * B2R w) <= IZR n * B2R w * (1 + u53)).
  { destruct (rnd_rel (IZR n * B2R w)) as (e & He & ->).
    - right. rewrite Rabs_pos_eq by nra. apply Rle_trans with (bpow radix2 (-100)); [apply bpow_le; lia|]. nra.
    - apply Rabs_le_inv in He. apply Rmult_le_compat_l; [nra|lra]. }
  destruct rel_bounds as [[_ l2] _]. pose proof (proj1 lower_le) as L0. set (x := lo + rnd64 (IZR n * B2R w)) in *.
  assert (Xp : B2R w / 2 <= x).
  { assert (B2R w / 2 <= rnd64 (IZR n * B2R w)); [|unfold x; lra].
    destruct (rnd_rel (IZR n * B2R w)) as (e & He & ->).
    - right. rewrite Rabs_pos_eq by nra. apply Rle_trans with (bpow radix2 (-100)); [apply bpow_le; lia|]. nra.
    - apply Rabs_le_inv in He. rewrite u53_val in He. assert (K : B2R w <= IZR n * B2R w) by nra. apply Rle_trans with (IZR n * B2R w * (/ 2)); [lra|]. apply Rmult_le_compat_l; lra. }
  destruct (rnd_rel x) as (e & He & R).
  { right. rewrite Rabs_pos_eq by lra. apply Rle_trans with (bpow radix2 (-101)); [apply bpow_le; lia|]. change (-101)%Z with (-100 + -1)%Z. rewrite bpow_plus. change (bpow radix2 (-1)) with (/ 2). lra. }
  rewrite Eu, R. apply Rabs_le_inv in He. rewrite u53_val in *.
  assert (X : x <= (IZR (m0 w zmin) + IZR n) * B2R w * (1 + / 9007199254740992)) by (unfold x; lra).
  apply Rle_trans with ((IZR (m0 w zmin) + IZR n) * B2R w * (1 + / 9007199254740992) * (1 + / 9007199254740992)).
  - apply Rmult_le_compat; lra.
  - rewrite (Rmult_assoc ((IZR (m0 w zmin) + IZR n) * B2R w)). apply Rmult_le_compat_l; [|lra]. apply Rmult_le_pos; lra.
Qed.

Lemma edge_near : forall i, (0 <= i <= n)%Z ->
  (IZR (m0 w zmin) + IZR i) * B2R w * (1 - bpow radix2 (-40)) <= B2R (edge64 i) <= (IZR (m0 w zmin) + IZR i) * B2R w * (1 + bpow radix2 (-40)).
Proof.
  intros i Hi. destruct bounds as (_ & _ & _ & _ & _ & _ & L & N & M & _). pose proof w_pos' as P. pose proof (proj1 lower_le) as L0.
  destruct rel_bounds as [[l1 l2] u1]. pose proof up_high as u2. pose proof step_low as SL. destruct step_R as (_ & [S1' _] & SU).
  replace (bpow radix2 (-40)) with (/ 1099511627776) by (cbn; lra). rewrite u53_val in *.
  set (m := IZR (m0 w zmin)) in *. set (k := IZR n) in *. set (W := B2R w) in *. set (s1 := B2R st) in *.
  assert (k1 : 1 <= k) by (apply IZR_le; lia). assert (m0' : 0 <= m) by (apply IZR_le; lia).
  assert (mW : 0 <= m * W) by (apply Rmult_le_pos; lra). assert (kW : 0 <= k * W) by (apply Rmult_le_pos; lra).
  destruct (Z.eq_dec i n) as [->|IN].
  { destruct edge_last as [_ ->]. fold k. clearbody m k W. lra. }
  destruct (Z.eq_dec i 0) as [->|I0].
  { rewrite edge_first, Rplus_0_r. clearbody m k W. lra. }
  destruct (edge_inner i ltac:(lia)) as (_ & -> & _).
  assert (i1 : 1 <= IZR i) by (apply IZR_le; lia). assert (ik : IZR i <= k) by (apply IZR_le; lia).
  set (x := IZR i) in *.
  assert (D : k * W - (m + k) * W * (4 / 9007199254740992) <= up - lo <= k * W + (m + k) * W * (4 / 9007199254740992)) by (clearbody m k W; lra).
  assert (X : k * W - (m + k) * W * (8 / 9007199254740992) <= k * s1 <= k * W + (m + k) * W * (8 / 9007199254740992)).
  { split.
    - apply Rle_trans with ((k * W - (m + k) * W * (4 / 9007199254740992)) * (1 - / 9007199254740992) * (1 - / 9007199254740992)).
      + clearbody m k W. lra.
      + eapply Rle_trans; [|exact SL]. apply Rmult_le_compat_r; [lra|]. apply Rmult_le_compat_r; [lra|]. apply D.
    - apply Rle_trans with ((k * W + (m + k) * W * (4 / 9007199254740992)) * (1 + / 9007199254740992) * (1 + / 9007199254740992)).
      + eapply Rle_trans; [exact SU|]. apply Rmult_le_compat_r; [lra|]. apply Rmult_le_compat_r; [lra|]. apply D.
      + clearbody m k W. lra. }
  assert (Y : x * W - (m + x) * W * (8 / 9007199254740992) <= x * s1 <= x * W + (m + x) * W * (8 / 9007199254740992)).
  { assert (Q : x * ((m + k) * W) <= k * ((m + x) * W)). { assert (x * (m * W) <= k * (m * W)) by (apply Rmult_le_compat_r; lra). lra. }
    destruct X as [X1 X2]. apply Rmult_le_compat_l with (r := x) in X1, X2; try lra.
    split; apply Rmult_le_reg_l with k; try lra. }
  assert (x0 : 0 < x * W) by (apply Rmult_lt_0_compat; lra).
  assert (s0 : 0 <= s1) by lra.
  assert (xs : W / 2 <= x * s1). { pose proof (Rmult_le_compat_r s1 1 x s0 i1). lra. }
  assert (B101 : bpow radix2 (-101) <= W / 2) by (change (-101)%Z with (-100 + -1)%Z; rewrite bpow_plus; change (bpow radix2 (-1)) with (/ 2); lra).
  fold s1. destruct (rnd_rel (x * s1)) as (e & He & ->).
  { right. rewrite Rabs_pos_eq by lra. apply Rle_trans with (bpow radix2 (-101)); [apply bpow_le; lia|]. lra. }
  apply Rabs_le_inv in He. rewrite u53_val in He.
  assert (Y2 : x * s1 - (m + x) * W * (2 / 9007199254740992) <= x * s1 * (1 + e) <= x * s1 + (m + x) * W * (2 / 9007199254740992)).
  { assert (x * s1 <= 2 * ((m + x) * W)) by (clearbody m k W x s1; lra). assert (0 <= x * s1) by lra.
    assert (- (x * s1 * / 9007199254740992) <= x * s1 * e <= x * s1 * / 9007199254740992).
    { split; [replace (- (x * s1 * / 9007199254740992)) with (x * s1 * (- / 9007199254740992)) by ring|]; apply Rmult_le_compat_l; lra. }
    lra. }
  set (p := x * s1 * (1 + e)) in *.
  assert (Pp : W / 4 <= p). { unfold p. pose proof (Rmult_le_compat_l (x * s1) (/ 2) (1 + e) ltac:(lra) ltac:(lra)). lra. }
  assert (S : (m + x) * W * (1 - 12 / 9007199254740992) <= p + lo <= (m + x) * W * (1 + 12 / 9007199254740992)) by (clearbody m k W x s1 p; lra).
  destruct (rnd_rel (p + lo)) as (e' & He' & ->).
  { right. rewrite Rabs_pos_eq by lra. apply Rle_trans with (bpow radix2 (-102)); [apply bpow_le; lia|]. change (-102)%Z with (-101 + -1)%Z. rewrite bpow_plus. change (bpow radix2 (-1)) with (/ 2). lra. }
  apply Rabs_le_inv in He'. rewrite u53_val in He'. assert (G : 0 < (m + x) * W) by (apply Rmult_lt_0_compat; lra). set (g := (m + x) * W) in *. clearbody g p.
  split.
  - apply Rle_trans with (g * (1 - 12 / 9007199254740992) * (1 - / 9007199254740992)); [lra|]. apply Rmult_le_compat; try lra.
  - apply Rle_trans with (g * (1 + 12 / 9007199254740992) * (1 + / 9007199254740992)); [|lra]. apply Rmult_le_compat; lra.
Qed.

Lemma rnd32_rel : forall y, bpow radix2 (-126) <= y -> y * (1 - / 16777216) <= rnd32 y <= y * (1 + / 16777216).
Proof.
  intros y B. pose proof (bpow_gt_0 radix2 (-126)) as P. pose proof (@relative_error_N_FLT radix2 (-149) 24 eq_refl (fun x => negb (Z.even x)) y) as RE.
  specialize (RE ltac:(rewrite Rabs_pos_eq by lra; exact B)). change (round radix2 (FLT_exp (-149) 24) (Znearest (fun x => negb (Z.even x))) y) with (rnd32 y) in RE.
  rewrite (Rabs_pos_eq y) in RE by lra. change (bpow radix2 (- (24) + 1)) with (/ 8388608) in RE. apply Rabs_le_inv in RE. lra.
Qed.

(** The float32 edges are the multiples of the resolution, up to a relative 2^-23. *)
Theorem e32_near : forall i, (0 <= i <= n)%Z -> Rabs (e32 i - (IZR (m0 w zmin) + IZR i) * B2R w) <= bpow radix2 (-23) * ((IZR (m0 w zmin) + IZR i) * B2R w).
Proof.
  intros i Hi. pose proof (edge_near i Hi) as [A B]. pose proof w_pos' as P. destruct bounds as (_ & _ & _ & _ & _ & _ & L & N & M & _).
  replace (bpow radix2 (-40)) with (/ 1099511627776) in A, B by (cbn; lra). replace (bpow radix2 (-23)) with (/ 8388608) by (cbn; lra).
  unfold e32. destruct (Z.eq_dec (m0 w zmin + i) 0) as [Z0|Z0].
  - rewrite <- plus_IZR, Z0, Rmult_0_l in *. assert (B2R (edge64 i) = 0) as -> by lra. rewrite rnd32_fmt by apply generic_format_0. rewrite Rminus_0_r, Rabs_R0. lra.
  - assert (G : 1 <= IZR (m0 w zmin) + IZR i) by (rewrite <- plus_IZR; apply IZR_le; lia). set (g := (IZR (m0 w zmin) + IZR i) * B2R w) in *.
    assert (Gw : B2R w <= g) by (unfold g; nra).
    destruct (rnd32_rel (B2R (edge64 i))) as [C D].
    { apply Rle_trans with (bpow radix2 (-101)); [apply bpow_le; lia|]. change (-101)%Z with (-100 + -1)%Z. rewrite bpow_plus. change (bpow radix2 (-1)) with (/ 2). lra. }
    apply Rabs_le. lra.
Qed.

(** What the bins count. *)
Theorem bins_count : forall data counts, (forall z, In z data -> is_finite z = true /\ B2R zmin <= B2R z <= B2R zmax) ->
  np_histogram32 data (b_num b) (b_lower b) (b_upper b) = Ok counts ->
  counts = map (fun i => Z.of_nat (length (filter (fun x => Bleb (store32 (edge64 i)) x && ((i =? n - 1)%Z || Bltb x (store32 (edge64 (i + 1))))) data))) (zseq 0 (Z.to_nat n)).
Proof.
  intros data counts HD HC. destruct bounds as (Nb & Fl & Fu & _ & _ & _ & L & N & _). rewrite Nb in HC.
  destruct (histogram32_ok data n (b_lower b) (b_upper b) ltac:(lia) Fl Fu L) as (counts' & E & _ & _ & EC). rewrite HC in E. injection E as <-.
  pose proof e32_first as Lo. pose proof e32_last as Up.
  assert (Kp : filter (fun x => Bleb (store32 (b_lower b)) x && Bleb x (store32 (b_upper b))) data = data).
  { assert (G : forall z, In z data -> Bleb (store32 (b_lower b)) z && Bleb z (store32 (b_upper b)) = true).
    { intros z Hz. destruct (HD z Hz) as (Fz & A). apply andb_true_intro.
      pose proof upper_small as US. pose proof (proj1 lower_le) as LP.
      destruct (store32_R (b_lower b) Fl) as [FL EL]; [fold lo; rewrite Rabs_pos_eq by exact LP; fold lo up in L; lra|].
      destruct (store32_R (b_upper b) Fu) as [FU EU]; [fold up; rewrite Rabs_pos_eq; fold lo up in L; lra|].
      unfold e32 in Lo, Up. rewrite edge_first in Lo. destruct edge_last as [_ El']. rewrite El' in Up.
      split; apply leb_R; auto; [rewrite EL; fold lo|rewrite EU; fold up]; lra. }
    clear - G. induction data as [|z data IH]; [reflexivity|]. cbn [filter]. rewrite (G z (or_introl eq_refl)), IH; [reflexivity|]. intros y Hy. apply G. right. exact Hy. }
  rewrite Kp in EC. exact EC.
Qed.
End Edges.
