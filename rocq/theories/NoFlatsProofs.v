(** * Rounding analysis of fill_terrain_no_flats with the "minimum safe" increments *)

From Coq Require Import Reals Lra Psatz.
From Flocq Require Import Core.Core IEEE754.BinarySingleNaN.
From Verif Require Import Base BaseProofs Num Float64 Float64Proofs FillModel FillSpec RelaxProofs FillProofs.

Lemma rank_nonneg_R : forall x, is_finite x = true -> (0 <= rank x <-> (0 <= B2R x)%R).
Proof.
  intros x Hx. pose proof (rank_le_R f64_zero x eq_refl Hx) as H. cbn [rank f64_zero B2R] in H. exact H.
Qed.

(** [fexp64] in closed form. *)
Lemma fexp64_val : forall e, fexp64 e = Z.max (e - 53) (-1074).
Proof. reflexivity. Qed.

#[global] Instance monotone_fexp64 : Monotone_exp fexp64.
Proof. intros a b H. rewrite !fexp64_val. lia. Qed.

Lemma ulp64_0 : ulp radix2 fexp64 0 = bpow radix2 (-1074).
Proof. exact (ulp_FLT_0 radix2 (-1074) 53). Qed.

Lemma ulp_bound : forall x j, -1074 <= j -> (Rabs x <= bpow radix2 (j + 52))%R ->
  (ulp radix2 fexp64 x <= bpow radix2 j)%R.
Proof.
  intros x j Hj Hx.
  apply Rle_trans with (ulp radix2 fexp64 (bpow radix2 (j + 52))).
  - apply ulp_le; auto with typeclass_instances. rewrite (Rabs_pos_eq (bpow _ _)) by apply bpow_ge_0. exact Hx.
  - rewrite ulp_bpow. apply bpow_le. rewrite fexp64_val. lia.
Qed.

Lemma succ64_gt : forall x, (x < succ radix2 fexp64 x)%R.
Proof.
  intros x. destruct (Req_dec x 0) as [->|E].
  - rewrite succ_0, ulp64_0. apply bpow_gt_0.
  - apply succ_gt_id; auto.
Qed.

(** Adding at least [bpow j] to a value of magnitude at most [bpow (j+52)] is never absorbed. *)
Lemma add_strict : forall x d j, -1074 <= j -> is_finite x = true -> is_finite d = true ->
  (Rabs (B2R x) <= bpow radix2 (j + 52))%R -> (bpow radix2 j <= B2R d)%R ->
  rank x < rank (f64_add x d).
Proof.
  intros x d j Hj Hx Hd Hb Hdj.
  assert (H1 : (B2R x < rnd64 (B2R x + B2R d))%R).
  { apply Rlt_le_trans with (succ radix2 fexp64 (B2R x)); [apply succ64_gt|].
    apply round_ge_generic; auto with typeclass_instances.
    - apply generic_format_succ; auto with typeclass_instances. apply generic_format_B2R.
    - apply Rle_trans with (B2R x + ulp radix2 fexp64 (B2R x))%R.
      + apply succ_le_plus_ulp; auto with typeclass_instances.
      + apply Rplus_le_compat_l. apply Rle_trans with (bpow radix2 j); auto. apply ulp_bound; auto. }
  destruct (add_cases x d Hx Hd) as [[H2 H3]|[[H2 H3]|[H2 H3]]].
  - apply rank_lt_R; auto. rewrite H3. auto.
  - rewrite H2, rank_pinf. apply rank_finite_bound; auto.
  - pose proof (B2R_lt_emax x). lra.
Qed.

(** Adding [bpow j] adds at most two [bpow j]. *)
Lemma add_upper : forall x d j, -1074 <= j -> is_finite x = true -> is_finite d = true ->
  B2R d = bpow radix2 j -> (- bpow radix2 (j + 52) <= B2R x)%R ->
  (B2R x + bpow radix2 j <= bpow radix2 (j + 52))%R -> j + 52 < 1023 ->
  is_finite (f64_add x d) = true /\ (B2R (f64_add x d) <= B2R x + 2 * bpow radix2 j)%R.
Proof.
  intros x d j Hj Hx Hd Ed Hlo Hhi Hj2.
  set (y := (B2R x + B2R d)%R).
  assert (Hp : (0 < bpow radix2 j)%R) by apply bpow_gt_0.
  assert (Hy : (Rabs y <= bpow radix2 (j + 52))%R).
  { unfold y. rewrite Ed. apply Rabs_le. lra. }
  assert (He : (Rabs (rnd64 y - y) <= / 2 * ulp radix2 fexp64 y)%R).
  { apply error_le_half_ulp. auto with typeclass_instances. }
  pose proof (ulp_bound y j Hj Hy) as Hu. pose proof (ulp_ge_0 radix2 fexp64 y) as Hu0.
  assert (Hr : (rnd64 y <= B2R x + 2 * bpow radix2 j)%R).
  { apply Rabs_le_inv in He. unfold y in *. lra. }
  assert (Hbig : (bpow radix2 (j + 52) + bpow radix2 j < emax64)%R).
  { unfold emax64. apply Rlt_le_trans with (2 * bpow radix2 (j + 52))%R.
    - assert (bpow radix2 j < bpow radix2 (j + 52))%R by (apply bpow_lt; lia). lra.
    - replace (2 * bpow radix2 (j + 52))%R with (bpow radix2 (j + 53)).
      + apply bpow_le. lia.
      + replace (j + 53) with (1 + (j + 52)) by lia. rewrite (bpow_plus radix2 1). reflexivity. }
  assert (Hr2 : (- bpow radix2 (j + 52) <= rnd64 y)%R).
  { apply Rabs_le_inv in He. unfold y in *. lra. }
  destruct (add_cases x d Hx Hd) as [[H2 H3]|[[H2 H3]|[H2 H3]]].
  - split; auto. rewrite H3. exact Hr.
  - fold y in H3. lra.
  - fold y in H3. lra.
Qed.

(** The same for increments up to 3/2 [bpow j]. *)
Lemma add_upper2 : forall x d j, -1074 <= j -> is_finite x = true -> is_finite d = true ->
  (bpow radix2 j <= B2R d <= 3/2 * bpow radix2 j)%R -> (- bpow radix2 (j + 52) <= B2R x)%R ->
  (B2R x + 2 * bpow radix2 j <= bpow radix2 (j + 52))%R -> j + 52 < 1023 ->
  is_finite (f64_add x d) = true /\ (B2R (f64_add x d) <= B2R x + 2 * bpow radix2 j)%R.
Proof.
  intros x d j Hj Hx Hd Ed Hlo Hhi Hj2.
  set (y := (B2R x + B2R d)%R).
  assert (Hp : (0 < bpow radix2 j)%R) by apply bpow_gt_0.
  assert (Hy : (Rabs y <= bpow radix2 (j + 52))%R).
  { unfold y. apply Rabs_le. lra. }
  assert (He : (Rabs (rnd64 y - y) <= / 2 * ulp radix2 fexp64 y)%R).
  { apply error_le_half_ulp. auto with typeclass_instances. }
  pose proof (ulp_bound y j Hj Hy) as Hu. pose proof (ulp_ge_0 radix2 fexp64 y) as Hu0.
  assert (Hr : (rnd64 y <= B2R x + 2 * bpow radix2 j)%R).
  { apply Rabs_le_inv in He. unfold y in *. lra. }
  assert (Hbig : (bpow radix2 (j + 52) + bpow radix2 j < emax64)%R).
  { unfold emax64. apply Rlt_le_trans with (2 * bpow radix2 (j + 52))%R.
    - assert (bpow radix2 j < bpow radix2 (j + 52))%R by (apply bpow_lt; lia). lra.
    - replace (2 * bpow radix2 (j + 52))%R with (bpow radix2 (j + 53)).
      + apply bpow_le. lia.
      + replace (j + 53) with (1 + (j + 52)) by lia. rewrite (bpow_plus radix2 1). reflexivity. }
  assert (Hr2 : (- bpow radix2 (j + 52) <= rnd64 y)%R).
  { apply Rabs_le_inv in He. unfold y in *. lra. }
  destruct (add_cases x d Hx Hd) as [[H2 H3]|[[H2 H3]|[H2 H3]]].
  - split; auto. rewrite H3. exact Hr.
  - fold y in H3. lra.
  - fold y in H3. lra.
Qed.

(** ** The increments of minimum_safe_short_and_diag *)

(** ulp of a nonnegative bounded value. *)
Lemma ulp_pow : forall m, (0 <= m)%R -> (m <= bpow radix2 1000)%R ->
  exists k, -1074 <= k <= 948 /\ ulp radix2 fexp64 m = bpow radix2 k /\ (m <= bpow radix2 (k + 53))%R.
Proof.
  intros m Hm Hb. destruct (Req_dec m 0) as [->|E].
  - exists (-1074). split; [lia|]. split; [apply ulp64_0|]. apply bpow_ge_0.
  - exists (cexp radix2 fexp64 m). rewrite ulp_neq_0 by auto.
    unfold cexp. rewrite fexp64_val.
    assert (Hmag : mag radix2 m <= 1001).
    { apply mag_le_bpow; auto. rewrite Rabs_pos_eq by auto.
      apply Rle_lt_trans with (bpow radix2 1000); auto. apply bpow_lt. lia. }
    split; [lia|]. split; [reflexivity|].
    assert (m < bpow radix2 (mag radix2 m))%R.
    { rewrite <- (Rabs_pos_eq m) at 1 by auto. apply bpow_mag_gt. }
    apply Rle_trans with (bpow radix2 (mag radix2 m)); [lra|]. apply bpow_le. lia.
Qed.

Lemma fmt_bpow : forall k, -1074 <= k -> fmt64 (bpow radix2 k).
Proof. intros k Hk. apply generic_format_bpow. rewrite fexp64_val. lia. Qed.

Lemma sub_exact : forall x y : b64, is_finite x = true -> is_finite y = true ->
  fmt64 (B2R x - B2R y) -> (Rabs (B2R x - B2R y) < emax64)%R ->
  is_finite (f64_sub x y) = true /\ B2R (f64_sub x y) = (B2R x - B2R y)%R.
Proof.
  intros x y Hx Hy Hf Hb. pose proof (Bminus_correct 53 1024 _ _ mode_NE x y Hx Hy) as H.
  rewrite (round_generic radix2 fexp64 (round_mode mode_NE) _ Hf) in H.
  rewrite Rlt_bool_true in H by exact Hb. destruct H as (H1 & H2 & _). auto.
Qed.

Lemma mul_round : forall x y : b64, is_finite x = true -> is_finite y = true ->
  (Rabs (rnd64 (B2R x * B2R y)) < emax64)%R ->
  is_finite (f64_mul x y) = true /\ B2R (f64_mul x y) = rnd64 (B2R x * B2R y)%R.
Proof.
  intros x y Hx Hy Hb. pose proof (Bmult_correct 53 1024 _ _ mode_NE x y) as H.
  rewrite Rlt_bool_true in H by exact Hb. destruct H as (H1 & H2 & _). rewrite Hx, Hy in H2. auto.
Qed.

Lemma ofZ_1024 : is_finite (f64_ofZ 1024) = true /\ B2R (f64_ofZ 1024) = bpow radix2 10.
Proof.
  split; [reflexivity|].
  replace (f64_ofZ 1024) with (f64_ofZ 1024) by reflexivity.
  rewrite B2R_rank by reflexivity.
  replace (rank (f64_ofZ 1024)) with (2 ^ 1084) by (vm_compute; reflexivity).
  change 2 with (radix_val radix2) at 1. rewrite IZR_Zpower by lia. rewrite <- bpow_plus. reflexivity.
Qed.

Lemma sqrt2_bounds : is_finite f64_sqrt2 = true /\ (1 <= B2R f64_sqrt2 <= 3/2)%R.
Proof.
  split; [vm_compute; reflexivity|].
  assert (H1 : rank (f64_ofZ 1) <= rank f64_sqrt2) by (vm_compute; discriminate).
  assert (H2 : rank f64_sqrt2 <= rank (f64 3 (-1))) by (vm_compute; discriminate).
  apply rank_le_R in H1; [|vm_compute; reflexivity|vm_compute; reflexivity].
  apply rank_le_R in H2; [|vm_compute; reflexivity|vm_compute; reflexivity].
  assert (E1 : B2R (f64_ofZ 1) = 1%R).
  { rewrite B2R_rank by reflexivity. replace (rank (f64_ofZ 1)) with (2 ^ 1074) by (vm_compute; reflexivity).
    change 2 with (radix_val radix2) at 1. rewrite IZR_Zpower by lia. rewrite <- bpow_plus. reflexivity. }
  assert (E2 : B2R (f64 3 (-1)) = (3/2)%R).
  { rewrite B2R_rank by reflexivity. replace (rank (f64 3 (-1))) with (3 * 2 ^ 1073) by (vm_compute; reflexivity).
    rewrite mult_IZR. change 2 with (radix_val radix2) at 1. rewrite IZR_Zpower by lia. rewrite Rmult_assoc, <- bpow_plus.
    change (bpow radix2 (1073 + -1074)) with (/2)%R. lra. }
  lra.
Qed.

Lemma increments : forall M short diag : b64, is_finite M = true -> (0 <= B2R M)%R -> (B2R M <= bpow radix2 1000)%R ->
  short = f64_mul (f64_sub (f64_next M) M) (f64_ofZ 1024) ->
  diag = f64_mul short f64_sqrt2 ->
  exists j, -1064 <= j <= 958 /\ (B2R M <= bpow radix2 (j + 43))%R /\
    is_finite short = true /\ B2R short = bpow radix2 j /\
    is_finite diag = true /\ (bpow radix2 j <= B2R diag)%R /\ (B2R diag <= 3/2 * bpow radix2 j)%R.
Proof.
  intros M short diag HM HM0 HMb Es Ed.
  destruct (ulp_pow _ HM0 HMb) as (k & Hk & Hu & HMk).
  exists (k + 10). split; [lia|]. split; [replace (k + 10 + 43) with (k + 53) by lia; auto|].
  assert (Hsucc : succ radix2 fexp64 (B2R M) = (B2R M + bpow radix2 k)%R).
  { rewrite succ_eq_pos by auto. rewrite Hu. reflexivity. }
  assert (Hpk : (bpow radix2 k <= bpow radix2 948)%R) by (apply bpow_le; lia).
  assert (Hp948 : (bpow radix2 1000 + bpow radix2 948 < emax64)%R).
  { unfold emax64. assert (bpow radix2 948 <= bpow radix2 1000)%R by (apply bpow_le; lia).
    apply Rle_lt_trans with (bpow radix2 1001); [|apply bpow_lt; lia].
    replace (bpow radix2 1001) with (2 * bpow radix2 1000)%R; [lra|].
    change 1001 with (1 + 1000). rewrite (bpow_plus radix2 1). reflexivity. }
  pose proof (Bsucc_correct 53 1024 _ _ M HM) as Hn.
  rewrite Hsucc in Hn. rewrite Rlt_bool_true in Hn by (unfold emax64 in *; lra).
  destruct Hn as (Hn1 & Hn2 & _).
  change (B2R (f64_next M) = (B2R M + bpow radix2 k)%R) in Hn1. change (is_finite (f64_next M) = true) in Hn2.
  assert (Ediff : (B2R (f64_next M) - B2R M)%R = bpow radix2 k).
  { rewrite Hn1. ring. }
  destruct (sub_exact (f64_next M) M Hn2 HM) as (Hs1 & Hs2).
  { rewrite Ediff. apply fmt_bpow. lia. }
  { rewrite Ediff, Rabs_pos_eq by apply bpow_ge_0. unfold emax64. apply bpow_lt. lia. }
  rewrite Ediff in Hs2.
  destruct ofZ_1024 as [Hz1 Hz2].
  destruct (mul_round _ _ Hs1 Hz1) as (Hm1 & Hm2).
  { rewrite Hs2, Hz2, <- bpow_plus, round_generic; auto with typeclass_instances; [|apply fmt_bpow; lia].
    rewrite Rabs_pos_eq by apply bpow_ge_0. unfold emax64. apply bpow_lt. lia. }
  rewrite <- Es in Hm1, Hm2. rewrite Hs2, Hz2, <- bpow_plus in Hm2.
  rewrite round_generic in Hm2; auto with typeclass_instances; [|apply fmt_bpow; lia].
  split; [auto|]. split; [auto|].
  destruct sqrt2_bounds as [Hq Hqb].
  assert (Hpj : (0 < bpow radix2 (k + 10))%R) by apply bpow_gt_0.
  assert (Hlow : (bpow radix2 (k + 10) <= rnd64 (B2R short * B2R f64_sqrt2))%R).
  { apply round_ge_generic; auto with typeclass_instances; [apply fmt_bpow; lia|]. rewrite Hm2. nra. }
  assert (Hhigh : (rnd64 (B2R short * B2R f64_sqrt2) <= 3/2 * bpow radix2 (k + 10))%R).
  { assert (E32 : (3/2 * bpow radix2 (k + 10))%R = F2R (Float radix2 3 (k + 9))).
    { unfold F2R. cbn [Fnum Fexp]. replace (k + 10) with (1 + (k + 9)) by lia. rewrite (bpow_plus radix2 1).
      change (bpow radix2 1) with 2%R. lra. }
    apply round_le_generic; auto with typeclass_instances.
    - rewrite E32. apply generic_format_F2R. intros _. unfold cexp. rewrite fexp64_val.
      assert (mag radix2 (F2R (Float radix2 3 (k + 9))) <= k + 11).
      { apply mag_le_bpow.
        - unfold F2R. cbn [Fnum Fexp]. assert (0 < bpow radix2 (k + 9))%R by apply bpow_gt_0. lra.
        - rewrite <- E32, Rabs_pos_eq by lra. replace (k + 11) with (1 + (k + 10)) by lia.
          rewrite (bpow_plus radix2 1). change (bpow radix2 1) with 2%R. lra. }
      cbn [Fnum Fexp]. lia.
    - rewrite Hm2. nra. }
  destruct (mul_round _ _ Hm1 Hq) as (Hd1 & Hd2).
  { rewrite Rabs_pos_eq by lra. apply Rle_lt_trans with (1 := Hhigh). unfold emax64.
    apply Rle_lt_trans with (2 * bpow radix2 (k + 10))%R; [lra|].
    change 2%R with (bpow radix2 1). rewrite <- bpow_plus. apply bpow_lt. lia. }
  rewrite <- Ed in Hd1, Hd2. split; [auto|]. rewrite Hd2. auto.
Qed.

(** np.amax / np.amin *)
Lemma fold_max_ok : forall l x, not_nan x -> (forall y, In y l -> not_nan y) ->
  let r := fold_left (pymax F64Ops) l x in
  In r (x :: l) /\ forall y, In y (x :: l) -> rank y <= rank r.
Proof.
  induction l as [|a l IH]; intros x Hx Hl; cbn zeta.
  - cbn. split; [auto|]. intros y [->|[]]. lia.
  - cbn [fold_left].
    destruct (pmax_ok x a Hx (Hl a (or_introl eq_refl))) as (O & L1 & L2). unfold pmax in *.
    assert (Hg : not_nan (pymax F64Ops x a)) by (destruct O as [->| ->]; auto; apply Hl; left; auto).
    destruct (IH (pymax F64Ops x a) Hg) as (I1 & I2). { intros y Hy. apply Hl. right; auto. }
    split.
    + destruct I1 as [<-|I1]; [|right; right; auto]. destruct O as [->| ->]; [left; auto|right; left; auto].
    + intros y [<-|[<-|Hy]].
      * specialize (I2 _ (or_introl eq_refl)). lia.
      * specialize (I2 _ (or_introl eq_refl)). lia.
      * apply I2. right; auto.
Qed.

Lemma fold_min_ok : forall l x, not_nan x -> (forall y, In y l -> not_nan y) ->
  let r := fold_left (pymin F64Ops) l x in
  In r (x :: l) /\ forall y, In y (x :: l) -> rank r <= rank y.
Proof.
  assert (Hmn : is_min rank not_nan (pymin F64Ops)) by (apply pymin_is_min; apply Bltb_rank).
  induction l as [|a l IH]; intros x Hx Hl; cbn zeta.
  - cbn. split; [auto|]. intros y [->|[]]. lia.
  - cbn [fold_left].
    destruct (Hmn x a Hx (Hl a (or_introl eq_refl))) as (O & L1 & L2).
    assert (Hg : not_nan (pymin F64Ops x a)) by (destruct O as [->| ->]; auto; apply Hl; left; auto).
    destruct (IH (pymin F64Ops x a) Hg) as (I1 & I2). { intros y Hy. apply Hl. right; auto. }
    split.
    + destruct I1 as [<-|I1]; [|right; right; auto]. destruct O as [->| ->]; [left; auto|right; left; auto].
    + intros y [<-|[<-|Hy]].
      * specialize (I2 _ (or_introl eq_refl)). lia.
      * specialize (I2 _ (or_introl eq_refl)). lia.
      * apply I2. right; auto.
Qed.

Lemma f64_1_1000 : is_finite (f64 1 1000) = true /\ B2R (f64 1 1000) = bpow radix2 1000.
Proof.
  split; [vm_compute; reflexivity|].
  rewrite B2R_rank by (vm_compute; reflexivity).
  replace (rank (f64 1 1000)) with (2 ^ 2074) by (vm_compute; reflexivity).
  change 2 with (radix_val radix2) at 1. rewrite IZR_Zpower by lia. rewrite <- bpow_plus. reflexivity.
Qed.

Section Safe.
Variable dtm : raster b64.
Variables short diag : b64.
Hypothesis Hrows : 2 <= nrows dtm.
Hypothesis Hcols : 2 <= ncols dtm.
Hypothesis Hcolsmax : ncols dtm <= 2 ^ 50.
Hypothesis Hfin : dem_finite dtm.
Hypothesis Hmax : dem_max1000 dtm.
Hypothesis Hsafe : minimum_safe_short_and_diag dtm = Ok (short, diag).
Notation rows := (nrows dtm).
Notation cols := (ncols dtm).

Lemma abs_le_1000 : forall c, inside rows cols c -> (Rabs (B2R (at_ dtm c)) <= bpow radix2 1000)%R.
Proof.
  intros c Hc. specialize (Hmax c Hc). unfold le64 in Hmax. destruct f64_1_1000 as [F1 F2].
  rewrite Bleb_correct in Hmax; [|rewrite is_finite_Babs; apply Hfin; auto|auto].
  rewrite B2R_Babs, F2 in Hmax. destruct (Rle_bool_spec (Rabs (B2R (at_ dtm c))) (bpow radix2 1000)); [auto|discriminate].
Qed.

Lemma safe_incr2 : exists j, -1064 <= j <= 958 /\
  (forall c, inside rows cols c -> (Rabs (B2R (at_ dtm c)) <= bpow radix2 (j + 43))%R) /\
  is_finite short = true /\ B2R short = bpow radix2 j /\
  is_finite diag = true /\ (bpow radix2 j <= B2R diag)%R /\ (B2R diag <= 3/2 * bpow radix2 j)%R.
Proof.
  assert (Hcells : forall x, In x (map (at_ dtm) (rcells dtm)) ->
            is_finite x = true /\ (Rabs (B2R x) <= bpow radix2 1000)%R).
  { intros x Hx. apply in_map_iff in Hx. destruct Hx as (c & <- & Hc). unfold rcells in Hc.
    apply in_cells_of in Hc. split; [apply Hfin; auto | apply abs_le_1000; auto]. }
  assert (Hall : forall c, inside rows cols c -> In (at_ dtm c) (map (at_ dtm) (rcells dtm))).
  { intros c Hc. apply in_map. apply in_cells_of. auto. }
  unfold minimum_safe_short_and_diag, np_amax, np_amin in Hsafe.
  destruct (map (at_ dtm) (rcells dtm)) as [|x l]; [discriminate|]. cbn [bind] in Hsafe.
  assert (Hnn : forall y, In y (x :: l) -> not_nan y).
  { intros y Hy. apply finite_not_nan. apply Hcells; auto. }
  destruct (fold_max_ok l x) as (Imx & Lmx); [apply Hnn; left; auto | intros; apply Hnn; right; auto |].
  destruct (fold_min_ok l x) as (Imn & Lmn); [apply Hnn; left; auto | intros; apply Hnn; right; auto |].
  set (mx := fold_left (pymax F64Ops) l x) in *. set (mn := fold_left (pymin F64Ops) l x) in *.
  destruct (Hcells mx Imx) as [Fmx Bmx]. destruct (Hcells mn Imn) as [Fmn Bmn].
  assert (Famx : is_finite (Babs mx) = true) by (rewrite is_finite_Babs; auto).
  assert (Famn : is_finite (Babs mn) = true) by (rewrite is_finite_Babs; auto).
  destruct (pmax_ok (Babs mx) (Babs mn)) as (O & L1 & L2); [apply finite_not_nan; auto | apply finite_not_nan; auto|].
  unfold pmax in *. set (M := pymax F64Ops (Babs mx) (Babs mn)) in *.
  assert (HM : is_finite M = true) by (destruct O as [->| ->]; auto).
  assert (HMv : (Rabs (B2R mx) <= B2R M)%R /\ (Rabs (B2R mn) <= B2R M)%R).
  { apply rank_le_R in L1, L2; auto. rewrite B2R_Babs in L1, L2. auto. }
  assert (HMb : (B2R M <= bpow radix2 1000)%R).
  { destruct O as [->| ->]; rewrite B2R_Babs; auto. }
  assert (HM0 : (0 <= B2R M)%R) by (destruct HMv as [H _]; pose proof (Rabs_pos (B2R mx)); lra).
  assert (Es : short = f64_mul (f64_sub (f64_next M) M) (f64_ofZ 1024)) by (fold M in Hsafe; congruence).
  assert (Ed : diag = f64_mul short f64_sqrt2) by (fold M in Hsafe; congruence).
  destruct (increments M short diag HM HM0 HMb Es Ed) as (j & Hj & HMj & Fs & Bs & Fd & Bd).
  exists j. split; [auto|]. split; [|auto].
  intros c Hc. specialize (Hall c Hc).
  pose proof (Lmx _ Hall) as H1. pose proof (Lmn _ Hall) as H2.
  destruct (Hcells _ Hall) as [Fc _].
  apply rank_le_R in H1, H2; auto.
  destruct HMv as [HM1 HM2]. apply Rabs_le_inv in HM1, HM2. apply Rle_trans with (B2R M); auto.
  apply Rabs_le. lra.
Qed.

Lemma safe_incr : exists j, -1064 <= j <= 958 /\
  (forall c, inside rows cols c -> (Rabs (B2R (at_ dtm c)) <= bpow radix2 (j + 43))%R) /\
  is_finite short = true /\ B2R short = bpow radix2 j /\
  is_finite diag = true /\ (bpow radix2 j <= B2R diag)%R.
Proof.
  destruct safe_incr2 as (j & Hj & Hb & Fs & Bs & Fd & Bd & _). exists j. auto 10.
Qed.

Lemma safe_increments_ok : (finite64 short /\ 0 <= rank short) /\ (finite64 diag /\ 0 <= rank diag).
Proof.
  destruct safe_incr as (j & Hj & _ & Fs & Bs & Fd & Bd).
  assert (0 < bpow radix2 j)%R by apply bpow_gt_0.
  split; split; auto; apply rank_nonneg_R; auto; lra.
Qed.

Lemma Hdem64 : dem64 dtm.
Proof. intros c Hc. apply finite_not_nan. apply Hfin; auto. Qed.

Notation rc := (route_cost rows cols (pymax F64Ops) (raise_by short diag) (at_ dtm)).

(** Walking left to the edge gives a bounded cost. *)
Lemma left_cost : forall j, -1064 <= j <= 958 ->
  (forall c, inside rows cols c -> (Rabs (B2R (at_ dtm c)) <= bpow radix2 (j + 43))%R) ->
  is_finite short = true -> B2R short = bpow radix2 j ->
  forall c, inside rows cols c ->
  exists v, rc c v /\ is_finite v = true /\
    (- bpow radix2 (j + 43) <= B2R v <= bpow radix2 (j + 43) + 2 * IZR (snd c) * bpow radix2 j)%R.
Proof.
  intros j Hj Hb Fs Bs.
  assert (Hp : (0 < bpow radix2 j)%R) by apply bpow_gt_0.
  apply walk_left.
  - intros c Hc. pose proof (edge_inside _ _ _ Hc) as Hin. exists (at_ dtm c).
    split; [apply rc_edge; auto|]. split; [apply Hfin; auto|].
    specialize (Hb c Hin). apply Rabs_le_inv in Hb.
    assert (0 <= IZR (snd c))%R by (apply IZR_le; unfold inside in Hin; lia).
    split; [lra|]. nra.
  - intros r c Hc (v & Hv & Fv & Bv1 & Bv2). cbn [snd] in *.
    pose proof (interior_inside _ _ _ Hc) as Hin.
    specialize (Hb _ Hin). apply Rabs_le_inv in Hb.
    exists (pymax F64Ops (raise_by short diag (r, c) (r, c - 1) v) (at_ dtm (r, c))).
    split; [apply rc_step; auto; apply adjacent_left|].
    assert (Est : raise_by short diag (r, c) (r, c - 1) v = f64_add v short).
    { unfold raise_by, diagonalb. cbn [fst snd]. rewrite Z.eqb_refl. reflexivity. }
    assert (Hc1 : (0 <= IZR (c - 1))%R) by (apply IZR_le; unfold interior in Hc; cbn in Hc; lia).
    assert (Hc2 : (IZR (c - 1) + 1 <= IZR (2 ^ 50))%R).
    { rewrite <- (plus_IZR (c-1) 1). apply IZR_le. unfold interior in Hc. cbn [fst snd] in Hc. lia. }
    assert (Hcc : IZR c = (IZR (c - 1) + 1)%R) by (rewrite <- (plus_IZR (c-1) 1); f_equal; lia).
    assert (Hcap : (bpow radix2 (j + 43) + 2 * IZR (2 ^ 50) * bpow radix2 j <= bpow radix2 (j + 52))%R).
    { change 2 with (radix_val radix2) at 2. rewrite IZR_Zpower by lia.
      rewrite Rmult_assoc, <- bpow_plus.
      change 2%R with (bpow radix2 1). rewrite <- bpow_plus.
      replace (1 + (50 + j)) with (j + 51) by lia.
      replace (bpow radix2 (j + 52)) with (bpow radix2 (j + 51) + bpow radix2 (j + 51))%R.
      - apply Rplus_le_compat_r. apply bpow_le. lia.
      - replace (j + 52) with (1 + (j + 51)) by lia. rewrite (bpow_plus radix2 1). change (bpow radix2 1) with 2%R. ring. }
    assert (H43 : (bpow radix2 (j + 43) <= bpow radix2 (j + 52))%R) by (apply bpow_le; lia).
    destruct (add_upper v short j) as (Fa & Ba); auto; try lia; try lra.
    { nra. }
    rewrite Est.
    assert (Glo : (- bpow radix2 (j + 43) <= B2R (f64_add v short))%R).
    { assert (rank v <= rank (f64_add v short)).
      { apply add_infl; auto; [apply finite_not_nan; auto|]. apply rank_nonneg_R; auto. lra. }
      apply rank_le_R in H; auto. lra. }
    pose proof (pmax_ok (f64_add v short) (at_ dtm (r, c)) (finite_not_nan _ Fa)
                  (finite_not_nan _ (Hfin _ Hin))) as (O & _). unfold pmax in O.
    destruct O as [->| ->].
    + split; [auto|]. split; [auto|]. rewrite Hcc. nra.
    + split; [apply Hfin; auto|]. split; [lra|]. rewrite Hcc. nra.
Qed.

(** Any state of either sweep whose values are bounded drains strictly. *)
Section Result.
Variable f : raster b64.
Variable mx : b64 -> b64 -> b64.
Hypothesis HS : St rank not_nan f64_inf (fun x => x) dtm mx (raise_by short diag) f.
Variable j : Z.
Hypothesis Hj : -1064 <= j <= 958.
Hypothesis Fs : is_finite short = true.
Hypothesis Bs : B2R short = bpow radix2 j.
Hypothesis Fd : is_finite diag = true.
Hypothesis Bd : (bpow radix2 j <= B2R diag)%R.
Hypothesis Hb : forall c, inside rows cols c ->
  is_finite (at_ f c) = true /\ (Rabs (B2R (at_ f c)) <= bpow radix2 (j + 52))%R.

Lemma nf_lower_neighbour : forall c, interior rows cols c ->
  exists d, adjacent c d /\ inside rows cols d /\ rank (at_ f d) < rank (at_ f c).
Proof.
  intros c Hc. destruct HS as (_ & _ & _ & HU).
  destruct (HU c Hc) as [E|(d & Ha & Hle)].
  - exfalso. destruct (Hb c (interior_inside _ _ _ Hc)) as [Ff _]. rewrite E in Ff. discriminate.
  - pose proof (adjacent_inside _ _ _ _ Hc Ha) as Hdi.
    exists d. split; [auto|]. split; [auto|].
    destruct (Hb d Hdi) as [Ffd Bfd].
    assert (H3 : rank (at_ f d) < rank (raise_by short diag c d (at_ f d))).
    { unfold raise_by. apply add_strict with j; auto; try lia.
      - destruct (diagonalb c d); auto.
      - destruct (diagonalb c d); auto. lra. }
    lia.
Qed.

Lemma nf_strict : forall c, inside rows cols c ->
  drains_strictly rows cols lt64 (at_ f) c.
Proof.
  intros c Hc.
  assert (Hgood : forall c, inside rows cols c -> not_nan (at_ f c)).
  { intros e He. apply finite_not_nan. apply Hb; auto. }
  assert (H : forall n c, inside rows cols c -> Z.to_nat (rank (at_ f c) + RINF) = n ->
             drains_strictly rows cols lt64 (at_ f) c).
  { induction n as [n IH] using (well_founded_induction lt_wf). intros e He En.
    destruct (inside_cases _ _ _ He) as [Hee|Hei]; [apply drs_edge; auto|].
    destruct (nf_lower_neighbour e Hei) as (d & Ha & Hd & Hlt).
    apply drs_step with d; auto.
    - apply lt64_rank; auto.
    - apply (IH (Z.to_nat (rank (at_ f d) + RINF))); auto.
      pose proof (rank_bounds _ (Hgood d Hd)). lia. }
  apply (H _ c Hc eq_refl).
Qed.
End Result.

Lemma cap : forall j n, 0 <= n <= 2 ^ 50 ->
  (bpow radix2 (j + 43) + 2 * IZR n * bpow radix2 j <= bpow radix2 (j + 52))%R.
Proof.
  intros j n Hn.
  assert (Hp : (0 < bpow radix2 j)%R) by apply bpow_gt_0.
  assert (Hc1 : (0 <= IZR n <= IZR (2 ^ 50))%R) by (split; apply IZR_le; lia).
  assert (Hcap : (bpow radix2 (j + 43) + 2 * IZR (2 ^ 50) * bpow radix2 j <= bpow radix2 (j + 52))%R).
  { change 2 with (radix_val radix2) at 2. rewrite IZR_Zpower by lia.
    rewrite Rmult_assoc, <- bpow_plus.
    change 2%R with (bpow radix2 1). rewrite <- bpow_plus.
    replace (1 + (50 + j)) with (j + 51) by lia.
    replace (bpow radix2 (j + 52)) with (bpow radix2 (j + 51) + bpow radix2 (j + 51))%R.
    - apply Rplus_le_compat_r. apply bpow_le. lia.
    - replace (j + 52) with (1 + (j + 51)) by lia. rewrite (bpow_plus radix2 1). change (bpow radix2 1) with 2%R. ring. }
  nra.
Qed.

(** Python sweeps. *)
Lemma nf_bounded : forall f,
  St rank not_nan f64_inf (fun x => x) dtm (pymax F64Ops) (raise_by short diag) f ->
  Fix rank dtm (raise_by short diag) f ->
  exists j, -1064 <= j <= 958 /\ is_finite short = true /\ B2R short = bpow radix2 j /\
  is_finite diag = true /\ (bpow radix2 j <= B2R diag)%R /\
  forall c, inside rows cols c -> is_finite (at_ f c) = true /\ (Rabs (B2R (at_ f c)) <= bpow radix2 (j + 52))%R.
Proof.
  intros f HS HF.
  destruct safe_incr as (j & Hj & Hb & Fs & Bs & Fd & Bd).
  destruct safe_increments_ok as [Hs Hd].
  exists j. do 5 (split; [auto|]). intros c Hc.
  destruct (left_cost j Hj Hb Fs Bs c Hc) as (v & Hv & Fv & Bv1 & Bv2).
  destruct (nf_min dtm short diag Hdem64 Hs Hd f HS HF c v Hv) as [_ Hle].
  destruct HS as ((_ & _ & HI & _) & _). destruct (HI c Hc) as (Gf & _ & Hdf).
  pose proof (rank_finite_bound _ Fv) as Rv. pose proof (rank_finite_bound _ (Hfin c Hc)) as Rd.
  assert (Ff : is_finite (at_ f c) = true) by (apply rank_finite; auto; lia).
  split; [auto|]. apply rank_le_R in Hle, Hdf; auto; [|apply Hfin; auto].
  specialize (Hb c Hc). apply Rabs_le_inv in Hb.
  assert (H43 : (bpow radix2 (j + 43) <= bpow radix2 (j + 52))%R) by (apply bpow_le; lia).
  pose proof (cap j (snd c)) as Hcap. unfold inside in Hc. specialize (Hcap ltac:(lia)).
  apply Rabs_le. lra.
Qed.

(** Compiled sweeps. *)
Definition bnd (j n : Z) : Z := (2 ^ 43 + 2 * n) * 2 ^ (j + 1074).

Lemma bnd_R : forall j n, -1064 <= j ->
  (IZR (bnd j n) * bpow radix2 (-1074))%R = (bpow radix2 (j + 43) + 2 * IZR n * bpow radix2 j)%R.
Proof.
  intros j n Hj. unfold bnd. rewrite mult_IZR, plus_IZR, mult_IZR.
  change 2 with (radix_val radix2) at 1 3. rewrite !IZR_Zpower by lia.
  rewrite Rmult_assoc, <- bpow_plus. replace (j + 1074 + -1074) with j by lia.
  rewrite Rmult_plus_distr_r, <- bpow_plus. replace (43 + j) with (j + 43) by lia. reflexivity.
Qed.

Lemma rank_le_bnd : forall x j n, -1064 <= j -> is_finite x = true ->
  (rank x <= bnd j n <-> (B2R x <= bpow radix2 (j + 43) + 2 * IZR n * bpow radix2 j)%R).
Proof.
  intros x j n Hj Hx. rewrite <- bnd_R by auto. rewrite (B2R_rank x Hx).
  assert (0 < bpow radix2 (-1074))%R by apply bpow_gt_0.
  split; intros H1.
  - apply Rmult_le_compat_r; [lra|]. apply IZR_le; auto.
  - apply le_IZR. apply Rmult_le_reg_r in H1; auto.
Qed.

Lemma nf_cy_run : 4 <= rows -> 4 <= cols -> rows <= 2 ^ 50 -> exists f j,
  St rank not_nan f64_inf (fun x => x) dtm (cy_max F64Ops) (raise_by short diag) f /\
  -1064 <= j <= 958 /\ is_finite short = true /\ B2R short = bpow radix2 j /\
  is_finite diag = true /\ (bpow radix2 j <= B2R diag)%R /\
  (forall c, inside rows cols c -> is_finite (at_ f c) = true /\ (Rabs (B2R (at_ f c)) <= bpow radix2 (j + 52))%R) /\
  exists k, forall fuel, (fuel >= k)%nat -> fill_nf64_cy short diag fuel dtm = Ok f.
Proof.
  intros H4r H4c Hr50.
  destruct safe_incr2 as (j & Hj & Hb & Fs & Bs & Fd & Bd & Bd2).
  destruct safe_increments_ok as [Hs Hd].
  assert (Hp : (0 < bpow radix2 j)%R) by apply bpow_gt_0.
  assert (H43 : (bpow radix2 (j + 43) <= bpow radix2 (j + 52))%R) by (apply bpow_le; lia).
  assert (Hbi : forall n, n <= rows -> bnd j n < rank f64_inf).
  { intros n Hn. unfold f64_inf. rewrite rank_pinf.
    unfold bnd. assert (2 ^ 43 + 2 * n <= 2 ^ 52) by (assert (2 ^ 50 * 4 = 2 ^ 52) by reflexivity; assert (2 ^ 43 <= 2 ^ 50) by (vm_compute; discriminate); lia).
    assert (H2 : 2 ^ (j + 1074) <= 2 ^ 2032) by (apply Z.pow_le_mono_r; lia).
    assert (0 < 2 ^ (j + 1074)) by (apply Z.pow_pos_nonneg; lia).
    assert ((2 ^ 43 + 2 * n) * 2 ^ (j + 1074) <= 2 ^ 52 * 2 ^ 2032).
    { apply Z.le_trans with (2 ^ 52 * 2 ^ (j + 1074)); [apply Z.mul_le_mono_nonneg_r; lia | apply Z.mul_le_mono_nonneg_l; lia]. }
    assert (2 ^ 52 * 2 ^ 2032 < RINF) by (rewrite RINF_val; vm_compute; reflexivity). lia. }
  destruct (fill_nf64_cy_run dtm short diag Hrows Hcols Hdem64 Hs Hd H4r H4c (bnd j)) as (f & k & HS & HF & HL).
  - intros n m Hnm. unfold bnd. apply Z.mul_le_mono_nonneg_r; [apply Z.pow_nonneg; lia | lia].
  - exact Hbi.
  - intros n c d v Hn Hc Ha Gv Hlo Hhi.
    pose proof (adjacent_inside _ _ _ _ Hc Ha) as Hdi.
    pose proof (rank_finite_bound _ (Hfin d Hdi)) as Rd. pose proof (Hbi n ltac:(lia)) as Hbn.
    unfold f64_inf in Hbn. rewrite rank_pinf in Hbn.
    assert (Fv : is_finite v = true) by (apply rank_finite; auto; lia).
    apply rank_le_bnd in Hhi; auto; try lia. apply rank_le_R in Hlo; auto; [|apply Hfin; auto].
    specialize (Hb d Hdi). apply Rabs_le_inv in Hb.
    pose proof (cap j (n + 1) ltac:(lia)) as Hcap.
    rewrite plus_IZR in Hcap.
    assert (Hn0 : (0 <= IZR n)%R) by (apply IZR_le; lia).
    set (inc := if diagonalb c d then diag else short).
    assert (Hinc : is_finite inc = true /\ (bpow radix2 j <= B2R inc <= 3/2 * bpow radix2 j)%R).
    { unfold inc. destruct (diagonalb c d); [auto|]. rewrite Bs. split; auto; lra. }
    destruct Hinc as (Fi & Bi1 & Bi2).
    destruct (add_upper2 v inc j) as (Fa & Ba); auto; try lia; try lra; try nra.
    apply rank_le_bnd; auto; try lia. rewrite plus_IZR. unfold raise_by. fold inc. lra.
  - intros c Hc. apply rank_le_bnd; [lia | apply Hfin; auto |]. specialize (Hb c Hc). apply Rabs_le_inv in Hb. lra.
  - exists f, j. split; [auto|]. do 5 (split; [auto|]). split; [|exists k; auto].
    intros c Hc. specialize (HF c Hc). pose proof (Hbi rows ltac:(lia)) as Hbn.
    unfold f64_inf in Hbn. rewrite rank_pinf in Hbn.
    destruct HS as ((_ & _ & HI & _) & _). destruct (HI c Hc) as (Gf & _ & Hdf).
    pose proof (rank_finite_bound _ (Hfin c Hc)) as Rd.
    assert (Ff : is_finite (at_ f c) = true) by (apply rank_finite; auto; lia).
    split; [auto|]. apply rank_le_bnd in HF; auto; try lia. apply rank_le_R in Hdf; auto; [|apply Hfin; auto].
    specialize (Hb c Hc). apply Rabs_le_inv in Hb.
    pose proof (cap j rows ltac:(lia)) as Hcap. apply Rabs_le. lra.
Qed.
End Safe.

(** Float32 values are below 2^1000 in magnitude. *)
Lemma f32_small : forall x, is_f32 x -> finite64 x -> le64 (Babs x) (f64 1 1000).
Proof.
  intros x Hx Hf. destruct f64_1_1000 as [F1 F2].
  unfold le64. rewrite Bleb_correct; [|rewrite is_finite_Babs; auto|auto].
  rewrite B2R_Babs, F2. apply Rle_bool_true.
  unfold is_f32, store32 in Hx.
  set (y := f64_to_f32 x) in *. clearbody y. rewrite <- Hx in *. clear Hx.
  destruct y as [s|s| |s m e H]; cbn [f32_to_f64 B2R] in *.
  - rewrite Rabs_R0. apply bpow_ge_0.
  - discriminate.
  - discriminate.
  - pose proof (abs_B2R_lt_emax 24 128 (B754_finite s m e H)) as Hb. cbn [B2R] in Hb.
    pose proof (binary_normalize_correct 53 1024 _ _ mode_NE (cond_Zopp s (Zpos m)) e s) as Hn.
    set (z := F2R {| Fnum := cond_Zopp s (Zpos m); Fexp := e |}) in *. cbn zeta in Hn.
    assert (Hr : (Rabs (rnd64 z) <= bpow radix2 128)%R).
    { apply abs_round_le_generic; auto with typeclass_instances; [apply fmt_bpow; lia|]. lra. }
    rewrite Rlt_bool_true in Hn.
    + destruct Hn as (Hn1 & _). unfold f64 in *. rewrite Hn1. apply Rle_trans with (1 := Hr).
      apply bpow_le. lia.
    + apply Rle_lt_trans with (1 := Hr). apply bpow_lt. lia.
Qed.
