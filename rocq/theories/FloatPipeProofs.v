(** * Proofs about the complete command in floats *)

From Coq Require Import QArith Qabs Qreals Reals Lra Lia Permutation.
From Flocq Require Import Core IEEE754.BinarySingleNaN.
From Verif Require Import Base AccumProofs BaseProofs Num Dict DictProofs Float64 Float64Proofs Float64Arith Float64Scale Float32Proofs FillModel FillProofs FillSpec
  FlowModel FlowSpec DemModel DemProofs LevelProofs LabelModel LabelSpec LabelProofs CompSpec CompProofs VectorModel BluespotModel BluespotSpec BluespotProofs
  NetModel NetSpec NetThms NetworkModel NetworkSpec NetworkThms NetworkFloatSpec NetworkFloatThms RainModel PipelineModel RainProofs FloatQ
  CompleteThms RoundSpec RoundProofs RoundThms RoundNetThms FloatPipeModel FloatPipeSpec.
Local Open Scope R_scope.

(** ** Differences of float32 values are float32 values *)
Lemma narrow_widen : forall y : b32, f64_to_f32 (f32_to_f64 y) = y.
Proof.
  intros y. destruct y as [s|s| |s m e B] eqn:Ey; try reflexivity. rewrite <- Ey.
  assert (F : is_finite y = true) by (rewrite Ey; reflexivity).
  assert (N : B2R y <> 0) by (rewrite Ey; cbn; apply F2R_neq_0; cbn; destruct s; discriminate).
  destruct (widen y F) as [Fw W].
  destruct (f32_to_f64 y) as [s'|s'| |s' m' e' B'] eqn:Ez; try discriminate Fw; [cbn in W; congruence|].
  cbn [f64_to_f32]. pose proof (binary_normalize_correct 24 128 _ _ mode_NE (cond_Zopp s' (Zpos m')) e' s') as H. cbv zeta in H.
  change (F2R (Float radix2 (cond_Zopp s' (Zpos m')) e')) with (B2R (B754_finite s' m' e' B' : b64)) in H.
  rewrite W in H. rewrite round_generic in H; [|auto with typeclass_instances|apply (generic_format_B2R 24 128 y)].
  rewrite Rlt_bool_true in H by (apply abs_B2R_lt_emax).
  destruct H as (H & Hf & _). set (z := binary_normalize _ _ _ _ _ _ _ _) in *.
  apply B2R_inj; [| |exact H].
  - destruct z as [a|a| |a b c d]; try discriminate Hf; [cbn in H; congruence|reflexivity].
  - rewrite Ey. reflexivity.
Qed.

Lemma sub_is_f32 : forall x y, is_f32 (f32_sub x y).
Proof. intros x y. unfold is_f32, store32, f32_sub. rewrite narrow_widen. reflexivity. Qed.

Lemma within_near : forall k x y, (0 <= k)%Z -> (0 <= y)%Q -> within k x y -> near (Z.to_nat k) (Q2R x) (Q2R y).
Proof.
  intros k x y K Y [A B]. unfold within in *. rewrite <- (Z2Nat.id k K) in A, B.
  apply Qle_Rle in A, B. rewrite Q2R_mult, Q2R_pow in A, B. rewrite Q2R_minus, Q2R_u in A. rewrite Q2R_plus, Q2R_u in B.
  change (Q2R 1) with (1 * / 1) in A, B. rewrite Rinv_1, Rmult_1_r in A, B.
  apply Qle_Rle in Y. replace (Q2R 0) with 0 in Y by (unfold Q2R; cbn; lra). split; [exact Y|]. split; [exact A|exact B].
Qed.

Lemma within_more : forall k m x y, (0 <= k <= m)%Z -> (0 <= y)%Q -> within k x y -> within m x y.
Proof.
  intros k m x y K Y W. apply near_within; [|lia]. apply near_more with (Z.to_nat k); [lia|]. apply within_near; auto; lia.
Qed.

Lemma within_eq : forall k x y z, (y == z)%Q -> within k x y -> within k x z.
Proof. intros k x y z E [A B]. unfold within in *. rewrite E in A, B. split; assumption. Qed.

Lemma within_zero : forall k, within k 0 0.
Proof. intros k. unfold within. rewrite !Qmult_0_r. split; apply Qle_refl. Qed.

(** ** The rain on a watershed *)
Lemma milli_near : is_finite (milli F64Ops) = true /\ near 1 (B2R (milli F64Ops)) (Q2R (milli QOps)) /\ bpow radix2 (-10) <= B2R (milli F64Ops).
Proof.
  assert (F : is_finite (milli F64Ops) = true) by (vm_compute; reflexivity).
  assert (L : bpow radix2 (-10) <= B2R (milli F64Ops)).
  { assert (X : Bleb (f64 1 (-10)) (milli F64Ops) = true) by (vm_compute; reflexivity).
    rewrite Bleb_correct in X; [|vm_compute; reflexivity|exact F].
    apply Rle_bool_true_iff in X || (destruct (Rle_bool_spec (B2R (f64 1 (-10))) (B2R (milli F64Ops))); [|discriminate]).
    replace (bpow radix2 (-10)) with (B2R (f64 1 (-10))); [assumption|].
    rewrite <- b64_Q_R. unfold Q2R. vm_compute (b64_Q _). cbn. lra. }
  split; [exact F|]. split; [|exact L].
  destruct (ofZ_exact 1 ltac:(lia)) as [F1 E1]. destruct (ofZ_exact 1000 ltac:(lia)) as [F2 E2].
  replace (Q2R (milli QOps)) with (1 / 1000).
  2:{ unfold Q2R. cbn. lra. }
  change (milli F64Ops) with (f64_div (f64_ofZ 1) (f64_ofZ 1000)) in *.
  apply (div_near 0 0); auto.
  - rewrite E1. apply near_refl. lra.
  - rewrite E2. apply near_refl. lra.
  - right. rewrite E1, E2. apply Rle_trans with (bpow radix2 (-10)); [apply bpow_le; lia|].
    change (bpow radix2 (-10)) with (/ 1024). lra.
Qed.

Lemma f64_1 : forall z, nofZ F64Ops z = f64_ofZ z. Proof. reflexivity. Qed.

Lemma bpow_rnd : forall e x, (-1000 <= e)%Z -> bpow radix2 e <= x -> bpow radix2 e <= rnd64 x.
Proof.
  intros e x L H. apply Rle_trans with (rnd64 (bpow radix2 e)); [|apply rnd64_le; exact H].
  rewrite round_generic; [apply Rle_refl|auto with typeclass_instances|].
  apply generic_format_bpow. unfold SpecFloat.fexp, SpecFloat.emin. lia.
Qed.

Lemma rain_near : forall (w mm : b64) W, ordinary mm -> le64 f64_zero mm ->
  near 3 (B2R w) W -> B2R w = 0 \/ bpow radix2 (-602) <= B2R w ->
  is_finite (f64_mul (f64_mul w mm) (milli F64Ops)) = true ->
  near 6 (B2R (f64_mul (f64_mul w mm) (milli F64Ops))) (W * B2R mm * Q2R (milli QOps)).
Proof.
  intros w mm W O P N L F. destruct (ordinary_R _ O) as [Fm Lm].
  destruct milli_near as (Fi & Ni & Li). destruct (mul_rnd _ _ F) as (F1 & _ & _). destruct (mul_rnd _ _ F1) as (_ & _ & E1).
  assert (M0 : 0 <= B2R mm).
  { apply pos64_R; auto. rewrite le64_rank in P; [exact P|reflexivity|]. destruct mm; try discriminate Fm; reflexivity. }
  rewrite Rabs_pos_eq in Lm by exact M0.
  assert (P1 : B2R w * B2R mm = 0 \/ bpow radix2 (-902) <= B2R w * B2R mm).
  { destruct L as [-> |L]; [left; ring|right]. change (-902)%Z with (-602 + -300)%Z. rewrite bpow_plus.
    apply Rmult_le_compat; auto using bpow_ge_0. }
  assert (N1 : near 4 (B2R (f64_mul w mm)) (W * B2R mm)).
  { apply (mul_near 3 0); auto; [apply near_refl; exact M0|].
    destruct P1 as [P1|P1]; [left; exact P1|right]. eapply Rle_trans; [|exact P1]. apply bpow_le. lia. }
  apply (mul_near 4 1); auto. rewrite E1. destruct P1 as [P1|P1]; [left; rewrite P1, rnd64_0; ring|right].
  apply Rle_trans with (bpow radix2 (-902) * bpow radix2 (-10)); [rewrite <- bpow_plus; apply bpow_le; lia|].
  apply Rmult_le_compat; auto using bpow_ge_0. apply bpow_rnd; [lia|exact P1].
Qed.

(** ** Both runs have the same pour points *)
Section Chain.
Variable cc : raster bool -> raster Z * Z.
Hypothesis Hcc : labels_components cc.
Variable sp : bool.
Variables (fuel fuel' : nat) (t1 t5 : b64) (dem : raster b64) (dout : dem_out) (t : geotransform b64)
  (f : @unit_stats b64 -> bool) (accum : option (raster b64)) (out : bluespot_out).
Hypothesis SO : size_ok sp dem.
Hypothesis H32 : dem32 dem.
Hypothesis HF : dem_finite dem.
Hypothesis Big : (nrows dem * ncols dem <= 2 ^ 53)%Z.
Hypothesis HD : dem_process sp fuel t1 t5 dem = Ok dout.
Hypothesis HB : bluespot_process sp cc fuel' t (do_depths dout) (do_flowdir dout) (Some f) accum (Some dem) = Ok out.
Hypothesis O1 : ordinary (gt1 t).
Hypothesis O5 : ordinary (gt5 t).
Variable pps : list (@pourpoint Q).
Hypothesis HP : exact_pourpoints t (do_depths dout) out = Ok pps.

Let N : Z := (nrows dem * ncols dem)%Z.

Lemma depths_ok : forall c, inside (nrows (do_depths dout)) (ncols (do_depths dout)) c ->
  is_f32 (at_ (do_depths dout) c) /\ le64 f64_zero (at_ (do_depths dout) c).
Proof.
  destruct (depths_facts sp fuel t1 t5 dem dout SO H32 HF HD) as (Sd & Dp & _). intros c Hc.
  split; [|apply Dp; destruct Sd as [-> ->]; exact Hc].
  unfold dem_process in HD. destruct (negb (square_cells t1 t5)); [discriminate HD|].
  apply bind_ok in HD. destruct HD as (fl & _ & H). apply bind_ok in H. destruct H as ((sh & dg) & _ & H).
  apply bind_ok in H. destruct H as (nf & _ & H). apply bind_ok in H. destruct H as (fd & _ & H).
  apply bind_ok in H. destruct H as (ac & _ & H). injection H as <-. cbn [do_depths]. apply sub_is_f32.
Qed.

Lemma ids64 : map pp_id (bo_pourpoints out) = zseq 0 (length (bo_pourpoints out)) /\ length (bo_pourpoints out) = length pps.
Proof.
  destruct (depths_facts sp fuel t1 t5 dem dout SO H32 HF HD) as (Sd & _ & _).
  destruct (dem_flow sp fuel t1 t5 dem dout SO H32 HF HD) as (Sf & D & _).
  assert (Hr : (1 <= nrows (do_depths dout))%Z) by (destruct Sd as [<- _]; destruct sp; cbn in SO; lia).
  assert (Hc : (1 <= ncols (do_depths dout))%Z) by (destruct Sd as [_ <-]; destruct sp; cbn in SO; lia).
  assert (Sdf : same_shape (do_depths dout) (do_flowdir dout)) by (destruct Sd, Sf; split; congruence).
  destruct (process_pourpoints cc Hcc sp fuel' t _ _ _ _ _ _ Hr Hc Sdf D HB) as (pix & _ & _ & Lp & _ & _ & G).
  destruct (pps_stats cc Hcc sp fuel fuel' t1 t5 dem dout t f accum out SO H32 HF HD HB pps HP) as (_ & _ & _ & Lq & _).
  split; [|lia]. apply nth_ext with (d := 0%Z) (d' := 0%Z); [rewrite map_length, zseq_length; reflexivity|].
  rewrite map_length. intros k Hk. rewrite zseq_nth by exact Hk.
  destruct (G (Z.of_nat k)) as (p & r & cs & ws & Ep & _ & _ & _ & Ei & _); [lia|]. rewrite Nat2Z.id in Ep.
  rewrite (nth_indep _ 0%Z (pp_id p)) by (rewrite map_length; exact Hk).
  rewrite (map_nth pp_id). rewrite (nth_error_nth _ _ p Ep). lia.
Qed.

Lemma cells_bound : forall lab l cs, same_shape dem lab -> lists_cells (has_label lab l) cs -> (Z.of_nat (length cs) <= N)%Z.
Proof.
  intros lab l cs [E1 E2] [S1 S2]. assert (L : (length cs <= length (rcells lab))%nat).
  { apply NoDup_incl_length; [apply SS_nodup; exact S1|]. intros c Hc. apply S2 in Hc. destruct Hc as [I _]. apply in_cells_of. exact I. }
  unfold rcells in L. rewrite length_cells_of, <- E1, <- E2 in L. unfold N.
  assert (1 <= nrows dem)%Z by (destruct sp; cbn in SO; lia). assert (1 <= ncols dem)%Z by (destruct sp; cbn in SO; lia).
  assert (Z.of_nat (Z.to_nat (nrows dem) * Z.to_nat (ncols dem)) = nrows dem * ncols dem)%Z by (rewrite Nat2Z.inj_mul, !Z2Nat.id; auto; lia).
  lia.
Qed.

Lemma pp_pair : forall k p q, nth_error (bo_pourpoints out) k = Some p -> nth_error pps k = Some q ->
  pp_row p = pp_row q /\ pp_col p = pp_col q /\ pp_id p = pp_id q /\ (0 <= pp_vol q)%Q /\ (0 <= pp_wshed q)%Q /\
  (finite64 (pp_vol p) -> within (N + 1) (b64_Q (pp_vol p)) (pp_vol q)) /\
  (finite64 (pp_wshed p) -> near 3 (B2R (pp_wshed p)) (Q2R (pp_wshed q)) /\
     (B2R (pp_wshed p) = 0 \/ bpow radix2 (-602) <= B2R (pp_wshed p))).
Proof.
  intros k p q Hp Hq.
  destruct ids64 as [I64 L64].
  destruct (exact_pps cc Hcc sp fuel fuel' t1 t5 dem dout t f accum out SO H32 HF HD HB) as (pps' & HP' & Ec & Ei & _ & Pq).
  assert (pps' = pps) by congruence. subst pps'.
  destruct (depths_facts sp fuel t1 t5 dem dout SO H32 HF HD) as (Sd & _ & _).
  destruct (dem_flow sp fuel t1 t5 dem dout SO H32 HF HD) as (Sf & D & _).
  assert (Hr : (1 <= nrows (do_depths dout))%Z) by (destruct Sd as [<- _]; destruct sp; cbn in SO; lia).
  assert (Hc : (1 <= ncols (do_depths dout))%Z) by (destruct Sd as [_ <-]; destruct sp; cbn in SO; lia).
  assert (Sdf : same_shape (do_depths dout) (do_flowdir dout)) by (destruct Sd, Sf; split; congruence).
  destruct (pps_stats cc Hcc sp fuel fuel' t1 t5 dem dout t f accum out SO H32 HF HD HB pps HP) as (Sl & _ & _ & Lq & _ & St).
  destruct (pourpoints_rounded cc Hcc sp fuel' t _ _ f accum (Some dem) out Hr Hc Sdf D depths_ok O1 O5 HB p (nth_error_In _ _ Hp))
    as (cs & ws & Lc & Lw & _ & Ww & Wv & _).
  assert (Kl : (k < length pps)%nat) by (apply nth_error_Some; congruence).
  assert (Ip : pp_id p = Z.of_nat k).
  { assert (X : nth_error (map pp_id (bo_pourpoints out)) k = Some (pp_id p)) by (rewrite nth_error_map, Hp; auto).
    rewrite I64, (nth_error_nth' _ 0%Z) in X by (rewrite zseq_length; lia). rewrite zseq_nth in X by lia. injection X as <-. lia. }
  assert (Iq : pp_id q = Z.of_nat k).
  { assert (X : nth_error (map pp_id pps) k = Some (pp_id q)) by (rewrite nth_error_map, Hq; auto).
    rewrite Ei, (nth_error_nth' _ 0%Z) in X by (rewrite zseq_length; lia). rewrite zseq_nth in X by lia. injection X as <-. lia. }
  assert (RC : (pp_row p, pp_col p) = (pp_row q, pp_col q)).
  { assert (X : nth_error (map (fun p => (pp_row p, pp_col p)) pps) k = Some (pp_row q, pp_col q)) by (rewrite nth_error_map, Hq; auto).
    rewrite Ec in X. unfold pps_of in X. rewrite nth_error_map, Hp in X. cbn in X. congruence. }
  injection RC as R1 R2.
  destruct (Pq q (nth_error_In _ _ Hq)) as (Vq & ws' & Lw' & Wq). rewrite Iq in Lw'. rewrite Ip in Lc, Lw.
  assert (ws' = ws) by (eapply lists_unique; eauto). subst ws'.
  destruct (St (Z.of_nat k)) as (q' & cs' & Eq & Lc' & Vq' & _); [lia|]. rewrite Nat2Z.id, Hq in Eq. injection Eq as <-.
  assert (cs' = cs) by (eapply lists_unique; eauto). subst cs'.
  assert (A0 : (0 <= area_Q (gt1 t) (gt5 t))%Q) by (apply Qmult_le_0_compat; apply Qabs_nonneg).
  assert (AQ : (Qabs (gt1 (gt_Q t)) * Qabs (gt5 (gt_Q t)) == area_Q (gt1 t) (gt5 t))%Q) by reflexivity.
  assert (W0 : (0 <= pp_wshed q)%Q).
  { rewrite Wq, AQ. apply Qmult_le_0_compat; [|exact A0]. change 0%Q with (inject_Z 0). rewrite <- Zle_Qle. lia. }
  split; [exact R1|]. split; [exact R2|]. split; [congruence|]. split; [exact Vq|]. split; [exact W0|]. split.
  - intros F. destruct (Wv F) as [_ W]. apply within_more with (Z.of_nat (length cs) + 1)%Z.
    + pose proof (cells_bound _ _ _ Sl Lc). lia.
    + exact Vq.
    + eapply within_eq; [|exact W]. rewrite Vq', AQ. rewrite Qmult_comm. apply Qmult_comp; [reflexivity|].
      unfold raster_Q, at_. reflexivity.
  - intros F. specialize (Ww F).
    assert (Nr : near 3 (B2R (pp_wshed p)) (Q2R (pp_wshed q))).
    { rewrite <- b64_Q_R. apply (within_near 3); [lia|exact W0|]. eapply within_eq; [|exact Ww]. rewrite Wq, AQ. reflexivity. }
    split; [exact Nr|]. destruct ws as [|c0 ws0].
    + left. destruct Nr as (_ & A & B). assert (Z0 : Q2R (pp_wshed q) = 0).
      { rewrite (Qeq_eqR _ _ Wq). cbn [length]. rewrite Q2R_mult. replace (Q2R (inject_Z (Z.of_nat 0))) with 0; [ring|unfold Q2R; cbn; lra]. }
      rewrite Z0, Rmult_0_r in A, B. lra.
    + right. destruct Nr as (_ & A & _). eapply Rle_trans; [|exact A]. rewrite (Qeq_eqR _ _ Wq), Q2R_mult, Q2R_ofZ.
      rewrite (Qeq_eqR _ _ AQ), area_Q_R. pose proof (A_low t O1 O5) as Lo.
      assert (W1 : 1 <= IZR (Z.of_nat (length (c0 :: ws0)))) by (apply IZR_le; cbn [length]; lia).
      set (A' := Rabs (B2R (gt1 t)) * Rabs (B2R (gt5 t))) in *. set (wz := IZR (Z.of_nat (length (c0 :: ws0)))) in *.
      assert (h3 : / 4 <= (1 - u53) ^ 3).
      { assert (u53 <= / 8). { unfold u53. change (/ 8) with (bpow radix2 (-3)). apply bpow_le. lia. }
        pose proof u53_pos. assert (X : (/ 2 + / 4) ^ 3 <= (1 - u53) ^ 3) by (apply pow_incr; lra). cbn in X |- *. lra. }
      change (-602)%Z with (-2 + -600)%Z. rewrite bpow_plus. change (bpow radix2 (-2)) with (/ 4).
      apply Rmult_le_compat; [lra|apply bpow_ge_0|exact h3|].
      pose proof (bpow_gt_0 radix2 (-600)). rewrite <- (Rmult_1_l (bpow radix2 (-600))). apply Rmult_le_compat; lra.
Qed.
End Chain.
