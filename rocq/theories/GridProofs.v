(** * DEMs whose elevations are whole multiples of a power of two *)

From Coq Require Import Reals QArith Qreals Lra.
From Flocq Require Import Core IEEE754.BinarySingleNaN.
From Verif Require Import Base Num Float64 Float64Proofs Float32Proofs FillModel FillSpec FillProofs FillThms DemModel DemProofs
  LabelModel LabelSpec CompSpec BluespotSpec PipelineModel FloatQ LevelProofs.
Local Open Scope Z_scope.

(** A whole number below 2^24 times 2^-k. *)
Definition on_grid (k : Z) (x : b64) : Prop :=
  exists m, 0 <= m < 2 ^ 24 /\ (b64_Q x * inject_Z (2 ^ k) == inject_Z m)%Q.
Definition grid_dem (k : Z) (dem : raster b64) : Prop :=
  0 <= k <= 149 /\ forall c, inside (nrows dem) (ncols dem) c -> on_grid k (at_ dem c).

Lemma on_grid_R : forall k x, 0 <= k -> on_grid k x -> exists m, 0 <= m < 2 ^ 24 /\ B2R x = F2R (Float radix2 m (- k)).
Proof.
  intros k x K (m & M & E). exists m. split; auto. apply Qeq_eqR in E. rewrite Q2R_mult, b64_Q_R in E.
  unfold F2R. cbn [Fnum Fexp]. rewrite bpow_opp. assert (P : (0 < bpow radix2 k)%R) by apply bpow_gt_0.
  replace (Q2R (inject_Z (2 ^ k))) with (bpow radix2 k) in E.
  - replace (Q2R (inject_Z m)) with (IZR m) in E by (unfold Q2R, inject_Z; cbn [Qnum Qden]; lra).
    rewrite <- E. field. lra.
  - unfold Q2R, inject_Z. cbn [Qnum Qden]. rewrite <- (IZR_Zpower radix2) by lia. change (radix2 : Z) with 2. lra.
Qed.

Lemma grid_format : forall m k, Z.abs m < 2 ^ 24 -> 0 <= k <= 149 ->
  generic_format radix2 (SpecFloat.fexp 24 128) (F2R (Float radix2 m (- k))).
Proof.
  intros m k M K. apply generic_format_F2R. intros N. unfold cexp, SpecFloat.fexp, SpecFloat.emin.
  assert (X : mag radix2 (F2R (Float radix2 m (- k))) <= 24 - k).
  { apply mag_le_bpow.
    - apply F2R_neq_0. exact N.
    - unfold F2R. cbn [Fnum Fexp]. rewrite Rabs_mult, (Rabs_pos_eq (bpow radix2 (- k))) by apply bpow_ge_0.
      replace (24 - k) with (24 + - k) by lia. rewrite bpow_plus. apply Rmult_lt_compat_r; [apply bpow_gt_0|].
      rewrite <- abs_IZR. change (bpow radix2 24) with (IZR (2 ^ 24)). apply IZR_lt. exact M. }
  lia.
Qed.

(** Differences of such elevations are computed exactly in float32. *)
Lemma grid_sub : forall k x y, 0 <= k <= 149 -> is_f32 x -> is_f32 y -> finite64 x -> finite64 y -> on_grid k x -> on_grid k y ->
  finite64 (f32_sub x y) /\ (b64_Q (f32_sub x y) == b64_Q x - b64_Q y)%Q.
Proof.
  intros k x y K Sx Sy Fx Fy Gx Gy.
  destruct (on_grid_R k x ltac:(lia) Gx) as (m & M & Ex). destruct (on_grid_R k y ltac:(lia) Gy) as (p & P & Ey).
  destruct (narrow x Sx Fx) as [Na Ra], (narrow y Sy Fy) as [Nb Rb].
  assert (D : (B2R x - B2R y = F2R (Float radix2 (m - p) (- k)))%R).
  { rewrite Ex, Ey. unfold F2R. cbn [Fnum Fexp]. rewrite minus_IZR. ring. }
  assert (Gd : generic_format radix2 (SpecFloat.fexp 24 128) (B2R x - B2R y)).
  { rewrite D. apply grid_format; lia. }
  unfold f32_sub. pose proof (Bminus_correct 24 128 _ _ mode_NE (f64_to_f32 x) (f64_to_f32 y) Na Nb) as H.
  rewrite Ra, Rb, (round_generic radix2 _ _ _ Gd) in H. rewrite Rlt_bool_true in H.
  - destruct H as (H1 & H2 & _). destruct (widen _ H2) as [W1 W2]. split; [exact W1|].
    apply eqR_Qeq. rewrite Q2R_minus, !b64_Q_R. congruence.
  - rewrite D. unfold F2R. cbn [Fnum Fexp]. rewrite Rabs_mult, (Rabs_pos_eq (bpow radix2 (- k))) by apply bpow_ge_0.
    apply Rle_lt_trans with (bpow radix2 24 * 1)%R.
    + apply Rmult_le_compat; try apply Rabs_pos; try apply bpow_ge_0.
      * rewrite <- abs_IZR. change (bpow radix2 24) with (IZR (2 ^ 24)). apply IZR_le. lia.
      * change 1%R with (bpow radix2 0). apply bpow_le. lia.
    + rewrite Rmult_1_r. apply bpow_lt. lia.
Qed.

Lemma on_grid_eq : forall k x y, (b64_Q x == b64_Q y)%Q -> on_grid k x -> on_grid k y.
Proof. intros k x y E (m & M & Em). exists m. split; auto. rewrite <- E. exact Em. Qed.

(** ** The filled level of a cell is the elevation of some cell *)
Lemma escape_max : forall rows cols (g : cell -> b64), (forall c, inside rows cols c -> not_nan (g c)) ->
  forall L c, not_nan L -> escapes le64 rows cols g L c ->
  exists d, inside rows cols d /\ le64 (g d) L /\ escapes le64 rows cols g (g d) c.
Proof.
  intros rows cols g N L c NL E. induction E as [c He Hl|c d Hi Hl A E IH].
  - pose proof (proj1 He) as Hi. exists c. split; auto. split; auto. apply esc_edge; auto. apply le64_rank; auto. lia.
  - destruct IH as (x & Ix & Lx & Ex). destruct (Z_le_gt_dec (rank (g c)) (rank (g x))) as [X|X].
    + exists x. split; auto. split; auto. apply esc_step with d; auto. apply le64_rank; auto.
    + exists c. split; auto. split; auto. apply esc_step with d; auto; [apply le64_rank; auto; lia|].
      clear - Ex X N Ix Hi. induction Ex as [e He Hl|e f He Hl A E IH].
      * apply esc_edge; auto. pose proof (proj1 He). apply le64_rank; auto. apply le64_rank in Hl; auto. lia.
      * apply esc_step with f; auto. apply le64_rank; auto. apply le64_rank in Hl; auto. lia.
Qed.

Theorem filled_is_elevation : forall dem, 2 <= nrows dem -> 2 <= ncols dem -> dem32 dem ->
  forall fuel f, fill64 fuel dem = Ok f -> forall c, inside (nrows dem) (ncols dem) c ->
  exists d, inside (nrows dem) (ncols dem) d /\ eq64 (at_ f c) (at_ dem d).
Proof.
  intros dem Hr Hc H32 fuel f E c Hi.
  destruct (fill64_basic dem Hr Hc H32 fuel f E) as (A & B & F32 & _).
  assert (Nf : not_nan (at_ f c)) by (apply F32; rewrite A, B; auto).
  assert (N : forall d, inside (nrows dem) (ncols dem) d -> not_nan (at_ dem d)) by (intros; apply H32; auto).
  pose proof (proj1 (fill64_level dem Hr Hc H32 fuel f E c (at_ f c) Hi Nf)) as X.
  destruct (escape_max _ _ _ N (at_ f c) c Nf) as (d & Id & Ld & Ed).
  { apply X. apply le64_rank; auto. lia. }
  exists d. split; auto. apply (fill64_level dem Hr Hc H32 fuel f E c (at_ dem d) Hi (N d Id)) in Ed.
  apply le64_rank in Ld; auto. apply le64_rank in Ed; auto. apply eq64_rank; auto. lia.
Qed.

Theorem grid_depths : forall k fuel t1 t5 dem dout, 2 <= nrows dem -> 2 <= ncols dem <= 2 ^ 50 -> dem32 dem -> dem_finite dem ->
  grid_dem k dem -> dem_process false fuel t1 t5 dem = Ok dout ->
  forall c, inside (nrows dem) (ncols dem) c ->
  finite64 (at_ (do_depths dout) c) /\
  (b64_Q (at_ (do_depths dout) c) == b64_Q (at_ (do_filled dout) c) - b64_Q (at_ dem c))%Q.
Proof.
  intros k fuel t1 t5 dem dout Hr Hc H32 HF (K & G) H c Hi.
  destruct (filled_facts false fuel t1 t5 dem dout (conj Hr Hc) H32 HF H) as (Er & Ec & F32 & FF & Ge & Ed & ED).
  destruct (dem_process_parts _ _ _ _ _ _ H) as (_ & E & _).
  destruct (filled_is_elevation dem Hr ltac:(lia) H32 _ _ E c Hi) as (d & Id & Eq).
  assert (If : inside (nrows (do_filled dout)) (ncols (do_filled dout)) c) by (rewrite Er, Ec; auto).
  rewrite ED. change (at_ (raster_sub32 (do_filled dout) dem) c) with (f32_sub (at_ (do_filled dout) c) (at_ dem c)).
  apply (grid_sub k); auto; try (apply F32; auto; fail); try (apply H32; auto; fail); try (apply FF; auto; fail); try (apply HF; auto; fail).
  apply (on_grid_eq k (at_ dem d)); auto. symmetry. apply b64_Q_eq; [apply FF; auto|apply HF; auto|auto].
Qed.
