(** * Accuracy of the pour point attributes *)

From Coq Require Import QArith Qabs Qreals Reals Lra Lia.
From Flocq Require Import Core IEEE754.BinarySingleNaN Relative Plus_error.
From Verif Require Import Base BaseProofs Num Float64 Float64Proofs Float64Arith Float64Scale Float32Proofs FillModel FillProofs FillSpec
  FlowSpec LabelModel LabelSpec CompSpec VectorModel DemModel BluespotModel BluespotSpec BluespotProofs PipelineModel FloatQ
  NetworkModel NetworkSpec NetworkThms NetworkFloatThms RoundSpec RoundProofs.
Local Open Scope R_scope.

Lemma ofZ_rnd : forall z, is_finite (f64_ofZ z) = true -> B2R (f64_ofZ z) = rnd64 (IZR z).
Proof.
  intros z H. pose proof (binary_normalize_correct 53 1024 _ _ mode_NE z 0 false) as M. fold (f64 z 0) in M. fold (f64_ofZ z) in M.
  assert (E : F2R (Float radix2 z 0) = IZR z) by (unfold F2R; cbn; ring). rewrite E in M. cbv zeta in M.
  destruct (Rlt_bool _ _); [apply M|]. destruct (f64_ofZ z); discriminate.
Qed.

Lemma ofZ_near : forall z, (0 <= z)%Z -> is_finite (f64_ofZ z) = true -> near 1 (B2R (f64_ofZ z)) (IZR z).
Proof.
  intros z P H. rewrite ofZ_rnd by auto. destruct (rnd_rel (IZR z)) as (e & He & ->).
  - destruct (Z.eq_dec z 0) as [-> |N]; [left; reflexivity|right]. apply Rle_trans with 1.
    + change 1 with (bpow radix2 0). apply bpow_le. lia.
    + eapply Rle_trans; [|apply Rle_abs]. apply IZR_le. lia.
  - apply near_round; auto. apply near_refl. apply IZR_le. exact P.
Qed.

Lemma ofZ_exact : forall z, (0 <= z <= 2 ^ 53)%Z -> is_finite (f64_ofZ z) = true /\ B2R (f64_ofZ z) = IZR z.
Proof.
  intros z P. pose proof (binary_normalize_correct 53 1024 _ _ mode_NE z 0 false) as M. fold (f64 z 0) in M. fold (f64_ofZ z) in M.
  assert (E : F2R (Float radix2 z 0) = IZR z) by (unfold F2R; cbn; ring). rewrite E in M. cbv zeta in M.
  assert (G : round radix2 (SpecFloat.fexp 53 1024) (round_mode mode_NE) (IZR z) = IZR z).
  { apply round_generic; auto with typeclass_instances. rewrite <- E.
    destruct (Z.eq_dec z (2 ^ 53)) as [-> |N].
    - rewrite E. change (2 ^ 53)%Z with (radix2 ^ 53)%Z. rewrite IZR_Zpower by lia. apply generic_format_bpow. cbn. lia.
    - apply generic_format_F2R. cbn [Fnum Fexp]. intros Hz. unfold cexp, SpecFloat.fexp.
      assert (mag radix2 (F2R (Float radix2 z 0)) <= 53)%Z; [|unfold SpecFloat.emin; lia].
      rewrite E. apply mag_le_bpow; [apply IZR_neq; auto|]. rewrite <- (IZR_Zpower radix2) by lia. rewrite <- abs_IZR. apply IZR_lt.
      change (radix2 ^ 53)%Z with (2 ^ 53)%Z. lia. }
  rewrite G in M. rewrite Rlt_bool_true in M; [split; apply M|].
  rewrite Rabs_pos_eq by (apply IZR_le; lia). apply Rle_lt_trans with (bpow radix2 53).
  - rewrite <- (IZR_Zpower radix2) by lia. apply IZR_le. change (radix2 ^ 53)%Z with (2 ^ 53)%Z. lia.
  - apply bpow_lt. lia.
Qed.

Lemma nabs_R : forall x : b64, is_finite x = true ->
  is_finite (nabs F64Ops x) = true /\ B2R (nabs F64Ops x) = Rabs (B2R x).
Proof.
  intros x F. unfold nabs. cbn [nltb nsub nofZ F64Ops]. rewrite f64_ofZ0.
  rewrite Bltb_correct by auto. change (B2R f64_zero) with 0. destruct (Rlt_bool_spec (B2R x) 0) as [L|L].
  - rewrite sub_add_opp, add_zero_l by (apply opp_finite; auto). rewrite B2R_Bopp. split; [|rewrite Rabs_left; lra].
    destruct x as [[]|s| |s m e B]; try discriminate; reflexivity.
  - split; [exact F|]. rewrite Rabs_pos_eq; lra.
Qed.

Lemma ordinary_R : forall x, ordinary x -> is_finite x = true /\ bpow radix2 (-300) <= Rabs (B2R x).
Proof.
  intros x [F H]. split; [exact F|]. apply Qle_Rle in H. rewrite Qabs_R, b64_Q_R in H.
  eapply Rle_trans; [|exact H]. unfold Q2R. cbn [Qnum Qden]. change (-300)%Z with (- (300))%Z. rewrite bpow_opp, <- (IZR_Zpower radix2) by lia.
  change (radix2 ^ 300)%Z with (Z.pos (2 ^ 300)). lra.
Qed.

(** The area of a cell: one rounding. *)
Section Area.
Variable t : geotransform b64.
Hypothesis O1 : ordinary (gt1 t).
Hypothesis O5 : ordinary (gt5 t).
Let A : R := Rabs (B2R (gt1 t)) * Rabs (B2R (gt5 t)).

Lemma A_low : bpow radix2 (-600) <= A.
Proof.
  destruct (ordinary_R _ O1) as [_ L1], (ordinary_R _ O5) as [_ L5]. unfold A. change (-600)%Z with (-300 + -300)%Z.
  rewrite bpow_plus. apply Rmult_le_compat; auto using bpow_ge_0.
Qed.

Lemma area_near : is_finite (cell_area F64Ops t) = true -> near 1 (B2R (cell_area F64Ops t)) A.
Proof.
  destruct (ordinary_R _ O1) as [F1 L1], (ordinary_R _ O5) as [F5 L5].
  destruct (nabs_R _ F1) as [G1 E1], (nabs_R _ F5) as [G5 E5]. intros F.
  apply (mul_near 0 0); auto.
  - rewrite E1. apply near_refl. apply Rabs_pos.
  - rewrite E5. apply near_refl. apply Rabs_pos.
  - right. rewrite E1, E5. eapply Rle_trans; [|apply A_low]. apply bpow_le. lia.
Qed.

Lemma half_pow : / 2 <= 1 - u53.
Proof. assert (u53 <= / 2); [|lra]. unfold u53. change (/ 2) with (bpow radix2 (-1)). apply bpow_le. lia. Qed.

Lemma area_low : is_finite (cell_area F64Ops t) = true -> bpow radix2 (-601) <= B2R (cell_area F64Ops t).
Proof.
  intros F. destruct (area_near F) as (_ & L & _). eapply Rle_trans; [|exact L]. pose proof half_pow. pose proof A_low.
  change (-601)%Z with (-1 + -600)%Z. rewrite bpow_plus. cbn [pow]. rewrite Rmult_1_r.
  apply Rmult_le_compat; auto using bpow_ge_0.
Qed.

(** A value of at least 2^-149, or zero, times the area. *)
Lemma times_area : forall k (x : b64) y, is_finite (f64_mul x (cell_area F64Ops t)) = true ->
  near k (B2R x) y -> B2R x = 0 \/ bpow radix2 (-149) <= B2R x ->
  near (k + 2) (B2R (f64_mul x (cell_area F64Ops t))) (y * A) /\
  (B2R (f64_mul x (cell_area F64Ops t)) = 0 \/ bpow radix2 (-760) <= B2R (f64_mul x (cell_area F64Ops t))) /\
  / 2 * (B2R x * B2R (cell_area F64Ops t)) <= B2R (f64_mul x (cell_area F64Ops t)) <= 2 * (B2R x * B2R (cell_area F64Ops t)).
Proof.
  intros k x y F N X. destruct (mul_rnd _ _ F) as (Fx & Fa & Em). pose proof (area_low Fa) as La.
  assert (P : B2R x * B2R (cell_area F64Ops t) = 0 \/ bpow radix2 (-750) <= B2R x * B2R (cell_area F64Ops t)).
  { destruct X as [-> |X]; [left; ring|right]. change (-750)%Z with (-149 + -601)%Z. rewrite bpow_plus.
    apply Rmult_le_compat; auto using bpow_ge_0. }
  assert (U : B2R x * B2R (cell_area F64Ops t) = 0 \/ bpow radix2 (-1022) <= B2R x * B2R (cell_area F64Ops t)).
  { destruct P as [P|P]; [left; exact P|right]. eapply Rle_trans; [|exact P]. apply bpow_le. lia. }
  split; [|split].
  - replace (k + 2)%nat with (S (k + 1)) by lia. apply mul_near; auto using area_near.
  - clear U. rewrite Em. destruct P as [P|P]; [left; rewrite P; apply rnd64_0|right].
    apply Rle_trans with (rnd64 (bpow radix2 (-750))); [|apply rnd64_le; exact P].
    rewrite round_generic; [apply bpow_le; lia|auto with typeclass_instances|].
    apply generic_format_bpow. unfold SpecFloat.fexp, SpecFloat.emin. lia.
  - rewrite Em. destruct (rnd_rel (B2R x * B2R (cell_area F64Ops t))) as (e & He & ->).
    { destruct U as [U|U]; [left; exact U|right]. eapply Rle_trans; [exact U|apply Rle_abs]. }
    apply Rabs_le_inv in He. pose proof half_pow. pose proof u53_pos.
    assert (0 <= B2R x * B2R (cell_area F64Ops t)) by (destruct U as [-> |U]; [lra|]; pose proof (bpow_gt_0 radix2 (-1022)); lra).
    set (z := B2R x * B2R (cell_area F64Ops t)) in *. rewrite (Rmult_comm z). split; apply Rmult_le_compat_r; lra.
Qed.
End Area.

(** ** Depths *)

Lemma f32_grid : forall x : b64, is_f32 x -> is_finite x = true -> exists k, B2R x = IZR k * bpow radix2 (-149).
Proof.
  intros x S F. destruct (narrow x S F) as [_ E]. destruct (grid32 (f64_to_f32 x)) as (k & K). exists k. congruence.
Qed.

Lemma f32_low : forall x : b64, is_f32 x -> is_finite x = true -> 0 < B2R x -> bpow radix2 (-149) <= B2R x.
Proof.
  intros x S F P. destruct (f32_grid x S F) as (k & E). rewrite E in *. pose proof (bpow_gt_0 radix2 (-149)) as B.
  assert (0 < IZR k). { apply Rmult_lt_reg_r with (bpow radix2 (-149)); [exact B|]. rewrite Rmult_0_l. exact P. }
  apply lt_IZR in H. rewrite <- (Rmult_1_l (bpow radix2 (-149))) at 1. apply Rmult_le_compat_r; [lra|]. apply IZR_le. lia.
Qed.

Lemma fold_part : forall l a, pos64 a -> (forall x, In x l -> pos64 x) -> is_finite (fold_left f64_add l a) = true ->
  forall x, In x l -> (rank x <= rank (fold_left f64_add l a))%Z.
Proof.
  induction l as [|y l IH]; intros a Pa Pl F x Hx; cbn [fold_left In] in *; [contradiction|].
  assert (Py : pos64 y) by (apply Pl; left; auto).
  assert (Pay : pos64 (f64_add a y)) by (destruct Pa, Py; apply add_nonneg; auto).
  destruct (fold_err l _ Pay (fun y Hy => Pl y (or_intror Hy)) F) as (F1 & _ & R & _).
  destruct Hx as [<-|Hx]; [|apply IH; auto; intros z Hz; apply Pl; right; exact Hz].
  destruct (add_fin a y Pa Py F1) as (_ & _ & _ & G). lia.
Qed.

(** A computed sum of float32 values that are not negative. *)
Lemma sum_f32 : forall l, (forall x, In x l -> is_f32 x /\ le64 f64_zero x) ->
  is_finite (fold_left f64_add l f64_zero) = true ->
  (forall x, In x l -> is_finite x = true) /\
  near (length l - 1) (B2R (fold_left f64_add l f64_zero)) (Rsum (map B2R l)) /\
  (B2R (fold_left f64_add l f64_zero) = 0 \/ bpow radix2 (-149) <= B2R (fold_left f64_add l f64_zero)).
Proof.
  intros l H F.
  assert (P : forall x, In x l -> pos64 x).
  { intros x Hx. destruct (H x Hx) as [_ L]. assert (N : not_nan x) by (destruct x; try discriminate L; reflexivity).
    split; [exact N|]. rewrite le64_rank in L by (auto; reflexivity). exact L. }
  assert (P0 : pos64 f64_zero) by (split; [reflexivity | cbn; lia]).
  destruct (fold_err l f64_zero P0 P F) as (_ & Fl & _). split; [exact Fl|]. split; [apply total_near; auto|].
  destruct (Rtotal_order 0 (Rsum (map B2R l))) as [L|[E|L]].
  - right. assert (X : exists x, In x l /\ 0 < B2R x).
    { clear - L P Fl. induction l as [|x l IH]; cbn [map Rsum] in L; [lra|].
      pose proof (pos64_R x (Fl x (or_introl eq_refl)) (proj2 (P x (or_introl eq_refl)))) as Px.
      destruct (Rle_lt_or_eq_dec _ _ Px) as [Q|Q]; [exists x; split; [left; auto|exact Q]|].
      rewrite <- Q, Rplus_0_l in L. destruct IH as (y & Hy & Y); [intros; apply P; right; auto|intros; apply Fl; right; auto|exact L|]. exists y. split; [right; exact Hy|exact Y]. }
    destruct X as (x & Hx & X). apply Rle_trans with (B2R x); [apply f32_low; auto; apply H; auto|].
    apply rank_le_R; auto. apply fold_part; auto.
  - left. destruct (total_near l P F) as (_ & A & B). rewrite <- E, Rmult_0_r in A, B. lra.
  - exfalso. assert (0 <= Rsum (map B2R l)); [|lra]. clear - P Fl. induction l as [|x l IH]; cbn [map Rsum]; [lra|].
    pose proof (pos64_R x (Fl x (or_introl eq_refl)) (proj2 (P x (or_introl eq_refl)))).
    assert (0 <= Rsum (map B2R l)) by (apply IH; intros; [apply P|apply Fl]; right; auto). lra.
Qed.

(** ** Pour points *)

Lemma fumm_eq : forall {T} (ops : NumOps T) t pix st ws ix p, In p (assemble_from ops ix t pix st ws) ->
  pp_fumm p = ndiv ops (nmul ops (nofZ ops 1000) (pp_vol p)) (pp_wshed p).
Proof.
  intros T ops t pix. induction pix as [|q pix IH]; intros [|s st] [|w ws] ix p H; cbn [assemble_from In] in H; try contradiction.
  destruct H as [<-|H]; [reflexivity|]. eapply IH; eauto.
Qed.

Lemma Rsum_Q : forall {B} (g : B -> b64) l, Rsum (map B2R (map g l)) = Q2R (Qsum (map (fun c => b64_Q (g c)) l)).
Proof. intros B g l. rewrite Q2R_Qsum, !map_map. f_equal. apply map_ext. intros a. symmetry. apply b64_Q_R. Qed.

Lemma area_Q_R : forall t1 t5, Q2R (area_Q t1 t5) = Rabs (B2R t1) * Rabs (B2R t5).
Proof. intros t1 t5. unfold area_Q. rewrite Q2R_mult, !Qabs_R, !b64_Q_R. reflexivity. Qed.

Lemma Q2R_ofZ : forall z, Q2R (inject_Z z) = IZR z.
Proof. intros z. unfold Q2R, inject_Z. cbn [Qnum Qden]. lra. Qed.

Lemma count_near : forall t z, ordinary (gt1 t) -> ordinary (gt5 t) -> (0 <= z)%Z ->
  is_finite (f64_mul (f64_ofZ z) (cell_area F64Ops t)) = true ->
  near 3 (B2R (f64_mul (f64_ofZ z) (cell_area F64Ops t))) (IZR z * (Rabs (B2R (gt1 t)) * Rabs (B2R (gt5 t)))).
Proof.
  intros t z O1 O5 P F. destruct (mul_rnd _ _ F) as (Fz & _ & _). pose proof (ofZ_near z P Fz) as N.
  apply (times_area t O1 O5 1); auto. destruct (Z.eq_dec z 0) as [-> |Z0].
  - left. destruct N as (_ & A & B). rewrite Rmult_0_r in A, B. lra.
  - right. rewrite ofZ_rnd by auto. apply Rle_trans with (rnd64 1).
    + rewrite <- one_rank, rnd64_B2R, one_rank. change 1 with (bpow radix2 0). apply bpow_le. lia.
    + apply rnd64_le. apply IZR_le. lia.
Qed.

Section Pourpoints.
Variable cc : raster bool -> raster Z * Z.
Hypothesis Hcc : labels_components cc.
Variable sp : bool.
Variables (fuel : nat) (t : geotransform b64) (depths : raster b64) (flowdir : raster Z) (f : @unit_stats b64 -> bool)
  (accum dem : option (raster b64)) (out : bluespot_out).
Hypothesis Hr : (1 <= nrows depths)%Z.
Hypothesis Hc : (1 <= ncols depths)%Z.
Hypothesis Sf : same_shape depths flowdir.
Hypothesis D : fully_draining flowdir.
Hypothesis Hd : forall c, inside (nrows depths) (ncols depths) c -> is_f32 (at_ depths c) /\ le64 f64_zero (at_ depths c).
Hypothesis O1 : ordinary (gt1 t).
Hypothesis O5 : ordinary (gt5 t).
Hypothesis H : bluespot_process sp cc fuel t depths flowdir (Some f) accum dem = Ok out.

Theorem pourpoints_rounded : forall p, In p (bo_pourpoints out) -> exists cs ws,
  lists_cells (has_label (bo_labeled out) (pp_id p)) cs /\
  lists_cells (has_label (bo_watersheds out) (pp_id p)) ws /\
  let n := Z.of_nat (length cs) in let w := Z.of_nat (length ws) in
  let area := area_Q (gt1 t) (gt5 t) in let depth := Qsum (map (fun c => b64_Q (at_ depths c)) cs) in
  (finite64 (pp_area p) -> within 3 (b64_Q (pp_area p)) (inject_Z n * area)) /\
  (finite64 (pp_wshed p) -> within 3 (b64_Q (pp_wshed p)) (inject_Z w * area)) /\
  (finite64 (pp_vol p) -> (forall c, In c cs -> finite64 (at_ depths c)) /\
     within (n + 1) (b64_Q (pp_vol p)) (depth * area)) /\
  (finite64 (pp_wshed p) -> finite64 (pp_fumm p) -> (w <= 2 ^ 53)%Z ->
     within (n + 9) (b64_Q (pp_fumm p)) (1000 * (depth * area) / (inject_Z w * area))).
Proof.
  intros p Hp.
  destruct (process_pourpoints cc Hcc sp fuel t _ _ _ _ _ _ Hr Hc Sf D H) as (pix & _ & _ & Lp & _ & _ & G).
  destruct (run_inv cc Hcc sp _ _ _ _ _ _ _ _ Hr Hc H) as (st & new & bst & wst & pix' & _ & _ & _ & _ & _ & _ & _ & _ & E7).
  destruct (process_filter cc Hcc sp _ _ _ _ _ _ _ _ Hr Hc H) as (Sh & _).
  assert (FU : pp_fumm p = f64_div (f64_mul (f64_ofZ 1000) (pp_vol p)) (pp_wshed p)).
  { rewrite E7 in Hp. apply fumm_eq in Hp. exact Hp. }
  apply In_nth_error in Hp. destruct Hp as (k & Hk).
  assert (Kl : (k < length (bo_pourpoints out))%nat) by (apply nth_error_Some; congruence).
  destruct (G (Z.of_nat k)) as (p' & r & cs & ws & Ep & _ & Lc & Lw & Ei & _ & _ & _ & Ea & Ev & Ew & _); [lia|].
  rewrite Nat2Z.id, Hk in Ep. injection Ep as <-. rewrite <- Ei in Lc, Lw. clear Ei G.
  exists cs, ws. split; [exact Lc|]. split; [exact Lw|]. cbv zeta.
  set (n := Z.of_nat (length cs)) in *. set (w := Z.of_nat (length ws)) in *.
  assert (n0 : (0 <= n)%Z) by apply Nat2Z.is_nonneg. assert (w0 : (0 <= w)%Z) by apply Nat2Z.is_nonneg.
  set (A := Rabs (B2R (gt1 t)) * Rabs (B2R (gt5 t))).
  assert (A0 : 0 < A) by (eapply Rlt_le_trans; [|apply (A_low t O1 O5)]; apply bpow_gt_0).
  assert (CS : forall c, In c cs -> is_f32 (at_ depths c) /\ le64 f64_zero (at_ depths c)).
  { intros c I. apply Lc in I. destruct I as [I _]. apply Hd. destruct Sh as [-> ->]. exact I. }
  rewrite f64_ofZ0 in Ev. set (L := map (at_ depths) cs) in *.
  assert (CL : forall x, In x L -> is_f32 x /\ le64 f64_zero x).
  { intros x I. unfold L in I. apply in_map_iff in I. destruct I as (c & <- & I). auto. }
  assert (VN : finite64 (pp_vol p) -> (forall c, In c cs -> finite64 (at_ depths c)) /\
    near (Z.to_nat (n + 1)) (B2R (pp_vol p)) (Rsum (map B2R L) * A) /\
    (B2R (pp_vol p) = 0 \/ bpow radix2 (-760) <= B2R (pp_vol p)) /\
    (B2R (pp_vol p) = 0 \/ bpow radix2 (-150) * B2R (cell_area F64Ops t) <= B2R (pp_vol p))).
  { intros F. unfold finite64 in F. rewrite Ev in F |- *. destruct (mul_rnd _ _ F) as (Fs & Fa & Em).
    destruct (sum_f32 L CL Fs) as (Fl & N & Lo).
    split; [intros c I; apply Fl; unfold L; apply in_map; exact I|].
    destruct (times_area t O1 O5 _ _ _ F N Lo) as (T1 & T2 & T3). split; [|split; [exact T2|]].
    - destruct cs as [|c cs'].
      + unfold L in *. cbn [map Rsum] in *. destruct T1 as (_ & X1 & X2). rewrite Rmult_0_l, Rmult_0_r in X1, X2.
        replace (B2R _) with 0 by lra. rewrite Rmult_0_l. apply near_zero.
      + eapply near_more; [|exact T1]. unfold L. rewrite map_length. unfold n. cbn [length]. lia.
    - destruct Lo as [Z0|Lo]; [left; rewrite Em, Z0, Rmult_0_l; apply rnd64_0|right].
      eapply Rle_trans; [|apply T3]. rewrite <- Rmult_assoc. apply Rmult_le_compat_r.
      + eapply Rle_trans; [|apply (area_low t O1 O5 Fa)]. apply bpow_ge_0.
      + change (-150)%Z with (-1 + -149)%Z. rewrite bpow_plus. change (bpow radix2 (-1)) with (/ 2). apply Rmult_le_compat_l; [lra|exact Lo]. }
  assert (WN : finite64 (pp_wshed p) -> near 3 (B2R (pp_wshed p)) (IZR w * A)).
  { intros F. unfold finite64 in F. rewrite Ew in F |- *. apply (count_near t); auto. }
  split; [|split; [|split]].
  - intros F. apply near_within; [|lia]. change (Z.to_nat 3) with 3%nat. rewrite b64_Q_R, Q2R_mult, Q2R_ofZ, area_Q_R.
    unfold finite64 in F. rewrite Ea in F |- *. apply count_near; auto.
  - intros F. apply near_within; [|lia]. change (Z.to_nat 3) with 3%nat. rewrite b64_Q_R, Q2R_mult, Q2R_ofZ, area_Q_R. apply WN. exact F.
  - intros F. destruct (VN F) as (V1 & V2 & _). split; [exact V1|].
    apply near_within; [|lia]. rewrite b64_Q_R, Q2R_mult, area_Q_R. unfold L in V2. rewrite Rsum_Q in V2. exact V2.
  - intros Fw Ff W.
    assert (F := Ff). unfold finite64 in F. rewrite FU in F.
    destruct (div_rnd _ _ F Fw) as (Fm & Wn & _). destruct (mul_rnd _ _ Fm) as (_ & Fv & _).
    destruct (VN Fv) as (_ & V2 & V3 & V4). specialize (WN Fw).
    destruct (ofZ_exact 1000 ltac:(lia)) as [F1000 E1000].
    assert (N1 : near 0 (B2R (f64_ofZ 1000)) 1000) by (rewrite E1000; apply near_refl; lra).
    assert (U1 : B2R (f64_ofZ 1000) * B2R (pp_vol p) = 0 \/ bpow radix2 (-760) <= B2R (f64_ofZ 1000) * B2R (pp_vol p)).
    { rewrite E1000. destruct V3 as [-> |V3]; [left; ring|right]. pose proof (bpow_gt_0 radix2 (-760)). lra. }
    pose proof (mul_near 0 _ _ _ _ _ Fm N1 V2) as M. cbn [Nat.add] in M.
    assert (M' : near (S (Z.to_nat (n + 1))) (B2R (f64_mul (f64_ofZ 1000) (pp_vol p))) (1000 * (Rsum (map B2R L) * A))).
    { apply M. destruct U1 as [U|U]; [left; exact U|right]. eapply Rle_trans; [|exact U]. apply bpow_le. lia. }
    clear M. pose proof (div_near _ _ _ _ _ _ F Fw M' WN) as Q.
    apply near_within; [|lia]. rewrite FU, b64_Q_R.
    assert (Wp : (0 < w)%Z).
    { destruct (Z.eq_dec w 0) as [E0|]; [|lia]. exfalso. apply Wn. destruct WN as (_ & X & Y). rewrite E0, Rmult_0_l, Rmult_0_r in X, Y. lra. }
    assert (Wr : 0 < IZR w) by (apply IZR_lt; exact Wp).
    replace (Q2R _) with (1000 * (Rsum (map B2R L) * A) / (IZR w * A)).
    2:{ unfold Qdiv. rewrite !Q2R_mult, Q2R_inv, !Q2R_mult, Q2R_ofZ, area_Q_R.
        - fold A. unfold L. rewrite Rsum_Q. unfold Rdiv. f_equal. f_equal. unfold Q2R. cbn. lra.
        - intros X. apply Qeq_eqR in X. rewrite Q2R_mult, Q2R_ofZ, area_Q_R in X. fold A in X. unfold Q2R in X. cbn in X.
          assert (0 < IZR w * A) by (apply Rmult_lt_0_compat; auto). lra. }
    replace (Z.to_nat (n + 9)) with (S (S (Z.to_nat (n + 1)) + 2 * 3))%nat by lia. apply Q.
    destruct V4 as [V4|V4]; [left; destruct (mul_rnd _ _ Fm) as (_ & _ & ->); rewrite V4, Rmult_0_r; apply rnd64_0|right].
    assert (Fw' := Fw). unfold finite64 in Fw'. rewrite Ew in Fw'. destruct (mul_rnd _ _ Fw') as (_ & Fa & _).
    destruct (ofZ_exact w) as [_ Ez]; [lia|].
    assert (Nw : near 0 (B2R (f64_ofZ w)) (IZR w)) by (rewrite Ez; apply near_refl; lra).
    pose proof (area_low t O1 O5 Fa) as La. set (a := B2R (cell_area F64Ops t)) in *.
    assert (a0 : 0 < a) by (eapply Rlt_le_trans; [|exact La]; apply bpow_gt_0).
    assert (W1 : 1 <= IZR w) by (apply IZR_le; lia).
    assert (Lz : B2R (f64_ofZ w) = 0 \/ bpow radix2 (-149) <= B2R (f64_ofZ w)).
    { right. rewrite Ez. eapply Rle_trans; [|exact W1]. change 1 with (bpow radix2 0). apply bpow_le. lia. }
    destruct (times_area t O1 O5 _ _ _ Fw' Nw Lz) as (_ & _ & T1 & T2). rewrite <- Ew, Ez in T1, T2. fold a in T1, T2.
    assert (W53 : IZR w <= bpow radix2 53) by (rewrite <- (IZR_Zpower radix2) by lia; apply IZR_le; exact W).
    assert (Y : B2R (pp_wshed p) <= bpow radix2 54 * a).
    { eapply Rle_trans; [exact T2|]. rewrite <- Rmult_assoc. apply Rmult_le_compat_r; [lra|].
      change 54%Z with (1 + 53)%Z. rewrite bpow_plus. change (bpow radix2 1) with 2. apply Rmult_le_compat_l; [lra|exact W53]. }
    assert (Yp : 0 < B2R (pp_wshed p)).
    { eapply Rlt_le_trans; [|exact T1]. apply Rmult_lt_0_compat; [lra|]. apply Rmult_lt_0_compat; lra. }
    assert (X : bpow radix2 (-150) * a <= B2R (f64_mul (f64_ofZ 1000) (pp_vol p))).
    { destruct (mul_rnd _ _ Fm) as (_ & _ & ->). eapply Rle_trans; [exact V4|]. rewrite <- (rnd64_B2R (pp_vol p)) at 1.
      apply rnd64_le. rewrite E1000. assert (0 <= B2R (pp_vol p)); [|lra]. eapply Rle_trans; [|exact V4].
      apply Rmult_le_pos; [apply bpow_ge_0|lra]. }
    apply Rmult_le_reg_r with (B2R (pp_wshed p)); [exact Yp|]. unfold Rdiv. rewrite Rmult_assoc, Rinv_l, Rmult_1_r by lra.
    eapply Rle_trans; [|exact X]. apply Rle_trans with (bpow radix2 (-1022) * (bpow radix2 54 * a)).
    + apply Rmult_le_compat_l; [apply bpow_ge_0|exact Y].
    + rewrite <- Rmult_assoc, <- bpow_plus. apply Rmult_le_compat_r; [lra|]. apply bpow_le. lia.
Qed.
End Pourpoints.
