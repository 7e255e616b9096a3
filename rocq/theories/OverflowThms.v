(** * The complete command in floats does not overflow on ordinary terrains *)

From Coq Require Import QArith Qabs Qreals Reals Lra Lia Permutation.
From Flocq Require Import Core IEEE754.BinarySingleNaN.
From Verif Require Import Base BaseProofs AccumProofs Num Dict DictProofs Float64 Float64Proofs Float64Arith Float64Scale Float32Proofs FillModel FillSpec RelaxProofs FillProofs FillThms
  FlowModel FlowSpec DemModel DemProofs LevelProofs LabelModel LabelSpec LabelProofs CompSpec CompProofs VectorModel BluespotModel BluespotSpec BluespotProofs
  NetModel NetSpec NetThms NetworkModel NetworkSpec NetworkProofs NetworkThms NetworkFloatSpec NetworkFloatThms RainModel PipelineModel RainProofs FloatQ
  CompleteThms RoundSpec RoundProofs RoundThms RoundNetThms FloatPipeModel FloatPipeSpec FloatPipeProofs FloatPipeThms OverflowSpec OverflowProofs.
Local Open Scope Z_scope.

(** ** Filled terrain is no higher than the terrain *)
Lemma cy_below : forall dtm, 4 <= nrows dtm -> 4 <= ncols dtm -> dem32 dtm -> forall M, M < rank f64_inf ->
  (forall c, inside (nrows dtm) (ncols dtm) c -> rank (at_ dtm c) <= M) ->
  forall fuel g, fill64_cy fuel dtm = Ok g -> forall c, inside (nrows dtm) (ncols dtm) c -> rank (at_ g c) <= M.
Proof.
  intros dtm H4r H4c Hdem M HM Hb fuel g H.
  assert (Hr2 : 2 <= nrows dtm) by lia. assert (Hc2 : 2 <= ncols dtm) by lia.
  destruct (run_cy rank not_nan f64_inf eq_refl rank_inf_max store32 eq_refl dtm Hdem
     cmax cmax_ok id_step) with (cellf := fill_cell_cy F64Ops store32 dtm) (bnd := fun _ : Z => M)
     as (f & k & HS & HF & HL);
    unfold id_step; auto; try (intros; lia).
  - apply fill_cell_cy_ok; auto using ltb_law, leb_law, eqb_law, cmax_ok.
  - unfold fill64_cy, fill_terrain_cy in H. rewrite initialize_filled_ok in H by auto. cbn [bind] in H.
    rewrite (loop_det _ _ _ _ _ _ H HL). intros c Hc. specialize (HF c Hc). unfold fin in HF. lia.
Qed.

Lemma high_bound : is_finite (f64 1 126) = true /\ B2R (f64 1 126) = bpow radix2 126.
Proof.
  split; [vm_compute; reflexivity|]. rewrite B2R_rank by (vm_compute; reflexivity).
  change (rank (f64 1 126)) with (2 ^ (126 + 1074)). change 2 with (radix_val radix2) at 1. rewrite IZR_Zpower by lia.
  rewrite <- bpow_plus. f_equal.
Qed.

Lemma rank_R_le : forall x y : b64, is_finite x = true -> is_finite y = true -> (B2R x <= B2R y)%R -> rank x <= rank y.
Proof.
  intros x y Fx Fy H. rewrite !B2R_rank in H by auto. apply Rmult_le_reg_r in H; [|apply bpow_gt_0]. apply le_IZR. exact H.
Qed.

Section Depth.
Variables (sp : bool) (fuel : nat) (t1 t5 : b64) (dem : raster b64) (dout : dem_out).
Hypothesis SO : size_ok sp dem.
Hypothesis H32 : dem32 dem.
Hypothesis HF : dem_finite dem.
Hypothesis HB : forall c, inside (nrows dem) (ncols dem) c -> at_most 126 (at_ dem c).
Hypothesis HD : dem_process sp fuel t1 t5 dem = Ok dout.

Lemma elev_R : forall c, inside (nrows dem) (ncols dem) c -> (Rabs (B2R (at_ dem c)) <= bpow radix2 126)%R.
Proof.
  intros c Hc. specialize (HB c Hc). unfold at_most in HB. apply Qle_Rle in HB. rewrite Qabs_R, b64_Q_R, Q2R_ofZ in HB.
  rewrite <- (IZR_Zpower radix2) by lia. exact HB.
Qed.

Lemma filled_R : forall c, inside (nrows dem) (ncols dem) c -> (B2R (at_ (do_filled dout) c) <= bpow radix2 126)%R.
Proof.
  destruct high_bound as [FM RM].
  destruct (filled_facts sp fuel t1 t5 dem dout SO H32 HF HD) as (Er & Ec & F32 & FF & _).
  assert (L : forall c, inside (nrows dem) (ncols dem) c -> rank (at_ dem c) <= rank (f64 1 126)).
  { intros c Hc. apply rank_R_le; [apply HF; exact Hc|exact FM|]. rewrite RM. eapply Rle_trans; [apply Rle_abs|]. apply elev_R. exact Hc. }
  destruct (dem_process_parts _ _ _ _ _ _ HD) as (_ & E & _).
  intros c Hc. rewrite <- RM. assert (Fc : is_finite (at_ (do_filled dout) c) = true) by (apply FF; rewrite Er, Ec; exact Hc).
  apply rank_le_R; auto. destruct sp; cbn in SO.
  - apply (cy_below dem ltac:(lia) ltac:(lia) H32 (rank (f64 1 126)) ltac:(vm_compute; reflexivity) L fuel _ E c Hc).
  - apply le64_rank; [apply finite_not_nan; exact Fc|apply finite_not_nan; exact FM|].
    apply (fill64_level dem ltac:(lia) ltac:(lia) H32 fuel _ E c (f64 1 126) Hc); [apply finite_not_nan; exact FM|].
    apply escapes_high; [|exact Hc]. intros d Hd. apply le64_rank; [apply H32; exact Hd|apply finite_not_nan; exact FM|apply L; exact Hd].
Qed.

Lemma depth_small : forall c, inside (nrows dem) (ncols dem) c ->
  is_finite (at_ (do_depths dout) c) = true /\ (0 <= B2R (at_ (do_depths dout) c) <= bpow radix2 127)%R.
Proof.
  intros c Hc.
  destruct (filled_facts sp fuel t1 t5 dem dout SO H32 HF HD) as (Er & Ec & F32 & FF & Ge & _ & ED).
  destruct (depths_facts sp fuel t1 t5 dem dout SO H32 HF HD) as (_ & Dp & _). destruct (Dp c Hc) as [P _]. clear Dp.
  assert (Hf : inside (nrows (do_filled dout)) (ncols (do_filled dout)) c) by (rewrite Er, Ec; exact Hc).
  pose proof (filled_R c Hc) as U. pose proof (elev_R c Hc) as V.
  assert (W : (Rabs (B2R (at_ (do_filled dout) c)) <= bpow radix2 126)%R).
  { specialize (Ge c Hc). apply le64_rank in Ge; [|apply H32; exact Hc|apply F32; exact Hf]. apply rank_le_R in Ge; [|apply HF; exact Hc|apply FF; exact Hf].
    unfold Rabs in *. destruct (Rcase_abs _), (Rcase_abs _); lra. }
  destruct (narrow _ (proj2 (F32 c Hf)) (FF c Hf)) as [N1 E1]. destruct (narrow _ (proj2 (H32 c Hc)) (HF c Hc)) as [N2 E2].
  rewrite ED in *. rewrite dp_at in *. unfold f32_sub in *.
  pose proof (Bminus_correct 24 128 _ _ mode_NE _ _ N1 N2) as M. rewrite E1, E2 in M.
  set (x := B2R (at_ (do_filled dout) c)) in *. set (y := B2R (at_ dem c)) in *.
  set (r := round radix2 (SpecFloat.fexp 24 128) (round_mode mode_NE) (x - y)) in *.
  assert (G : (Rabs r <= bpow radix2 127)%R).
  { unfold r. apply abs_round_le_generic; [apply fexp_correct; reflexivity|auto with typeclass_instances| |].
    - apply generic_format_bpow. unfold SpecFloat.fexp, SpecFloat.emin. lia.
    - change 127 with (1 + 126). rewrite bpow_plus. change (bpow radix2 1) with 2%R.
      unfold Rabs in *. repeat destruct (Rcase_abs _); lra. }
  rewrite Rlt_bool_true in M; [|eapply Rle_lt_trans; [exact G|apply bpow_lt; lia]].
  destruct M as (M1 & M2 & _). destruct (widen _ M2) as [W1 W2]. split; [exact W1|]. split.
  - apply le64_rank in P; [|reflexivity|apply finite_not_nan; exact W1]. apply pos64_R; auto.
  - rewrite W2, M1. eapply Rle_trans; [apply Rle_abs|exact G].
Qed.
End Depth.

Lemma at_most_R : forall e x, 0 <= e -> at_most e x -> (Rabs (B2R x) <= bpow radix2 e)%R.
Proof.
  intros e x E H. unfold at_most in H. apply Qle_Rle in H. rewrite Qabs_R, b64_Q_R, Q2R_ofZ in H.
  rewrite <- (IZR_Zpower radix2) by lia. exact H.
Qed.

Lemma area_small : forall t, finite64 (gt1 t) -> finite64 (gt5 t) -> at_most 300 (gt1 t) -> at_most 300 (gt5 t) ->
  is_finite (cell_area F64Ops t) = true /\ (0 <= B2R (cell_area F64Ops t) <= bpow radix2 600)%R.
Proof.
  intros t F1 F5 A1 A5. apply at_most_R in A1, A5; try lia. destruct (nabs_R _ F1) as [N1 E1], (nabs_R _ F5) as [N5 E5].
  change 600 with (300 + 300). apply mul_small; auto; try lia; [rewrite E1|rewrite E5]; split; auto using Rabs_pos.
Qed.

Lemma milli_small : is_finite (milli F64Ops) = true /\ (0 <= B2R (milli F64Ops) <= bpow radix2 0)%R.
Proof.
  destruct milli_near as (F & N & L). split; [exact F|]. split; [eapply Rle_trans; [apply bpow_ge_0|exact L]|].
  destruct N as (_ & _ & B). eapply Rle_trans; [exact B|]. change (bpow radix2 0) with 1%R.
  assert (Q2R (milli QOps) = / 1000)%R by (unfold Q2R; cbn; lra). rewrite H.
  assert (u53 <= 1)%R. { unfold u53. change 1%R with (bpow radix2 0). apply bpow_le. lia. } cbn [pow]. lra.
Qed.

Lemma Zsum_filter : forall {A} (f : A -> bool) l, Zsum (map (fun x => if f x then 0 else 1) l) = Z.of_nat (length (filter (fun x => negb (f x)) l)).
Proof.
  intros A f l. induction l as [|x l IH]; cbn [map Zsum filter]; [reflexivity|]. rewrite IH. destruct (f x); cbn [negb length]; lia.
Qed.

Theorem spills_finite' : forall (fs : list (@node b64)) fuel out, unique_ids fs -> acyclic_closed fs ->
  (forall n, In n fs -> nonneg64 (n_water n) /\ nonneg64 (n_cap n) /\ at_most 970 (n_water n)) ->
  wet_nodes fs <= 2 ^ 53 ->
  process F64Ops fuel fs = Ok out -> forall n e, In (n, Some e) out -> finite64 (e_spill e).
Proof.
  intros fs fuel out UI AC W C H. apply (spills_finite fs fuel out UI AC); auto.
  - intros n Hn. destruct (W n Hn) as (A & B & D). split; [exact A|]. split; [exact B|]. eapply Qle_trans; [apply Qle_Qabs|exact D].
  - unfold holds. rewrite Zsum_filter. exact C.
Qed.

Lemma ones : forall l : list b64, map fst (map (fun x => (x, 1)) l) = l /\ Zsum (map snd (map (fun x => (x, 1)) l)) = Z.of_nat (length l).
Proof.
  induction l as [|x l [IH1 IH2]]; cbn [map fst snd Zsum length]; [auto|]. rewrite IH1, IH2. split; [reflexivity|lia].
Qed.

Section Chain.
Variable cc : raster bool -> raster Z * Z.
Hypothesis Hcc : labels_components cc.
Variable sp : bool.
Variables (fuel fuel' : nat) (t1 t5 : b64) (dem : raster b64) (dout : dem_out) (t : geotransform b64)
  (f : @unit_stats b64 -> bool) (accum : option (raster b64)) (out : bluespot_out).
Hypothesis SO : size_ok sp dem.
Hypothesis H32 : dem32 dem.
Hypothesis HF : dem_finite dem.
Hypothesis HB : forall c, inside (nrows dem) (ncols dem) c -> at_most 126 (at_ dem c).
Hypothesis Big : nrows dem * ncols dem < 2 ^ 53.
Hypothesis HD : dem_process sp fuel t1 t5 dem = Ok dout.
Hypothesis HO : bluespot_process sp cc fuel' t (do_depths dout) (do_flowdir dout) (Some f) accum (Some dem) = Ok out.
Hypothesis F1 : finite64 (gt1 t).
Hypothesis F5 : finite64 (gt5 t).
Hypothesis A1 : at_most 300 (gt1 t).
Hypothesis A5 : at_most 300 (gt5 t).

Lemma pp_small : forall p, In p (bo_pourpoints out) ->
  (is_finite (pp_vol p) = true /\ (0 <= B2R (pp_vol p))%R) /\
  (is_finite (pp_wshed p) = true /\ (0 <= B2R (pp_wshed p) <= bpow radix2 653)%R).
Proof.
  intros p Hp.
  destruct (depths_facts sp fuel t1 t5 dem dout SO H32 HF HD) as (Sd & _ & _).
  destruct (dem_flow sp fuel t1 t5 dem dout SO H32 HF HD) as (Sf & D & _).
  assert (Hr : (1 <= nrows (do_depths dout))%Z) by (destruct Sd as [<- _]; destruct sp; cbn in SO; lia).
  assert (Hc : (1 <= ncols (do_depths dout))%Z) by (destruct Sd as [_ <-]; destruct sp; cbn in SO; lia).
  assert (Sdf : same_shape (do_depths dout) (do_flowdir dout)) by (destruct Sd, Sf; split; congruence).
  destruct (process_pourpoints cc Hcc sp fuel' t _ _ _ _ _ _ Hr Hc Sdf D HO) as (pix & _ & _ & Lp & Sw & _ & G).
  destruct (process_filter cc Hcc sp _ _ _ _ _ _ _ _ Hr Hc HO) as (Sh & _).
  apply In_nth_error in Hp. destruct Hp as (k & Hk).
  assert (Kl : (k < length (bo_pourpoints out))%nat) by (apply nth_error_Some; congruence).
  destruct (G (Z.of_nat k)) as (p' & r & cs & ws & Ep & _ & Lc & Lw & _ & _ & _ & _ & _ & Ev & Ew & _); [lia|].
  rewrite Nat2Z.id, Hk in Ep. injection Ep as <-.
  destruct (area_small t F1 F5 A1 A5) as [Fa Ra].
  assert (Sl : same_shape dem (bo_labeled out)) by (destruct Sd, Sh; split; congruence).
  assert (Sww : same_shape dem (bo_watersheds out)) by (destruct Sd, Sw; split; congruence).
  pose proof (cells_bound cc sp fuel fuel' t1 t5 dem dout t f accum out SO HD HO _ _ _ Sl Lc) as Nc. pose proof (cells_bound cc sp fuel fuel' t1 t5 dem dout t f accum out SO HD HO _ _ _ Sww Lw) as Nw.
  split.
  - rewrite Ev.
    destruct (fold_small (map (fun x => (x, 1)) (map (at_ (do_depths dout)) cs)) 127 (f64_ofZ 0) 0 ltac:(lia)) as [Fs Rs].
    + intros q Hq. apply in_map_iff in Hq. destruct Hq as (x & <- & Hx). apply in_map_iff in Hx. destruct Hx as (c & <- & Hx). cbn [fst snd].
      apply Lc in Hx. destruct Hx as [I _]. destruct Sl as [S1 S2]. rewrite <- S1, <- S2 in I.
      destruct (depth_small sp fuel t1 t5 dem dout SO H32 HF HB HD c I) as [X1 X2]. split; [exact X1|]. split; [lra|lia].
    + rewrite f64_ofZ0. reflexivity.
    + rewrite f64_ofZ0. change (B2R f64_zero) with 0%R. lra.
    + lia.
    + destruct (ones (map (at_ (do_depths dout)) cs)) as [_ ->]. rewrite map_length. lia.
    + destruct (ones (map (at_ (do_depths dout)) cs)) as [O1 O2]. rewrite O1 in Fs, Rs. rewrite O2, map_length in Rs.
      destruct (mul_small (fold_left f64_add (map (at_ (do_depths dout)) cs) (f64_ofZ 0)) (cell_area F64Ops t) 180 600 Fs Fa) as [Fm Rm]; auto; try lia.
      * split; [apply Rs|]. eapply Rle_trans; [apply Rs|]. change 180 with (53 + 127). rewrite bpow_plus. apply Rmult_le_compat_r; [apply bpow_ge_0|].
        rewrite <- (IZR_Zpower radix2) by lia. apply IZR_le. change (radix2 ^ 53) with (2 ^ 53). lia.
      * split; [exact Fm|apply Rm].
  - rewrite Ew. destruct (ofZ_exact (Z.of_nat (length ws))) as [Fz Ez]; [lia|]. change 653 with (53 + 600).
    apply mul_small; auto; [|lia]. rewrite Ez. split; [apply IZR_le; lia|]. rewrite <- (IZR_Zpower radix2) by lia. apply IZR_le.
    change (radix2 ^ 53) with (2 ^ 53). lia.
Qed.
End Chain.

Lemma nonneg64_B : forall x : b64, is_finite x = true -> (0 <= B2R x)%R -> nonneg64 x.
Proof.
  intros x F P. apply nonneg64_Q; [exact F|]. apply Rle_Qle. rewrite b64_Q_R. unfold Q2R at 1. cbn. lra.
Qed.

Theorem complete64_no_overflow : forall cc, labels_components cc ->
  forall sp t dem f (use_accum : bool) mm,
  size_ok sp dem -> dem32 dem -> dem_finite dem -> nrows dem * ncols dem < 2 ^ 53 ->
  (forall c, inside (nrows dem) (ncols dem) c -> at_most 126 (at_ dem c)) ->
  square_cells (gt1 t) (gt5 t) = true -> finite64 (gt1 t) -> finite64 (gt5 t) -> at_most 300 (gt1 t) -> at_most 300 (gt5 t) ->
  nonneg64 mm -> at_most 300 mm ->
  exists k, forall fuel, (fuel >= k)%nat -> exists o,
  complete64 sp cc fuel t dem f use_accum mm = Ok o /\ no_overflow o.
Proof.
  intros cc Hcc sp t dem f use_accum mm SO H32 HF Big HB SQ F1 F5 A1 A5 Pm Am.
  destruct (chain_total cc Hcc sp use_accum t dem f SO H32 HF SQ) as (k & K).
  exists (Nat.max k (S (Z.to_nat (nrows dem * ncols dem)))). intros fuel Fu.
  destruct (K fuel ltac:(lia)) as (dout & out & ED & EB).
  set (accum := if use_accum then Some (accum64 (do_accum dout)) else None) in *.
  assert (HA : accum = None \/ accum = Some (accum64 (do_accum dout))) by (unfold accum; destruct use_accum; auto).
  destruct (rain_shares cc Hcc sp fuel fuel _ _ dem dout t f accum out SO H32 HF ltac:(lia) ED HA EB) as (pps & Ep & Lp & R).
  destruct (exact_pps cc Hcc sp fuel fuel _ _ dem dout t f accum out SO H32 HF ED EB) as (pps' & Ep' & Ec & Ei & _).
  assert (pps' = pps) by congruence. subst pps'.
  destruct (dem_flow sp fuel _ _ dem dout SO H32 HF ED) as ([Q1 Q2] & _ & _).
  destruct (R true fuel) as (nodes & sts & Es & ND & _ & _ & V).
  { assert (1 <= nrows dem) by (destruct sp; cbn in SO; lia). assert (1 <= ncols dem) by (destruct sp; cbn in SO; lia).
    unfold rcells. rewrite length_cells_of.
    assert (E : nrows (do_flowdir dout) = nrows dem) by congruence. assert (E' : ncols (do_flowdir dout) = ncols dem) by congruence.
    rewrite E, E'. assert (Z.of_nat (Z.to_nat (nrows dem) * Z.to_nat (ncols dem)) = nrows dem * ncols dem) by (rewrite Nat2Z.inj_mul, !Z2Nat.id; auto; lia).
    lia. }
  { lia. }
  destruct (V (b64_Q mm)) as (_ & _ & AC). clear V R.
  unfold stream_process in Es. apply bind_ok in Es. destruct Es as (ns & En & Es). injection Es as Es1 Es2.
  destruct (ids64 cc Hcc sp fuel fuel _ _ dem dout t f accum out SO H32 HF ED EB pps Ep) as [I64 L64].
  set (ix := fold_left (fun d p => dset Z.eqb d (pp_id p) p) pps []) in *.
  set (ix64 := fold_left (fun d p => dset Z.eqb d (pp_id p) p) (bo_pourpoints out) []).
  set (nodes64 := map (make_node F64Ops t ix64) ns). set (fv := simple_volumes F64Ops mm nodes64).
  destruct (process_total F64Ops (map solver_node fv) (length fv)) as (fin64 & Ef64); [rewrite map_length; lia|].
  exists (mkFO fv (make_streams F64Ops t ns) fin64). split.
  { unfold complete64. rewrite ED. cbn [bind]. fold accum. rewrite EB. cbn [bind]. unfold stream_process.
    change (map (fun p => (pp_row p, pp_col p)) (bo_pourpoints out)) with (pps_of out). rewrite <- Ec, En. cbn [bind].
    fold ix64 nodes64 fv. rewrite Ef64. reflexivity. }
  assert (E64 : fv = map (fun n => let m := make_node F64Ops t ix64 n in (m, f64_mul (f64_mul (nf_wshed m) mm) (milli F64Ops))) ns).
  { unfold fv, simple_volumes, nodes64. rewrite map_map. reflexivity. }
  assert (Gids : map g_id ns = map n_id (map solver_node fv)).
  { rewrite E64, !map_map. apply map_ext. intros n. cbv zeta. cbn [n_id solver_node fst]. unfold make_node. destruct (dget Z.eqb ix64 (g_id n)); reflexivity. }
  assert (NDg : NoDup (map g_id ns)).
  { rewrite <- Es1, map_map in ND. erewrite map_ext; [exact ND|]. intros n. unfold make_node. destruct (dget Z.eqb ix (g_id n)); reflexivity. }
  assert (Wn : forall n, let m := make_node F64Ops t ix64 n in
     nonneg64 (nf_vol m) /\ nonneg64 (f64_mul (f64_mul (nf_wshed m) mm) (milli F64Ops)) /\
     at_most 970 (f64_mul (f64_mul (nf_wshed m) mm) (milli F64Ops)) /\
     (b64_Q (f64_mul (f64_mul (nf_wshed m) mm) (milli F64Ops)) == 0 \/ In (g_id n) (zseq 0 (length pps)))%Q).
  { intros n. cbv zeta.
    assert (S0 : (is_finite (nf_vol (make_node F64Ops t ix64 n)) = true /\ (0 <= B2R (nf_vol (make_node F64Ops t ix64 n)))%R) /\
      (is_finite (nf_wshed (make_node F64Ops t ix64 n)) = true /\ (0 <= B2R (nf_wshed (make_node F64Ops t ix64 n)) <= bpow radix2 653)%R) /\
      (B2R (nf_wshed (make_node F64Ops t ix64 n)) = 0%R \/ In (g_id n) (zseq 0 (length pps)))).
    { unfold make_node. unfold ix64. rewrite (index_get _ I64), L64.
      destruct ((0 <=? g_id n) && (g_id n <? Z.of_nat (length pps))) eqn:Ir.
      - apply andb_prop in Ir. destruct Ir as [I1 I2]. apply Z.leb_le in I1. apply Z.ltb_lt in I2.
        destruct (nth_error (bo_pourpoints out) (Z.to_nat (g_id n))) as [p|] eqn:Epp; [|apply nth_error_None in Epp; lia].
        cbn [nf_vol nf_wshed].
        destruct (pp_small cc Hcc sp fuel fuel _ _ dem dout t f accum out SO H32 HF HB Big ED EB F1 F5 A1 A5 p (nth_error_In _ _ Epp)) as [X1 X2].
        split; [exact X1|]. split; [exact X2|]. right. apply in_zseq. lia.
      - cbn [nf_vol nf_wshed nofZ F64Ops]. rewrite f64_ofZ0. change (B2R f64_zero) with 0%R. split; [split; [reflexivity|lra]|].
        split; [split; [reflexivity|]|left; reflexivity]. split; [lra|apply bpow_ge_0]. }
    destruct S0 as ([Fv Rv] & [Fw Rw] & Z0). destruct (nonneg64_R _ Pm) as [Fm Rm]. apply at_most_R in Am; [|lia].
    rewrite Rabs_pos_eq in Am by exact Rm. destruct milli_small as [Fi Ri].
    destruct (mul_small _ mm 653 300 Fw Fm Rw (conj Rm Am) ltac:(lia)) as [Fp Rp].
    destruct (mul_small _ _ 953 0 Fp Fi Rp Ri ltac:(lia)) as [Fq Rq].
    split; [apply nonneg64_B; auto|]. split; [apply nonneg64_B; [exact Fq|apply Rq]|]. split.
    - unfold at_most. apply Rle_Qle. rewrite Qabs_R, b64_Q_R, Q2R_ofZ, Rabs_pos_eq by apply Rq. eapply Rle_trans; [apply Rq|].
      change (2 ^ 970) with (radix2 ^ 970). rewrite IZR_Zpower by lia. apply bpow_le. lia.
    - destruct Z0 as [Z0|Z0]; [left|right; exact Z0]. destruct (mul_rnd _ _ Fq) as (Fp' & _ & Eq). destruct (mul_rnd _ _ Fp') as (_ & _ & Eq').
      apply eqR_Qeq. rewrite b64_Q_R, Eq, Eq', Z0, Rmult_0_l, rnd64_0, Rmult_0_l, rnd64_0. unfold Q2R. cbn. lra. }
  split; cbn [fo_nodes fo_final].
  { intros n v Hn. rewrite E64 in Hn. apply in_map_iff in Hn. destruct Hn as (g & Eg & _). cbv zeta in Eg.
    apply pair_equal_spec in Eg. destruct Eg as [<- <-]. destruct (Wn g) as ([W1 _] & [W2 _] & _). split; [exact W2|exact W1]. }
  apply (spills_finite' (map solver_node fv) (length fv) fin64); auto.
  - unfold unique_ids. rewrite <- Gids. exact NDg.
  - eapply acyclic_transport; [|exact AC]. rewrite E64. unfold simple_volumes. rewrite <- Es1, !map_map. apply map_ext. intros n. cbv zeta.
    cbn [n_id n_dstr solver_node fst]. unfold make_node. destruct (dget Z.eqb ix64 (g_id n)), (dget Z.eqb ix (g_id n)); reflexivity.
  - intros n Hn. rewrite E64, map_map in Hn. apply in_map_iff in Hn. destruct Hn as (g & <- & _). cbn [n_water n_cap solver_node fst snd].
    destruct (Wn g) as (W1 & W2 & W3 & _). auto.
  - unfold wet_nodes. set (wet := filter _ _).
    assert (L : (length (map n_id wet) <= length (zseq 0 (length pps)))%nat).
    { apply NoDup_incl_length.
      - unfold wet. assert (NDn : NoDup (map n_id (map solver_node fv))) by (rewrite <- Gids; exact NDg). clear - NDn.
        induction (map solver_node fv) as [|n l IH]; cbn [filter map] in *; [constructor|]. inversion NDn; subst.
        destruct (negb (Qeq_bool (b64_Q (n_water n)) 0)); auto. cbn [map]. constructor; auto.
        intros X. apply H1. apply in_map_iff in X. destruct X as (m & <- & Hm). apply filter_In in Hm. apply in_map. apply Hm.
      - intros i Hi. apply in_map_iff in Hi. destruct Hi as (n & <- & Hn). apply filter_In in Hn. destruct Hn as [Hn Z0].
        rewrite E64, map_map in Hn. apply in_map_iff in Hn. destruct Hn as (g & <- & _). cbv zeta in Z0 |- *. cbn [n_id n_water solver_node fst snd] in *.
        assert (Eid : nf_id (make_node F64Ops t ix64 g) = g_id g) by (unfold make_node; destruct (dget Z.eqb ix64 (g_id g)); reflexivity).
        rewrite Eid. destruct (Wn g) as (_ & _ & _ & [W|W]); [|exact W].
        apply Qeq_bool_iff in W. rewrite W in Z0. discriminate Z0. }
    rewrite map_length, zseq_length in L. lia.
Qed.
