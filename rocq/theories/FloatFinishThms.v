(** * The complete command in floats, up to the final rasters *)

From Coq Require Import QArith Qabs Qreals Reals Lra Lia Permutation.
From Flocq Require Import Core IEEE754.BinarySingleNaN.
From Verif Require Import Base BaseProofs AccumProofs Num Dict DictProofs Float64 Float64Proofs Float64Arith Float64Scale Float32Proofs FillModel FillSpec RelaxProofs FillProofs FillThms
  FlowModel FlowSpec DemModel DemProofs LevelProofs LabelModel LabelSpec LabelProofs CompSpec CompProofs VectorModel BluespotModel BluespotSpec BluespotProofs
  NetModel NetSpec NetThms NetworkModel NetworkSpec NetworkProofs NetworkThms NetworkFloatSpec NetworkFloatThms RainModel PipelineModel RainProofs FloatQ
  HypsModel ApproxModel CompleteProofs CompleteThms RoundSpec RoundProofs RoundThms RoundNetThms FloatPipeModel FloatPipeSpec FloatPipeProofs FloatPipeThms OverflowSpec OverflowProofs OverflowThms
  FloatFinishModel FloatFinishSpec FinishArith FinishBins FinishLevel FinishHyps FinishStats FloatFinishProofs.
Local Open Scope Z_scope.

Lemma at_least_R : forall e x, at_least e x -> (bpow radix2 (- Zpos e) <= Rabs (B2R x))%R.
Proof.
  intros e x H. unfold at_least in H. apply Qle_Rle in H. rewrite Qabs_R, b64_Q_R in H. eapply Rle_trans; [|exact H].
  rewrite bpow_opp, <- (IZR_Zpower radix2) by lia. unfold Q2R. cbn [Qnum Qden]. rewrite Rmult_1_l. change (Zpos (2 ^ e)) with (Z.pos (2 ^ e)).
  rewrite Pos2Z.inj_pow. apply Rle_refl.
Qed.

Lemma Babs_R : forall x : b64, is_finite x = true -> is_finite (Babs x) = true /\ B2R (Babs x) = Rabs (B2R x).
Proof. intros x F. split; [rewrite is_finite_Babs; exact F|apply B2R_Babs]. Qed.

Lemma product_between : forall x y : b64, is_finite x = true -> is_finite y = true ->
  (bpow radix2 (-100) <= B2R x <= bpow radix2 100)%R -> (bpow radix2 (-100) <= B2R y <= bpow radix2 100)%R ->
  is_finite (f64_mul x y) = true /\ (bpow radix2 (-200) <= B2R (f64_mul x y) <= bpow radix2 200)%R.
Proof.
  intros x y Fx Fy X Y. pose proof (bpow_gt_0 radix2 (-100)) as P.
  destruct (mul_abs x y 100 100 Fx Fy ltac:(lia)) as (F & E & U); [rewrite Rabs_pos_eq; lra|rewrite Rabs_pos_eq; lra|].
  split; [exact F|]. change (100 + 100) with 200 in U. apply Rabs_le_inv in U. split; [|apply U].
  rewrite E, <- (rnd_bpow (-200)) by lia. apply rnd64_le. change (-200) with (-100 + -100). rewrite bpow_plus. apply Rmult_le_compat; lra.
Qed.

(** ** Sums of depths *)
Lemma fold_good : forall l e a acc k, -1074 <= e -> -1074 <= a <= 970 -> 0 <= k -> k + Z.of_nat (length l) <= 2 ^ 53 ->
  good e a k acc -> (forall x, In x l -> good e a 1 x) -> good e a (k + Z.of_nat (length l)) (fold_left f64_add l acc).
Proof.
  induction l as [|y l IH]; intros e a acc k E A K N G H; cbn [fold_left length] in *; [rewrite Z.add_0_r; exact G|].
  rewrite Nat2Z.inj_succ in *. replace (k + Z.succ (Z.of_nat (length l))) with (k + 1 + Z.of_nat (length l)) by lia.
  apply IH; auto; [lia|lia| |intros x Hx; apply H; right; exact Hx]. apply good_add; auto; [lia|apply H; left; reflexivity].
Qed.

(** ** The water kept is finite *)
Lemma volumes_finite : forall (fs : list (@node b64)) fuel out, unique_ids fs ->
  (forall n, In n fs -> nonneg64 (n_water n) /\ nonneg64 (n_cap n)) -> process F64Ops fuel fs = Ok out ->
  forall n e, In (n, Some e) out -> is_finite (e_vol e) = true /\ (0 <= B2R (e_vol e))%R.
Proof.
  intros fs fuel out UI POS H n e Hn. destruct (process_spec F64Ops fs fuel out H) as (M & evs & E & A & _).
  rewrite index_unique in M, E by exact UI. destruct (A n e Hn) as (He & Ei & _).
  assert (Hf : In n fs) by (rewrite <- M; apply (in_map fst) in Hn; exact Hn).
  destruct (no_overfill64 fs fuel evs UI POS E n e Hf He Ei) as (L0 & L1 & _).
  destruct (POS n Hf) as (_ & Fc & Pc).
  assert (NN : not_nan (e_vol e)). { destruct (e_vol e); try reflexivity. discriminate L0. }
  assert (F : is_finite (e_vol e) = true).
  { destruct (e_vol e) as [|[|]| |] eqn:V; try reflexivity; [discriminate L0| |discriminate L0].
    unfold le64 in L1. destruct (n_cap n) as [|[|]| |[|]]; try discriminate Fc; discriminate L1. }
  split; [exact F|]. apply leb_R in L0; auto.
Qed.

Section Chain.
Variable cc : raster bool -> raster Z * Z.
Hypothesis Hcc : labels_components cc.
Variable sp : bool.
Variables (fuel fuel' : nat) (t1 t5 : b64) (dem : raster b64) (dout : dem_out) (t : geotransform b64)
  (f : @unit_stats b64 -> bool) (accum : option (raster b64)) (out : bluespot_out) (mm w : b64).
Hypothesis SO : size_ok sp dem.
Hypothesis H32 : dem32 dem.
Hypothesis HF : dem_finite dem.
Hypothesis SI : sane_inputs t dem mm w.
Hypothesis HD : dem_process sp fuel t1 t5 dem = Ok dout.
Hypothesis HO : bluespot_process sp cc fuel' t (do_depths dout) (do_flowdir dout) (Some f) accum (Some dem) = Ok out.

Lemma cell_sizes : let x := Rabs (B2R (gt1 t)) in let y := Rabs (B2R (gt5 t)) in
  (bpow radix2 (-100) <= x <= bpow radix2 100)%R /\ (bpow radix2 (-100) <= y <= bpow radix2 100)%R.
Proof.
  destruct SI as [_ _ _ _ F1 F5 [A1 B1] [A5 B5] _ _]. cbv zeta.
  split; (split; [apply (at_least_R 100); assumption|apply at_most_R; [lia|assumption]]).
Qed.

Lemma area_facts : let a := cell_area F64Ops t in is_finite a = true /\ (bpow radix2 (-200) <= B2R a <= bpow radix2 200)%R.
Proof.
  pose proof cell_sizes as [X Y]. destruct SI as [_ _ _ _ F1 F5 _ _ _ _]. cbv zeta. unfold cell_area. cbn [nmul F64Ops].
  destruct (nabs_R _ F1) as [G1 E1]. destruct (nabs_R _ F5) as [G5 E5]. apply product_between; auto; [rewrite E1|rewrite E5]; assumption.
Qed.

Lemma hyps_area : let a := f64_mul (Babs (gt5 t)) (Babs (gt1 t)) in is_finite a = true /\ (bpow radix2 (-200) <= B2R a <= bpow radix2 200)%R.
Proof.
  pose proof cell_sizes as [X Y]. destruct SI as [_ _ _ _ F1 F5 _ _ _ _]. cbv zeta.
  destruct (Babs_R _ F1) as [G1 E1]. destruct (Babs_R _ F5) as [G5 E5]. apply product_between; auto; [rewrite E5|rewrite E1]; assumption.
Qed.

Lemma res_facts : is_finite w = true /\ (bpow radix2 (-100) <= B2R w <= bpow radix2 100)%R.
Proof.
  destruct SI as [_ _ _ _ _ _ _ _ ([F P] & A & B) _]. destruct (nonneg64_R _ (conj F P)) as [_ P'].
  apply at_least_R in B. apply at_most_R in A; [|lia]. rewrite Rabs_pos_eq in A, B by exact P'. split; [exact F|split; assumption].
Qed.

Lemma elev_facts : forall c, inside (nrows dem) (ncols dem) c -> elev_ok w (at_ dem c).
Proof.
  intros c Hc. destruct SI as [_ E S _ _ _ _ _ ([F P] & _) _]. split; [apply HF; exact Hc|]. split; [apply at_most_R; [lia|apply E; exact Hc]|].
  specialize (S c Hc). apply Qle_Rle in S. rewrite Q2R_mult, Qabs_R, !b64_Q_R, Q2R_ofZ in S. exact S.
Qed.

Lemma pp_facts : forall l, 1 <= l <= bo_nlabels out -> exists p cs, nth_error (bo_pourpoints out) (Z.to_nat l) = Some p /\
  lists_cells (has_label (bo_labeled out) l) cs /\ Z.of_nat (length cs) <= nrows dem * ncols dem /\
  gridlike (-350) (pp_vol p) /\ (B2R (pp_vol p) <= bpow radix2 500)%R /\
  is_finite (pp_dmax p) = true /\ (0 <= B2R (pp_dmax p) <= bpow radix2 127)%R /\
  In (pp_dmax p) (map (at_ (do_depths dout)) cs) /\
  forall c, In c cs -> (B2R (at_ (do_depths dout) c) <= B2R (pp_dmax p))%R.
Proof.
  intros l Hl.
  destruct (depths_facts sp fuel t1 t5 dem dout SO H32 HF HD) as (Sd & _ & _).
  destruct (dem_flow sp fuel t1 t5 dem dout SO H32 HF HD) as (Sf & D & _).
  assert (Hr : (1 <= nrows (do_depths dout))%Z) by (destruct Sd as [<- _]; destruct sp; cbn in SO; lia).
  assert (Hc : (1 <= ncols (do_depths dout))%Z) by (destruct Sd as [_ <-]; destruct sp; cbn in SO; lia).
  assert (Sdf : same_shape (do_depths dout) (do_flowdir dout)) by (destruct Sd, Sf; split; congruence).
  destruct (process_pourpoints cc Hcc sp fuel' t _ _ _ _ _ _ Hr Hc Sdf D HO) as (pix & _ & _ & Lp & Sw & _ & G).
  destruct (process_filter cc Hcc sp _ _ _ _ _ _ _ _ Hr Hc HO) as (Sh & Nm & _).
  destruct (G l ltac:(lia)) as (p & r & cs & ws & Ep & _ & Lc & _ & _ & _ & _ & Ex & _ & Ev & _).
  destruct area_facts as [Fa Ra].
  assert (Sl : same_shape dem (bo_labeled out)) by (destruct Sd, Sh; split; congruence).
  pose proof (cells_bound cc sp fuel fuel' t1 t5 dem dout t f accum out SO HD HO _ _ _ Sl Lc) as Nc.
  assert (DS : forall c, has_label (bo_labeled out) l c -> is_finite (at_ (do_depths dout) c) = true /\ (0 <= B2R (at_ (do_depths dout) c) <= bpow radix2 127)%R /\ is_f32 (at_ (do_depths dout) c)).
  { intros c [I _]. destruct Sl as [S1 S2]. rewrite <- S1, <- S2 in I.
    destruct (depth_small sp fuel t1 t5 dem dout SO H32 HF (si_elev _ _ _ _ SI) HD c I) as [X1 X2]. split; [exact X1|]. split; [exact X2|].
    destruct (exact_pps cc Hcc sp fuel fuel' _ _ dem dout t f accum out SO H32 HF HD HO) as (pps & Epp & _).
    apply (depths_ok cc sp fuel fuel' t1 t5 dem dout t f accum out SO H32 HF HD HO pps Epp). destruct Sd as [<- <-]. exact I. }
  exists p, cs. split; [exact Ep|]. split; [exact Lc|]. split; [exact Nc|].
  assert (GD : forall x, In x (map (at_ (do_depths dout)) cs) -> good (-149) 127 1 x).
  { intros x Hx. apply in_map_iff in Hx. destruct Hx as (c & <- & Hx). apply Lc in Hx. destruct (DS c Hx) as (X1 & X2 & X3).
    split; [|rewrite Rmult_1_l; apply X2]. split; [exact X1|]. split; [apply X2|].
    destruct (Req_dec (B2R (at_ (do_depths dout) c)) 0) as [Z0|Z0]; [left; exact Z0|right]. apply f32_low; auto. lra. }
  assert (G0 : good (-149) 127 0 (f64_ofZ 0)).
  { rewrite f64_ofZ0. split; [split; [reflexivity|]|]; change (B2R f64_zero) with 0%R; [split; [lra|left; reflexivity]|lra]. }
  pose proof (si_cells _ _ _ _ SI) as Big.
  destruct (fold_good (map (at_ (do_depths dout)) cs) (-149) 127 (f64_ofZ 0) 0 ltac:(lia) ltac:(lia) ltac:(lia)) as [(Fs & Ps & Gs) Us]; auto.
  { rewrite map_length. lia. }
  set (sum := fold_left f64_add (map (at_ (do_depths dout)) cs) (f64_ofZ 0)) in *.
  assert (Us' : (B2R sum <= bpow radix2 180)%R).
  { eapply Rle_trans; [exact Us|]. change 180 with (53 + 127). rewrite bpow_plus. apply Rmult_le_compat_r; [apply bpow_ge_0|].
    rewrite <- (IZR_Zpower radix2) by lia. apply IZR_le. rewrite map_length. change (radix2 ^ 53) with (2 ^ 53). lia. }
  pose proof (bpow_gt_0 radix2 (-200)) as P200.
  destruct (mul_abs sum (cell_area F64Ops t) 180 200 Fs Fa ltac:(lia)) as (Fm & Em & Um); [rewrite Rabs_pos_eq; lra|rewrite Rabs_pos_eq; lra|].
  rewrite Ev. fold sum. split; [|split].
  - split; [exact Fm|]. split; [rewrite Em; apply rnd_pos; apply Rmult_le_pos; lra|].
    destruct Gs as [Gs|Gs]; [left; rewrite Em, Gs, Rmult_0_l; apply rnd64_0|right].
    rewrite Em, <- (rnd_bpow (-350)) by lia. apply rnd64_le. apply Rle_trans with (bpow radix2 (-149) * bpow radix2 (-200))%R.
    + rewrite <- bpow_plus. apply bpow_le. lia.
    + apply Rmult_le_compat; try lra. apply bpow_ge_0.
  - apply Rabs_le_inv in Um. eapply Rle_trans; [apply Um|]. apply bpow_le. lia.
  - destruct Ex as [[(c & Hl' & _ & Em')|(_ & Ab)] Al].
    + destruct (DS c Hl') as (X1 & X2 & _). rewrite Em'. split; [exact X1|]. split; [exact X2|]. split; [apply in_map; apply Lc; exact Hl'|].
      intros d Hd. apply Lc in Hd. destruct (DS d Hd) as (Y1 & _). rewrite Em' in Al. apply leb_R; auto. apply Al; [exact Hd|apply finite_not_nan; exact Y1].
    + exfalso. destruct Nm as (_ & _ & U). destruct (U l Hl) as (c & Hc'). apply (Ab c Hc'). destruct (DS c Hc') as (Y1 & _). apply finite_not_nan. exact Y1.
Qed.

(** The level of a bluespot. *)
Lemma level_of : forall l h p cs v, 1 <= l <= bo_nlabels out -> nth_error (bo_pourpoints out) (Z.to_nat l) = Some p ->
  lists_cells (has_label (bo_labeled out) l) cs -> stats_of dem w cs h -> is_finite v = true -> (0 <= B2R v)%R ->
  exists L, water_level F64Ops h (f64_mul (Babs (gt5 t)) (Babs (gt1 t))) (pp_dmax p) (pp_vol p) v = Ok L /\
    is_finite L = true /\ (Rabs (B2R L) <= bpow radix2 150)%R /\
    (0 <= B2R (z_min h) -> L = f64_add (z_min h) (pp_dmax p) \/ B2R (z_min h) <= B2R L <= gap (B2R (z_max h)))%R.
Proof.
  intros l h p cs v Hl Ep Lc [Mn Mx Bt Eb Eh Ln Cb] Fv Pv.
  destruct (pp_facts l Hl) as (p' & cs' & Ep' & Lc' & Nc & Gv & Uv & Fd & Rd & _). assert (p' = p) by congruence. subst p'.
  assert (cs' = cs) by (eapply lists_unique; eauto). subst cs'.
  destruct (depths_facts sp fuel t1 t5 dem dout SO H32 HF HD) as (Sd & _ & _).
  assert (Hr : (1 <= nrows (do_depths dout))%Z) by (destruct Sd as [<- _]; destruct sp; cbn in SO; lia).
  assert (Hc : (1 <= ncols (do_depths dout))%Z) by (destruct Sd as [_ <-]; destruct sp; cbn in SO; lia).
  destruct (process_filter cc Hcc sp _ _ _ _ _ _ _ _ Hr Hc HO) as (Sh & _).
  assert (EL : forall z, In z (map (at_ dem) cs) -> elev_ok w z).
  { intros z Hz. apply in_map_iff in Hz. destruct Hz as (c & <- & Hz). apply Lc in Hz. destruct Hz as [I _]. apply elev_facts.
    destruct Sd, Sh. assert (nrows dem = nrows (bo_labeled out)) by congruence. assert (ncols dem = ncols (bo_labeled out)) by congruence. congruence. }
  destruct (EL _ Mn) as (Fa & Aa & Ba). destruct (EL _ Mx) as (Fb & Ab & Bb).
  assert (LE : (B2R (z_min h) <= B2R (z_max h))%R).
  { apply in_map_iff in Mn. destruct Mn as (c & Ec & Hc'). rewrite <- Ec at 1. apply Bt. exact Hc'. }
  destruct res_facts as [Fw [W1 W2]]. destruct hyps_area as [FA RA]. pose proof (si_cells _ _ _ _ SI) as Big.
  destruct (hb w (z_min h) (z_max h) Fw W1 W2 Fa Fb Aa Ab Ba Bb LE _ Eb) as (Nb & _).
  destruct (level_facts w (z_min h) (z_max h) Fw W1 W2 Fa Fb Aa Ab Ba Bb LE _ Eb (h_counts (z_hist h)) (f64_mul (Babs (gt5 t)) (Babs (gt1 t))) (pp_dmax p) (pp_vol p) v) as (L & E & F & A & B); auto.
  - congruence.
  - intros c Hc'. apply Cb in Hc'. lia.
  - rewrite Rabs_pos_eq by apply Rd. eapply Rle_trans; [apply Rd|]. apply bpow_le. lia.
  - exists L. split; [|split; [exact F|split; [exact A|exact B]]]. rewrite <- E. destruct h as [[k b] zl zh]. reflexivity.
Qed.
End Chain.

Lemma node_attrs : forall t (ix : list (Z * @pourpoint b64)) (n : gnode), nf_id (make_node F64Ops t ix n) = g_id n /\
  nf_junction (make_node F64Ops t ix n) = g_junction n /\ nf_dstr (make_node F64Ops t ix n) = g_dstr n.
Proof. intros t ix n. unfold make_node. destruct (dget Z.eqb ix (g_id n)); auto. Qed.

Lemma node_attrs_q : forall t (ix : list (Z * @pourpoint Q)) (n : gnode), nf_id (make_node QOps t ix n) = g_id n /\
  nf_junction (make_node QOps t ix n) = g_junction n /\ nf_dstr (make_node QOps t ix n) = g_dstr n.
Proof. intros t ix n. unfold make_node. destruct (dget Z.eqb ix (g_id n)); auto. Qed.

Lemma ids_kinds : forall (a : gnode -> @node_feature b64) (b : gnode -> @node_feature Q) ns,
  (forall n, nf_id (a n) = nf_id (b n) /\ nf_junction (a n) = nf_junction (b n)) ->
  map nf_id (filter (fun m => negb (nf_junction m)) (map a ns)) = map nf_id (filter (fun m => negb (nf_junction m)) (map b ns)).
Proof.
  intros a b ns H. induction ns as [|n ns IH]; [reflexivity|]. cbn [map filter]. destruct (H n) as [H1 H2]. rewrite H2.
  destruct (negb (nf_junction (b n))); cbn [map]; rewrite IH; [rewrite H1|]; reflexivity.
Qed.

(** ** Everything about one run *)
Record run64 (t : geotransform b64) (dem : raster b64) (w : b64) (o : complete64_out) : Prop := {
  r_shape : same_shape dem (bo_labeled (c64_bluespots o));
  r_num : numbered (bo_labeled (c64_bluespots o)) (bo_nlabels (c64_bluespots o));
  r_ids : map hi_bspot (ff_hyps (c64_finish o)) = zseq 0 (Z.to_nat (bo_nlabels (c64_bluespots o) + 1));
  r_hyps : forall i, In i (ff_hyps (c64_finish o)) -> 1 <= hi_bspot i -> exists h cs,
    hyps_from_flatdict (hi_dict i) = Ok h /\ lists_cells (has_label (bo_labeled (c64_bluespots o)) (hi_bspot i)) cs /\ stats_of dem w cs h;
  r_levels : Permutation (map lf_bspot (ff_levels (c64_finish o))) (zseq 0 (Z.to_nat (bo_nlabels (c64_bluespots o) + 1)));
  r_volume : forall v, In v (ff_levels (c64_finish o)) -> exists nd e, In (nd, Some e) (fo_final (c64_volumes o)) /\ n_id nd = lf_bspot v /\
    lf_v v = e_vol e /\ is_finite (e_vol e) = true /\ (0 <= B2R (e_vol e))%R;
  r_level : forall v, In v (ff_levels (c64_finish o)) -> 1 <= lf_bspot v -> exists p h cs,
    nth_error (bo_pourpoints (c64_bluespots o)) (Z.to_nat (lf_bspot v)) = Some p /\
    lists_cells (has_label (bo_labeled (c64_bluespots o)) (lf_bspot v)) cs /\ stats_of dem w cs h /\
    water_level F64Ops h (f64_mul (Babs (gt5 t)) (Babs (gt1 t))) (pp_dmax p) (pp_vol p) (lf_v v) = Ok (lf_z v) /\
    is_finite (lf_z v) = true /\ (Rabs (B2R (lf_z v)) <= bpow radix2 150)%R /\ lf_dmax v = f64_sub (lf_z v) (z_min h) /\
    (0 <= B2R (z_min h) -> lf_z v = f64_add (z_min h) (pp_dmax p) \/ B2R (z_min h) <= B2R (lf_z v) <= gap (B2R (z_max h)))%R;
  r_lshape : same_shape (ff_labels (c64_finish o)) dem;
  r_dshape : same_shape (ff_depths (c64_finish o)) dem;
  r_cells : forall c, inside (nrows dem) (ncols dem) c ->
    (at_ (bo_labeled (c64_bluespots o)) c = 0 -> at_ (ff_labels (c64_finish o)) c = 0 /\
       (le64 (f64_ofZ (-999)) (at_ dem c) -> eq64 (at_ (ff_depths (c64_finish o)) c) f64_zero)) /\
    (at_ (bo_labeled (c64_bluespots o)) c <> 0 -> exists v, In v (ff_levels (c64_finish o)) /\ lf_bspot v = at_ (bo_labeled (c64_bluespots o)) c /\
       (lt64 (lf_z v) (at_ dem c) -> at_ (ff_depths (c64_finish o)) c = f64_zero /\ at_ (ff_labels (c64_finish o)) c = 0) /\
       (le64 (at_ dem c) (lf_z v) -> at_ (ff_depths (c64_finish o)) c = f64_sub (lf_z v) (at_ dem c) /\
          le64 f64_zero (at_ (ff_depths (c64_finish o)) c) /\ at_ (ff_labels (c64_finish o)) c = at_ (bo_labeled (c64_bluespots o)) c))
}.

Theorem run64_total : forall cc, labels_components cc -> forall sp t dem f (use_accum : bool) mm w,
  size_ok sp dem -> dem32 dem -> dem_finite dem -> sane_inputs t dem mm w ->
  exists k, forall fuel, (fuel >= k)%nat -> exists o,
    let accum := if use_accum then Some (accum64 (do_accum (c64_dem o))) else None in
    complete_all64 sp cc fuel t dem f use_accum mm w = Ok o /\
    complete64 sp cc fuel t dem f use_accum mm = Ok (c64_volumes o) /\ no_overflow (c64_volumes o) /\
    dem_process sp fuel (gt1 t) (gt5 t) dem = Ok (c64_dem o) /\
    bluespot_process sp cc fuel t (do_depths (c64_dem o)) (do_flowdir (c64_dem o)) (Some f) accum (Some dem) = Ok (c64_bluespots o) /\
    run64 t dem w o.
Proof.
  intros cc Hcc sp t dem f use_accum mm w SO H32 HF SI.
  pose proof SI as [Big HB _ SQ F1 F5 [A1 _] [A5 _] Rw [Pm Am]].
  assert (W : forall x, at_most 100 x -> at_most 300 x).
  { intros x H. unfold at_most in *. eapply Qle_trans; [exact H|]. unfold Qle. cbn. lia. }
  destruct (complete64_no_overflow cc Hcc sp t dem f use_accum mm SO H32 HF Big HB SQ F1 F5 (W _ A1) (W _ A5) Pm Am) as (k & K).
  exists (Nat.max k (S (Z.to_nat (nrows dem * ncols dem)))). intros fuel Fu.
  destruct (K fuel ltac:(lia)) as (fo & EC & NO). clear K.
  pose proof EC as EC'. unfold complete64 in EC'.
  apply bind_ok in EC'. destruct EC' as (dout & ED & EC'). apply bind_ok in EC'. destruct EC' as (out & EB & EC').
  apply bind_ok in EC'. destruct EC' as ([nodes sts] & ES & EC'). apply bind_ok in EC'. destruct EC' as (fin & EF & EC'). injection EC' as <-.
  set (accum := if use_accum then Some (accum64 (do_accum dout)) else None) in *.
  assert (HA : accum = None \/ accum = Some (accum64 (do_accum dout))) by (unfold accum; destruct use_accum; auto).
  destruct (rain_shares cc Hcc sp fuel fuel _ _ dem dout t f accum out SO H32 HF ltac:(lia) ED HA EB) as (pps & Ep & Lp & R).
  destruct (exact_pps cc Hcc sp fuel fuel _ _ dem dout t f accum out SO H32 HF ED EB) as (pps' & Ep' & Ec & Ei & _).
  assert (pps' = pps) by congruence. subst pps'.
  destruct (pps_stats cc Hcc sp fuel fuel _ _ dem dout t f accum out SO H32 HF ED EB pps Ep) as (Sh & Nm & LG & Ln & N0 & _).
  destruct (ids64 cc Hcc sp fuel fuel _ _ dem dout t f accum out SO H32 HF ED EB pps Ep) as [I64 L64].
  destruct (dem_flow sp fuel _ _ dem dout SO H32 HF ED) as ([Q1 Q2] & _ & _).
  destruct (R true fuel) as (qnodes & qsts & Eq & ND & Pmt & _ & V).
  { assert (1 <= nrows dem) by (destruct sp; cbn in SO; lia). assert (1 <= ncols dem) by (destruct sp; cbn in SO; lia).
    unfold rcells. rewrite length_cells_of.
    assert (E : nrows (do_flowdir dout) = nrows dem) by congruence. assert (E' : ncols (do_flowdir dout) = ncols dem) by congruence.
    rewrite E, E'. assert (Z.of_nat (Z.to_nat (nrows dem) * Z.to_nat (ncols dem)) = nrows dem * ncols dem) by (rewrite Nat2Z.inj_mul, !Z2Nat.id; auto; lia).
    lia. }
  { lia. }
  destruct (V 0%Q) as (_ & _ & AC). clear V R.
  unfold stream_process in ES, Eq. change (map (fun p => (pp_row p, pp_col p)) (bo_pourpoints out)) with (pps_of out) in ES. rewrite <- Ec in ES.
  apply bind_ok in Eq. destruct Eq as (ns & En & Eq). rewrite En in ES. cbn [bind] in ES.
  set (ix := fold_left (fun d p => dset Z.eqb d (pp_id p) p) pps []) in *.
  set (ix64 := fold_left (fun d p => dset Z.eqb d (pp_id p) p) (bo_pourpoints out) []) in *.
  apply (f_equal (fun r => match r with Ok x => fst x | _ => [] end)) in Eq. cbn [fst] in Eq.
  apply (f_equal (fun r => match r with Ok x => x | _ => ([], []) end)) in ES. apply pair_equal_spec in ES. destruct ES as [EN ES'].
  set (vols := simple_volumes F64Ops mm nodes) in *.
  assert (Mv : map fst vols = nodes).
  { unfold vols, simple_volumes. rewrite map_map. cbn [fst]. apply map_id. }
  assert (NDn : NoDup (map nf_id nodes)).
  { rewrite <- EN, map_map. rewrite <- Eq, map_map in ND. erewrite map_ext; [exact ND|]. intros n. cbv beta.
    destruct (node_attrs t ix64 n) as [-> _]. symmetry. apply node_attrs_q. }
  assert (NDv : NoDup (map (fun nv => nf_id (fst nv)) vols)) by (rewrite <- Mv, map_map in NDn; exact NDn).
  assert (UI : unique_ids (map solver_node vols)).
  { unfold unique_ids. rewrite map_map. cbn [n_id solver_node]. exact NDv. }
  assert (AC' : acyclic_closed (map solver_node vols)).
  { eapply acyclic_transport; [|exact AC]. unfold vols, simple_volumes. rewrite <- EN, <- Eq, !map_map. apply map_ext. intros n. cbv zeta.
    cbn [n_id n_dstr solver_node fst]. destruct (node_attrs t ix64 n) as (-> & _ & ->). destruct (node_attrs_q (gt_Q t) ix n) as (-> & _ & ->). reflexivity. }
  assert (PV : Permutation (map nf_id (filter (fun m => negb (nf_junction m)) (map fst vols))) (zseq 0 (Z.to_nat (bo_nlabels out + 1)))).
  { rewrite Mv, <- Ln. rewrite <- EN. erewrite ids_kinds; [rewrite Eq; exact Pmt|]. intros n.
    destruct (node_attrs t ix64 n) as (-> & -> & _). destruct (node_attrs_q (gt_Q t) ix n) as (-> & -> & _). auto. }
  destruct (all_written _ _ _ _ UI AC' EF) as (Mf & Wf).
  assert (NF : forall m, In m nodes -> (is_finite (nf_vol m) = true /\ (0 <= B2R (nf_vol m))%R) /\ (0 <= B2R (nf_wshed m))%R /\
    (nf_junction m = false -> nf_bspot m = Some (nf_id m))).
  { intros m Hm.
    assert (Jm : nf_junction m = false -> 0 <= nf_id m < Z.of_nat (length pps)).
    { intros J. assert (X : In (nf_id m) (zseq 0 (Z.to_nat (bo_nlabels out + 1)))).
      { eapply Permutation_in; [exact PV|]. apply in_map. apply filter_In. rewrite Mv, J. auto. }
      apply in_zseq in X. lia. }
    revert Jm. rewrite <- EN in Hm. apply in_map_iff in Hm. destruct Hm as (n & <- & _).
    destruct (node_attrs t ix64 n) as (-> & -> & _). intros Jm.
    unfold make_node. unfold ix64. rewrite (index_get _ I64), L64.
    destruct ((0 <=? g_id n) && (g_id n <? Z.of_nat (length pps))) eqn:Ir.
    - apply andb_prop in Ir. destruct Ir as [I1 I2]. apply Z.leb_le in I1. apply Z.ltb_lt in I2.
      destruct (nth_error (bo_pourpoints out) (Z.to_nat (g_id n))) as [p|] eqn:Epp; [|apply nth_error_None in Epp; lia].
      cbn [nf_vol nf_wshed nf_bspot].
      destruct (pp_small cc Hcc sp fuel fuel _ _ dem dout t f accum out SO H32 HF HB Big ED EB F1 F5 (W _ A1) (W _ A5) p (nth_error_In _ _ Epp)) as [X1 (_ & X2 & _)].
      split; [exact X1|]. split; [exact X2|]. intros _. f_equal.
      assert (Y : nth_error (map pp_id (bo_pourpoints out)) (Z.to_nat (g_id n)) = Some (pp_id p)) by (rewrite nth_error_map, Epp; auto).
      rewrite I64, nth_error_zseq in Y by lia. injection Y as <-. lia.
    - cbn [nf_vol nf_wshed nf_bspot nofZ F64Ops]. rewrite f64_ofZ0. change (B2R f64_zero) with 0%R. split; [split; [reflexivity|lra]|].
      split; [lra|]. intros J. apply Jm in J. destruct (Z.leb_spec 0 (g_id n)), (Z.ltb_spec (g_id n) (Z.of_nat (length pps))); try discriminate Ir; lia. }
  assert (POS : forall n, In n (map solver_node vols) -> nonneg64 (n_water n) /\ nonneg64 (n_cap n)).
  { intros n Hn. apply in_map_iff in Hn. destruct Hn as ([m v] & <- & Hm). cbn [n_water n_cap solver_node fst snd].
    assert (Hm' : In m nodes) by (rewrite <- Mv; apply (in_map fst) in Hm; exact Hm).
    destruct (NF m Hm') as ([X1 X2] & X3 & _). split; [|apply nonneg64_B; assumption].
    destruct (proj1 NO m v Hm) as [Fv _].
    assert (Ev : v = f64_mul (f64_mul (nf_wshed m) mm) (milli F64Ops)).
    { unfold vols, simple_volumes in Hm. apply in_map_iff in Hm. destruct Hm as (m' & E & _). apply pair_equal_spec in E. destruct E as [<- <-]. reflexivity. }
    rewrite Ev in Fv |- *. destruct (nonneg64_R _ Pm) as [Fm Rm]. destruct milli_small as [Fi Ri].
    destruct (mul_rnd _ _ Fv) as (Fp & _ & Eq1). destruct (mul_rnd _ _ Fp) as (_ & _ & Eq2).
    apply nonneg64_B; [exact Fv|]. rewrite Eq1. apply rnd_pos. apply Rmult_le_pos; [|apply Ri]. rewrite Eq2. apply rnd_pos. apply Rmult_le_pos; lra. }
  pose proof (volumes_finite _ _ _ UI POS EF) as VF.
  destruct (res_facts dem t mm w SI) as [Fw Ww].
  assert (EL : forall c, inside (nrows (bo_labeled out)) (ncols (bo_labeled out)) c -> elev_ok w (at_ dem c)).
  { intros c Hc. apply (elev_facts dem t mm w HF SI). destruct Sh as [-> ->]. exact Hc. }
  destruct (hyps32_total (bo_labeled out) dem w (bo_nlabels out) Sh Nm LG Fw Ww EL) as (st & Est & Hst).
  assert (LV : forall l h p nd e, 1 <= l <= bo_nlabels out -> In (l, h) st -> nth_error (bo_pourpoints out) (Z.to_nat l) = Some p ->
    In (nd, Some e) fin -> n_id nd = l -> exists L, water_level F64Ops h (f64_mul (Babs (gt5 t)) (Babs (gt1 t))) (pp_dmax p) (pp_vol p) (e_vol e) = Ok L /\
    is_finite L = true /\ (Rabs (B2R L) <= bpow radix2 150)%R /\
    (0 <= B2R (z_min h) -> L = f64_add (z_min h) (pp_dmax p) \/ B2R (z_min h) <= B2R L <= gap (B2R (z_max h)))%R).
  { intros l h p nd e Hl Hh Epp Hn En'. destruct (Hst l h Hh Hl) as (cs & Lc & So). destruct (VF nd e Hn) as [V1 V2].
    eapply (level_of cc Hcc sp fuel fuel _ _ dem dout t f accum out mm w SO H32 HF SI ED EB l h p cs); eauto. }
  destruct (finish64_spec t dem (bo_labeled out) (bo_nlabels out) (bo_pourpoints out) vols fin w st Sh Nm LG) as
    (fo & EFo & J1 & J2 & J3 & J4 & J5 & J6 & J7); auto.
  { rewrite I64, L64, Ln. reflexivity. }
  { rewrite Mv. intros m Hm. apply (NF m Hm). }
  { intros m o Ho. destruct (Wf m o Ho) as (e & E & _). eauto. }
  { apply ltb_R; [reflexivity|exact Fw|]. rewrite f64_ofZ0. change (B2R f64_zero) with 0%R. eapply Rlt_le_trans; [apply (bpow_gt_0 radix2 (-100))|apply Ww]. }
  { intros c Hc. apply HF. destruct Sh as [-> ->]. exact Hc. }
  { intros l h p nd e L Hl Hh Epp Hn En' EL'. destruct (LV l h p nd e Hl Hh Epp Hn En') as (L' & E & F & _). rewrite E in EL'.
    injection EL' as <-. exact F. }
  exists (mkC64 dout out (mkFO vols sts fin) fo). cbn [c64_volumes c64_dem c64_bluespots c64_finish]. cbv zeta. fold accum.
  split; [|split; [exact EC|split; [exact NO|split; [exact ED|split; [exact EB|]]]]].
  - unfold complete_all64. rewrite ED. cbn [bind]. fold accum. rewrite EB. cbn [bind]. unfold stream_process.
    change (map (fun p => (pp_row p, pp_col p)) (bo_pourpoints out)) with (pps_of out). rewrite <- Ec, En. cbn [bind].
    fold ix64. rewrite EN. fold vols. rewrite EF. cbn [bind]. rewrite EFo. cbn [bind]. rewrite <- ES'. reflexivity.
  - constructor; cbn [c64_volumes c64_dem c64_bluespots c64_finish fo_final]; auto.
    + intros i Hi H1. destruct (J2 i Hi) as (h & H & E). assert (X : In (hi_bspot i) (zseq 0 (Z.to_nat (bo_nlabels out + 1)))) by (rewrite <- J1; apply in_map; exact Hi).
      apply in_zseq in X. destruct (Hst _ _ H ltac:(lia)) as (cs & Lc & So). eauto.
    + intros v Hv. destruct (J4 v Hv) as (nd & e & p & h & H1 & H2 & H3 & _). destruct (VF nd e H1) as [V1 V2]. exists nd, e. auto.
    + intros v Hv Hl. destruct (J4 v Hv) as (nd & e & p & h & H1 & H2 & H3 & H4 & H5 & H6 & H7).
      assert (X : In (lf_bspot v) (zseq 0 (Z.to_nat (bo_nlabels out + 1)))) by (eapply Permutation_in; [exact J3|apply in_map; exact Hv]).
      apply in_zseq in X. destruct (Hst _ _ H5 ltac:(lia)) as (cs & Lc & So).
      destruct (LV (lf_bspot v) h p nd e ltac:(lia) H5 H4 H1 H2) as (L & E & F & A & B). rewrite <- H3 in E. assert (L = lf_z v) by congruence. subst L.
      exists p, h, cs. split; [exact H4|]. split; [exact Lc|]. split; [exact So|]. split; [exact E|]. split; [exact F|]. split; [exact A|]. split; [exact H7|exact B].
    + destruct J5, Sh. split; congruence.
    + destruct J6, Sh. split; congruence.
    + destruct Sh as [-> ->]. exact J7.
Qed.

(** ** C86 *)
Theorem floats_complete : forall cc, labels_components cc -> forall sp t dem f (use_accum : bool) mm zresolution,
  size_ok sp dem -> dem32 dem -> dem_finite dem -> sane_inputs t dem mm zresolution ->
  exists k, forall fuel, (fuel >= k)%nat -> exists o,
    complete_all64 sp cc fuel t dem f use_accum mm zresolution = Ok o /\
    complete64 sp cc fuel t dem f use_accum mm = Ok (c64_volumes o) /\ no_overflow (c64_volumes o) /\
    let lab := bo_labeled (c64_bluespots o) in let fin := c64_finish o in
    same_shape lab dem /\ same_shape (ff_labels fin) dem /\ same_shape (ff_depths fin) dem /\
    map hi_bspot (ff_hyps fin) = zseq 0 (Z.to_nat (bo_nlabels (c64_bluespots o) + 1)) /\
    Permutation (map lf_bspot (ff_levels fin)) (zseq 0 (Z.to_nat (bo_nlabels (c64_bluespots o) + 1))) /\
    (forall v, In v (ff_levels fin) ->
       nonneg64 (lf_v v) /\ (1 <= lf_bspot v -> finite64 (lf_z v)) /\
       exists nd e, In (nd, Some e) (fo_final (c64_volumes o)) /\ n_id nd = lf_bspot v /\ lf_v v = e_vol e) /\
    (forall c, inside (nrows dem) (ncols dem) c -> at_ lab c = 0 -> at_ (ff_labels fin) c = 0 /\
       (le64 (f64_ofZ (-999)) (at_ dem c) -> eq64 (at_ (ff_depths fin) c) f64_zero)) /\
    (forall c, inside (nrows dem) (ncols dem) c -> at_ lab c <> 0 -> exists v, In v (ff_levels fin) /\ lf_bspot v = at_ lab c /\
       nonneg64 (at_ (ff_depths fin) c) /\
       (lt64 (lf_z v) (at_ dem c) -> at_ (ff_depths fin) c = f64_zero /\ at_ (ff_labels fin) c = 0) /\
       (le64 (at_ dem c) (lf_z v) -> at_ (ff_depths fin) c = f64_sub (lf_z v) (at_ dem c) /\ at_ (ff_labels fin) c = at_ lab c)).
Proof.
  intros cc Hcc sp t dem f use_accum mm w SO H32 HF SI.
  destruct (run64_total cc Hcc sp t dem f use_accum mm w SO H32 HF SI) as (k & K). exists k. intros fuel Fu.
  destruct (K fuel Fu) as (o & H1 & H2 & H3 & _ & _ & R). exists o. cbv zeta.
  split; [exact H1|]. split; [exact H2|]. split; [exact H3|].
  split; [destruct (r_shape _ _ _ _ R); split; congruence|]. split; [apply R|]. split; [apply R|]. split; [apply (r_ids _ _ _ _ R)|]. split; [apply (r_levels _ _ _ _ R)|].
  split; [|split].
  - intros v Hv. destruct (r_volume _ _ _ _ R v Hv) as (nd & e & V1 & V2 & V3 & V4 & V5).
    split; [rewrite V3; apply nonneg64_B; assumption|]. split; [|exists nd, e; auto].
    intros Hl. destruct (r_level _ _ _ _ R v Hv Hl) as (p & h & cs & _ & _ & _ & _ & F & _). exact F.
  - intros c Hc E. apply (r_cells _ _ _ _ R c Hc). exact E.
  - intros c Hc E. destruct (proj2 (r_cells _ _ _ _ R c Hc) E) as (v & Hv & Ev & Dry & Wet). exists v. split; [exact Hv|]. split; [exact Ev|].
    assert (Hl : 1 <= lf_bspot v).
    { assert (X : In (lf_bspot v) (zseq 0 (Z.to_nat (bo_nlabels (c64_bluespots o) + 1)))) by (eapply Permutation_in; [apply (r_levels _ _ _ _ R)|apply in_map; exact Hv]).
      apply in_zseq in X. lia. }
    destruct (r_level _ _ _ _ R v Hv Hl) as (p & h & cs & _ & _ & _ & _ & F & A & _).
    destruct (elev_facts dem t mm w HF SI c Hc) as (Fz & Az & _).
    split; [|split; [exact Dry|intros Le; destruct (Wet Le) as (X1 & _ & X2); auto]].
    destruct (Rle_or_lt (B2R (at_ dem c)) (B2R (lf_z v))) as [Le|Lt].
    + apply leb_R in Le; auto. destruct (Wet Le) as (-> & P0 & _).
      destruct (sub_abs (lf_z v) (at_ dem c) 150 F Fz ltac:(lia) A) as (Fs & _); [eapply Rle_trans; [exact Az|apply bpow_le; lia]|].
      apply nonneg64_B; [exact Fs|]. apply leb_R in P0; auto.
    + apply ltb_R in Lt; auto. destruct (Dry Lt) as (-> & _). split; [reflexivity|]. reflexivity.
Qed.
