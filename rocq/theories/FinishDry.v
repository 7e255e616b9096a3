(** * Levels of the bluespots in floats: all cells counted, dry without water, below the filled terrain *)

From Coq Require Import QArith Qpower Qabs Qreals Reals Lra Lia Permutation.
From Flocq Require Import Core Relative Plus_error IEEE754.BinarySingleNaN.
From Verif Require Import Base BaseProofs AccumProofs Num Float64 Float64Proofs Float64Arith Float64Scale Float32Proofs FillModel FillSpec FillThms FlowSpec
  DemModel DemProofs LevelProofs LabelModel LabelSpec LabelProofs CompSpec CompProofs VectorModel BluespotModel BluespotSpec BluespotProofs
  NetworkModel NetworkProofs NetworkThms NetworkFloatSpec NetworkFloatThms RoundNetThms FloatPipeProofs FloatPipeThms PipelineModel RainProofs FloatQ HypsModel HypsSpec ApproxModel ApproxThms RoundProofs RoundThms FloatPipeModel FloatPipeSpec OverflowSpec OverflowProofs OverflowThms
  FloatFinishModel FloatFinishSpec FinishArith FinishBins FinishLevel FinishHyps FinishStats FloatFinishProofs FinishEdges FloatFinishThms.
Local Open Scope R_scope.

(** ** The level of no water *)
Lemma dry_level : forall (w zmin zmax : b64) b counts c rest area md mv v,
  is_finite w = true -> bpow radix2 (-100) <= B2R w -> B2R w <= bpow radix2 100 ->
  counts = c :: rest -> (1 <= c)%Z -> (forall c', In c' counts -> (0 <= c' <= 2 ^ 53)%Z) -> b_resolution b = w ->
  (Z.of_nat (List.length counts) <= 2 ^ 43)%Z -> List.length (inner (bin_waterlevel_z F64Ops b)) = (List.length counts - 2)%nat ->
  is_finite area = true -> bpow radix2 (-200) <= B2R area <= bpow radix2 200 ->
  gridlike (-350) mv -> B2R mv <= bpow radix2 500 -> 0 < B2R mv -> is_finite v = true -> B2R v = 0 ->
  water_level F64Ops (mkHyps (mkHist counts b) zmin zmax) area md mv v = Ok zmin.
Proof.
  intros w zmin zmax b counts c rest area md mv v Fw W1 W2 EC C1 CB RB NC LB Fa A G MV MP Fv V0.
  destruct G as (Fm & _ & [G|G]); [lra|].
  unfold water_level. cbn [z_hist z_min z_max h_bins nadd ndiv neqb nltb nofZ F64Ops].
  destruct (ofZ_int 0 ltac:(lia)) as [Fz Ez]. change (IZR 0) with 0 in Ez.
  assert (E1 : Beqb mv (f64_ofZ 0) = false). { destruct (Beqb mv (f64_ofZ 0)) eqn:E; [|reflexivity]. apply eqb_R in E; auto. lra. }
  assert (E2 : Bltb (f64_div (f64_ofZ 9999) (f64_ofZ 10000)) (f64_div v mv) = false).
  { destruct (div_abs v mv 0 (-350) Fv Fm ltac:(lia)) as (Fq & Eq & _).
    - rewrite V0, Rabs_R0. apply bpow_ge_0.
    - rewrite Rabs_pos_eq by lra. exact G.
    - destruct (Bltb _ _) eqn:E; [|reflexivity]. apply ltb_R in E; [|reflexivity|exact Fq]. exfalso. rewrite Eq, V0 in E.
      unfold Rdiv in E. rewrite Rmult_0_l, rnd64_0 in E. revert E. apply Rle_not_lt. vm_compute. lra. }
  rewrite E1, E2. cbn [orb]. unfold interp. change (nofZ F64Ops 0) with (f64_ofZ 0).
  set (cv := inner (cumulative_volume F64Ops (mkHist counts b) area)).
  set (bz := inner (bin_waterlevel_z F64Ops b)) in *.
  assert (LC : List.length cv = (List.length counts - 2)%nat).
  { unfold cv. rewrite inner_length. unfold cumulative_volume. rewrite cumsum_length, map_length. cbn [List.length h_counts]. rewrite removelast_length, cumsum_length, map_length. rewrite EC. cbn [List.length]. lia. }
  assert (LL : List.length (cv ++ [mv]) = List.length (bz ++ [zmax])) by (rewrite !app_length; cbn [List.length]; lia).
  change ((f64_ofZ 0 :: cv) ++ [mv]) with (f64_ofZ 0 :: (cv ++ [mv])). change ((zmin :: bz) ++ [zmax]) with (zmin :: (bz ++ [zmax])).
  cbn [List.length combine]. rewrite LL, Nat.eqb_refl. cbn [negb nltb F64Ops].
  destruct (Bltb v (f64_ofZ 0)); [reflexivity|]. f_equal.
  assert (X : exists x1 y1 t, combine (cv ++ [mv]) (bz ++ [zmax]) = (x1, y1) :: t /\ is_finite x1 = true /\ 0 < B2R x1).
  { destruct cv as [|x1 cv'] eqn:ECV.
    - destruct bz as [|y bz']; [|cbn [List.length] in *; lia]. exists mv, zmax, []. split; [reflexivity|]. auto.
    - destruct bz as [|y bz']; [cbn [List.length] in *; lia|]. exists x1, y, (combine (cv' ++ [mv]) (bz' ++ [zmax])). split; [reflexivity|].
      assert (G1 : gridlike (-350) x1 /\ B2R x1 <= bpow radix2 500).
      { apply (volumes_good (mkHist counts b) area); auto; cbn [h_bins h_counts]; try rewrite RB; auto.
        - rewrite EC in NC |- *. cbn [List.length] in *. lia.
        - apply inner_in. unfold cv in ECV. rewrite ECV. left. reflexivity. }
      destruct G1 as [(Fx & Px & _) _]. split; [exact Fx|].
      unfold cv, cumulative_volume in ECV. cbn [h_counts h_bins nmul nofZ F64Ops] in ECV. rewrite RB, EC in ECV.
      destruct rest as [|c2 rest]; [cbn in ECV; discriminate ECV|]. cbn [map cumsum] in ECV. cbn [cumsum_from] in ECV. cbn [removelast] in ECV.
      cbn [map cumsum] in ECV. cbn [cumsum_from inner tl nadd F64Ops] in ECV.
      unfold inner in ECV. cbn [tl] in ECV. match type of ECV with removelast (?a :: ?l) = _ => assert (Ex : x1 = a) by (destruct l; cbn [removelast] in ECV; [discriminate ECV|apply (f_equal (hd x1)) in ECV; cbn [hd] in ECV; symmetry; exact ECV]) end.
      subst x1. destruct (step_facts area w Fa Fw A (conj W1 W2)) as [Fs [S1 S2]]. pose proof (bpow_gt_0 radix2 (-300)) as P3.
      assert (CC : (0 <= c <= 2 ^ 53)%Z) by (apply CB; rewrite EC; left; reflexivity).
      destruct (ofZ_int c ltac:(lia)) as [Fc Ec]. assert (C1' : 1 <= IZR c) by (apply IZR_le; lia).
      assert (C53 : IZR c <= bpow radix2 53) by (change (bpow radix2 53) with (IZR (2 ^ 53)); apply IZR_le; lia).
      set (s0 := f64_mul area w) in *.
      destruct (mul_abs s0 (f64_ofZ 0) 300 0 Fs Fz ltac:(lia)) as (F1 & M1 & _); [rewrite Rabs_pos_eq; lra|rewrite Ez, Rabs_R0; cbn; lra|].
      destruct (mul_abs s0 (f64_ofZ c) 300 53 Fs Fc ltac:(lia)) as (F2 & M2 & A2); [rewrite Rabs_pos_eq; lra|rewrite Ec, Rabs_pos_eq by lra; exact C53|].
      rewrite Ez, Rmult_0_r, rnd64_0 in M1. rewrite Ec in M2.
      assert (L2 : bpow radix2 (-300) <= B2R (f64_mul s0 (f64_ofZ c))). { rewrite M2, <- (rnd_bpow (-300)) by lia. apply rnd64_le. nra. }
      destruct (add_abs _ _ 353 F1 F2 ltac:(lia)) as (_ & -> & _); [rewrite M1, Rabs_R0; apply bpow_ge_0|exact A2|].
      rewrite M1, Rplus_0_l, rnd_fmt by apply generic_format_B2R. lra. }
  destruct X as (x1 & y1 & t & -> & Fx & Px). cbn [interp_from nleb neqb F64Ops].
  assert (E3 : Bleb x1 v = false). { destruct (Bleb x1 v) eqn:E; [|reflexivity]. apply leb_R in E; auto. lra. }
  assert (E4 : Beqb (f64_ofZ 0) v = true). { apply eqb_R; [exact Fz|exact Fv|lra]. }
  rewrite E3, E4. reflexivity.
Qed.

Lemma pos64_R' : forall x : b64, is_finite x = true -> 0 <= B2R x -> pos64 x.
Proof. intros x F P. split; [apply finite_not_nan; exact F|]. change 0%Z with (rank f64_zero). apply rank_R_le; auto. Qed.

(** ** One run *)
Section Run.
Variable cc : raster bool -> raster Z * Z.
Hypothesis Hcc : labels_components cc.
Variable sp : bool.
Variables (fuel fuel' : nat) (t1 t5 : b64) (dem : raster b64) (dout : dem_out) (t : geotransform b64)
  (f : @unit_stats b64 -> bool) (accum : option (raster b64)) (out : bluespot_out) (mm w : b64).
Hypothesis SO : size_ok sp dem.
Hypothesis H32 : dem32 dem.
Hypothesis HF : dem_finite dem.
Hypothesis SI : sane_inputs t dem mm w.
Hypothesis HD : dem_process sp fuel t1 t5 dem = Ok dout.
Hypothesis HO : bluespot_process sp cc fuel' t (do_depths dout) (do_flowdir dout) (Some f) accum (Some dem) = Ok out.

Lemma run_shapes : same_shape dem (do_depths dout) /\ same_shape dem (bo_labeled out) /\ (1 <= nrows (do_depths dout))%Z /\ (1 <= ncols (do_depths dout))%Z.
Proof.
  destruct (depths_facts sp fuel t1 t5 dem dout SO H32 HF HD) as (Sd & _ & _).
  assert (Hr : (1 <= nrows (do_depths dout))%Z) by (destruct Sd as [<- _]; destruct sp; cbn in SO; lia).
  assert (Hc : (1 <= ncols (do_depths dout))%Z) by (destruct Sd as [_ <-]; destruct sp; cbn in SO; lia).
  destruct (process_filter cc Hcc sp _ _ _ _ _ _ _ _ Hr Hc HO) as (Sh & _).
  split; [exact Sd|]. split; [destruct Sd, Sh; split; congruence|]. auto.
Qed.

Lemma label_in : forall l c, has_label (bo_labeled out) l c -> inside (nrows dem) (ncols dem) c.
Proof. intros l c [I _]. destruct run_shapes as (_ & [E1 E2] & _). rewrite E1, E2. exact I. Qed.

(** The depth of a cell of a bluespot. *)
Lemma depth_R : forall c, inside (nrows dem) (ncols dem) c ->
  is_finite (at_ (do_depths dout) c) = true /\ is_finite (at_ (do_filled dout) c) = true /\ is_f32 (at_ (do_filled dout) c) /\
  0 <= B2R (at_ (do_depths dout) c) /\ B2R (at_ (do_depths dout) c) = rnd32 (B2R (at_ (do_filled dout) c) - B2R (at_ dem c)) /\
  B2R (at_ dem c) <= B2R (at_ (do_filled dout) c).
Proof.
  intros c Hc. destruct (filled_facts sp fuel t1 t5 dem dout SO H32 HF HD) as (Er & Ec & F32 & FF & Ge & _ & ED).
  assert (Hf : inside (nrows (do_filled dout)) (ncols (do_filled dout)) c) by (rewrite Er, Ec; exact Hc).
  destruct (depth_small sp fuel t1 t5 dem dout SO H32 HF (si_elev _ _ _ _ SI) HD c Hc) as [Fd [Pd _]].
  split; [exact Fd|]. split; [apply FF; exact Hf|]. split; [apply F32; exact Hf|]. split; [exact Pd|].
  destruct (narrow _ (proj2 (F32 c Hf)) (FF c Hf)) as [N1 E1]. destruct (narrow _ (proj2 (H32 c Hc)) (HF c Hc)) as [N2 E2].
  split; [|apply leb_R; [apply HF; exact Hc|apply FF; exact Hf|apply Ge; exact Hc]].
  rewrite ED in Fd |- *. rewrite dp_at in *. unfold f32_sub in *.
  destruct (sub32_cases _ _ N1 N2) as [[G1 G2]|(s & G & _)].
  - destruct (widen _ G1) as [_ W2]. rewrite W2, G2, E1, E2. reflexivity.
  - rewrite G in Fd. discriminate Fd.
Qed.

Lemma depth_wet : forall l c, (1 <= l)%Z -> has_label (bo_labeled out) l c -> 0 < B2R (at_ (do_depths dout) c) /\ B2R (at_ dem c) < B2R (at_ (do_filled dout) c).
Proof.
  intros l c Hl HL. pose proof (label_in _ _ HL) as I. destruct (depth_R c I) as (Fd & Ff & _ & Pd & _ & _). destruct run_shapes as (Sd & Sl & Hr & Hc).
  destruct (process_filter cc Hcc sp _ _ _ _ _ _ _ _ Hr Hc HO) as (_ & _ & K & _).
  destruct Sd as [S1 S2]. rewrite S1, S2 in I. destruct HL as [_ E]. assert (NZ : at_ (bo_labeled out) c <> 0%Z) by (rewrite E; lia).
  apply K in NZ; [|exact I]. destruct NZ as [NZ _].
  assert (P : 0 < B2R (at_ (do_depths dout) c)).
  { destruct Pd as [Pd|Pd]; [exact Pd|exfalso]. unfold at_, nonzero in NZ. cbn [rget] in NZ.
    assert (Q : Beqb (at_ (do_depths dout) c) f64_zero = true) by (apply eqb_R; [exact Fd|reflexivity|rewrite <- Pd; reflexivity]).
    unfold at_ in Q. rewrite Q in NZ. discriminate NZ. }
  split; [exact P|].
  rewrite <- S1, <- S2 in I. destruct (depths_facts sp fuel t1 t5 dem dout SO H32 HF HD) as (_ & Dp & _). destruct (Dp c I) as [_ Q].
  apply ltb_R; [apply HF; exact I|exact Ff|]. apply Q. apply ltb_R; [reflexivity|exact Fd|exact P].
Qed.

(** A bluespot has a positive volume. *)
Lemma volume_pos : forall l p, (1 <= l <= bo_nlabels out)%Z -> nth_error (bo_pourpoints out) (Z.to_nat l) = Some p -> 0 < B2R (pp_vol p).
Proof.
  intros l p Hl Ep. destruct run_shapes as (Sd & Sl & Hr & Hc).
  destruct (dem_flow sp fuel t1 t5 dem dout SO H32 HF HD) as (Sf & D & _).
  assert (Sdf : same_shape (do_depths dout) (do_flowdir dout)) by (destruct Sd, Sf; split; congruence).
  destruct (process_pourpoints cc Hcc sp fuel' t _ _ _ _ _ _ Hr Hc Sdf D HO) as (pix & _ & _ & _ & _ & _ & G).
  destruct (process_filter cc Hcc sp _ _ _ _ _ _ _ _ Hr Hc HO) as (_ & (_ & _ & U) & _).
  destruct (G l ltac:(lia)) as (p' & r & cs & ws & Ep' & _ & Lc & _ & _ & _ & _ & _ & _ & Ev & _). assert (p' = p) by congruence. subst p'.
  destruct (pp_facts cc Hcc sp fuel fuel' t1 t5 dem dout t f accum out mm w SO H32 HF SI HD HO l Hl) as (p' & cs' & Ep'' & Lc' & _ & (Fv & Pv & _) & _).
  assert (p' = p) by congruence. subst p'. assert (cs' = cs) by (eapply lists_unique; eauto). subst cs'.
  destruct (U l Hl) as (c & Hc'). destruct (depth_wet l c ltac:(lia) Hc') as [P _].
  destruct (area_facts dem t mm w SI) as [Fa [A1 _]]. cbv zeta in *.
  set (sum := fold_left f64_add (map (at_ (do_depths dout)) cs) (f64_ofZ 0)) in *. rewrite Ev in *.
  destruct (mul_rnd _ _ Fv) as (Fs & _ & Em).
  assert (PS : forall x, In x (map (at_ (do_depths dout)) cs) -> pos64 x).
  { intros x Hx. apply in_map_iff in Hx. destruct Hx as (d & <- & Hd). apply Lc in Hd. destruct (depth_R d (label_in _ _ Hd)) as (F & _ & _ & Q & _). apply pos64_R'; assumption. }
  assert (Q : (rank (at_ (do_depths dout) c) <= rank sum)%Z).
  { apply fold_part; [apply pos64_R'; [reflexivity|rewrite f64_ofZ0; apply Rle_refl]|exact PS|exact Fs|]. apply in_map. apply Lc. exact Hc'. }
  apply rank_le_R in Q; [|apply (depth_R c (label_in _ _ Hc'))|exact Fs].
  destruct (depth_R c (label_in _ _ Hc')) as (Fd & _).
  assert (Low : bpow radix2 (-149) <= B2R (at_ (do_depths dout) c)).
  { apply f32_low; [|exact Fd|exact P]. destruct (exact_pps cc Hcc sp fuel fuel' _ _ dem dout t f accum out SO H32 HF HD HO) as (pps & Epp & _).
    apply (depths_ok cc sp fuel fuel' t1 t5 dem dout t f accum out SO H32 HF HD HO pps Epp). destruct Sd as [<- <-]. apply (label_in _ _ Hc'). }
  rewrite Em. apply Rlt_le_trans with (bpow radix2 (-349)); [apply bpow_gt_0|]. rewrite <- (rnd_bpow (-349)) by lia. apply rnd64_le.
  apply Rle_trans with (bpow radix2 (-149) * bpow radix2 (-200)); [rewrite <- bpow_plus; apply bpow_le; lia|].
  apply Rmult_le_compat; try apply bpow_ge_0; lra.
Qed.
End Run.

Lemma NoDup_map_inj : forall {A} (g : A -> Z) l x y, NoDup (map g l) -> In x l -> In y l -> g x = g y -> x = y.
Proof.
  intros A g l x y N. induction l as [|a l IH]; intros Hx Hy E; [destruct Hx|]. inversion N as [|? ? N1 N2]. subst.
  destruct Hx as [->|Hx], Hy as [->|Hy]; auto; exfalso; apply N1; [rewrite E|rewrite <- E]; apply in_map; assumption.
Qed.

(** ** All cells are counted *)
Lemma stats_pos : forall dem w cs h, stats_of dem w cs h -> (forall c, In c cs -> 0 <= B2R (at_ dem c)) -> 0 <= B2R (z_min h).
Proof. intros dem w cs h S P. pose proof (so_min _ _ _ _ S) as M. apply in_map_iff in M. destruct M as (c & <- & Hc). apply P. exact Hc. Qed.

Lemma stats_le : forall dem w cs h, stats_of dem w cs h -> B2R (z_min h) <= B2R (z_max h).
Proof. intros dem w cs h S. pose proof (so_min _ _ _ _ S) as M. apply in_map_iff in M. destruct M as (c & Ec & Hc). rewrite <- Ec at 1. apply (so_between _ _ _ _ S). exact Hc. Qed.

Theorem every_cell_counted : forall cc, labels_components cc -> forall sp t dem f (use_accum : bool) mm zresolution,
  size_ok sp dem -> dem32 dem -> dem_finite dem -> sane_inputs t dem mm zresolution ->
  exists k, forall fuel, (fuel >= k)%nat -> exists o,
    complete_all64 sp cc fuel t dem f use_accum mm zresolution = Ok o /\
    forall i, In i (ff_hyps (c64_finish o)) -> (1 <= hi_bspot i)%Z -> exists h cs,
      hyps_from_flatdict (hi_dict i) = Ok h /\ lists_cells (has_label (bo_labeled (c64_bluespots o)) (hi_bspot i)) cs /\
      (exists c, In c cs /\ at_ dem c = z_min h) /\ (exists c, In c cs /\ at_ dem c = z_max h) /\
      (forall c, In c cs -> le64 (z_min h) (at_ dem c) /\ le64 (at_ dem c) (z_max h)) /\
      (forall x, In x (h_counts (z_hist h)) -> (0 <= x)%Z) /\
      ((forall c, In c cs -> le64 f64_zero (at_ dem c)) -> zsum (h_counts (z_hist h)) = Z.of_nat (length cs) /\
         exists m edge, counted_between dem (has_label (bo_labeled (c64_bluespots o)) (hi_bspot i)) (h_counts (z_hist h)) edge /\
           (0 <= m)%Z /\ forall j, (0 <= j <= Z.of_nat (length (h_counts (z_hist h))))%Z ->
           (Qabs (b64_Q (edge j) - inject_Z (m + j) * b64_Q zresolution) <= (1 # 2 ^ 23) * (inject_Z (m + j) * b64_Q zresolution))%Q).
Proof.
  intros cc Hcc sp t dem f use_accum mm w SO H32 HF SI.
  destruct (run64_total cc Hcc sp t dem f use_accum mm w SO H32 HF SI) as (k & K). exists k. intros fuel Fu.
  destruct (K fuel Fu) as (o & H1 & _ & _ & ED & EB & R). exists o. split; [exact H1|]. intros i Hi Hl.
  destruct (r_hyps _ _ _ _ R i Hi Hl) as (h & cs & Eh & Lc & So). exists h, cs. split; [exact Eh|]. split; [exact Lc|].
  destruct (res_facts dem t mm w SI) as [Fw [W1 W2]].
  assert (IN : forall c, In c cs -> inside (nrows dem) (ncols dem) c).
  { intros c Hc. apply Lc in Hc. eapply (label_in cc Hcc sp fuel fuel); eauto. }
  assert (EL : forall z, In z (map (at_ dem) cs) -> elev_ok w z /\ is_f32 z).
  { intros z Hz. apply in_map_iff in Hz. destruct Hz as (c & <- & Hz). split; [apply (elev_facts dem t mm w HF SI); apply IN; exact Hz|apply H32; apply IN; exact Hz]. }
  destruct (EL _ (so_min _ _ _ _ So)) as [(Fa & Aa & Ba) Sa]. destruct (EL _ (so_max _ _ _ _ So)) as [(Fb & Ab & Bb) Sb].
  split; [pose proof (so_min _ _ _ _ So) as M; apply in_map_iff in M; destruct M as (c & E & Hc); exists c; auto|].
  split; [pose proof (so_max _ _ _ _ So) as M; apply in_map_iff in M; destruct M as (c & E & Hc); exists c; auto|].
  split; [intros c Hc; destruct (so_between _ _ _ _ So c Hc); split; apply leb_R; auto; apply HF; apply IN; exact Hc|].
  split; [intros x Hx; apply (so_counts _ _ _ _ So x Hx)|]. intros P.
  assert (Pz : 0 <= B2R (z_min h)).
  { eapply stats_pos; [exact So|]. intros c Hc. specialize (P c Hc). apply leb_R in P; [exact P|reflexivity|apply HF; apply IN; exact Hc]. }
  assert (DA : forall z, In z (map (at_ dem) cs) -> is_finite z = true /\ B2R (z_min h) <= B2R z <= B2R (z_max h)).
  { intros z Hz. split; [apply (EL z Hz)|]. apply in_map_iff in Hz. destruct Hz as (c & <- & Hc). apply (so_between _ _ _ _ So). exact Hc. }
  split.
  { rewrite (counts_all w (z_min h) (z_max h) Fw W1 W2 Fa Fb Aa Ab Ba Bb (stats_le _ _ _ _ So) Pz (h_bins (z_hist h)) (so_bins _ _ _ _ So) Sa Sb (map (at_ dem) cs) (h_counts (z_hist h)) DA (so_hist _ _ _ _ So)).
    rewrite map_length. reflexivity. }
  pose proof (bins_count w (z_min h) (z_max h) Fw W1 W2 Fa Fb Aa Ab Ba Bb (stats_le _ _ _ _ So) Pz (h_bins (z_hist h)) (so_bins _ _ _ _ So) Sa Sb (map (at_ dem) cs) (h_counts (z_hist h)) DA (so_hist _ _ _ _ So)) as EC.
  destruct (bounds w (z_min h) (z_max h) Fw W1 W2 Fa Fb Aa Ab Ba Bb (stats_le _ _ _ _ So) Pz (h_bins (z_hist h)) (so_bins _ _ _ _ So)) as (_ & _ & _ & _ & _ & _ & _ & N & M & _).
  pose proof (e32_near w (z_min h) (z_max h) Fw W1 W2 Fa Fb Aa Ab Ba Bb (stats_le _ _ _ _ So) Pz (h_bins (z_hist h)) (so_bins _ _ _ _ So)) as NE.
  pose proof (e32_R w (z_min h) (z_max h) Fw W1 W2 Fa Fb Aa Ab Ba Bb (stats_le _ _ _ _ So) Pz (h_bins (z_hist h)) (so_bins _ _ _ _ So)) as ER.
  set (n := nb w (z_min h) (z_max h)) in *. set (edge := edge64 w (z_min h) (z_max h) (h_bins (z_hist h))) in *.
  assert (LN : length (h_counts (z_hist h)) = Z.to_nat n) by (rewrite EC, map_length, zseq_length; reflexivity).
  exists (m0 w (z_min h)), (fun j => store32 (edge j)). split; [|split; [lia|]].
  - intros j x Hj. assert (J : (j < Z.to_nat n)%nat) by (rewrite <- LN; apply nth_error_Some; congruence).
    rewrite EC in Hj. rewrite nth_error_map, nth_error_zseq in Hj by exact J. cbn [option_map] in Hj. injection Hj as <-.
    exists (filter (fun c => Bleb (store32 (edge (0 + Z.of_nat j)%Z)) (at_ dem c) && ((0 + Z.of_nat j =? n - 1)%Z || Bltb (at_ dem c) (store32 (edge (0 + Z.of_nat j + 1)%Z)))) cs).
    rewrite Z.add_0_l. split.
    + destruct Lc as [Sc Ic]. split; [apply SS_filter; exact Sc|]. intros c. rewrite filter_In, Ic, andb_true_iff, orb_true_iff, Z.eqb_eq, LN.
      unfold le64, lt64. split; intros (A1 & A2 & [A3|A3]); (split; [exact A1|split; [exact A2|]]); try (right; exact A3); left; lia.
    + f_equal. clear. induction cs as [|c cs IH]; [reflexivity|]. cbn [map filter].
      destruct (_ && _); cbn [length]; rewrite IH; reflexivity.
  - intros j Hj. rewrite LN in Hj. specialize (NE j ltac:(lia)). destruct (ER j ltac:(lia)) as [_ E]. rewrite <- E in NE.
    apply Rle_Qle. rewrite Qabs_R, Q2R_minus, !Q2R_mult, Q2R_ofZ, !b64_Q_R, plus_IZR.
    replace (Q2R (1 # 2 ^ 23)) with (bpow radix2 (-23)); [exact NE|]. unfold Q2R. cbn. lra.
Qed.

(** ** Dry without water *)
(** The resolution is a power of two, and elevations are at most 2^23 times the resolution. *)
Definition dyadic (w : b64) (dem : raster b64) : Prop := exists j, (-100 <= j <= 100)%Z /\ (b64_Q w == Qpower 2 j)%Q /\
  forall c, inside (nrows dem) (ncols dem) c -> (b64_Q (at_ dem c) <= inject_Z (2 ^ 23) * b64_Q w)%Q.

(** Not within a relative 2^-22 of a multiple of the resolution. *)
Definition off_multiples (w z : b64) : Prop := forall k, (1 <= k)%Z ->
  ((1 # 2 ^ 22) * (inject_Z k * b64_Q w) < Qabs (b64_Q z - inject_Z k * b64_Q w))%Q.

Lemma Q2R_pow2 : forall j, Q2R (Qpower 2 j) = bpow radix2 j.
Proof.
  assert (P : forall p, Q2R (Qpower 2 (Z.pos p)) = bpow radix2 (Z.pos p)).
  { intros p. assert (E : (Qpower 2 (Z.pos p) == inject_Z (2 ^ Z.pos p))%Q).
    { rewrite Zpower_Qpower by lia. reflexivity. }
    rewrite (Qeq_eqR _ _ E), Q2R_ofZ, <- (IZR_Zpower radix2) by lia. reflexivity. }
  intros [|p|p]; [unfold Q2R; cbn; lra|apply P|].
  change (Z.neg p) with (- Z.pos p)%Z. rewrite bpow_opp, <- P.
  assert (E : (Qpower 2 (- Z.pos p) == / Qpower 2 (Z.pos p))%Q) by apply Qpower_opp. rewrite (Qeq_eqR _ _ E). apply Q2R_inv.
  intros Z. apply Qeq_eqR in Z. rewrite P in Z. pose proof (bpow_gt_0 radix2 (Z.pos p)). unfold Q2R in Z. cbn [Qnum Qden] in Z. lra.
Qed.

Lemma off_R : forall w z, off_multiples w z -> forall k, (1 <= k)%Z -> bpow radix2 (-22) * (IZR k * B2R w) < Rabs (B2R z - IZR k * B2R w).
Proof.
  intros w z H k K. specialize (H k K). apply Qlt_Rlt in H. rewrite Qabs_R, Q2R_minus, !Q2R_mult, Q2R_ofZ, !b64_Q_R in H.
  replace (Q2R (1 # 2 ^ 22)) with (bpow radix2 (-22)) in H; [exact H|]. unfold Q2R. cbn. lra.
Qed.

Lemma dry_run : forall cc, labels_components cc -> forall sp t dem f (use_accum : bool) mm w,
  size_ok sp dem -> dem32 dem -> dem_finite dem -> sane_inputs t dem mm w ->
  exists k, forall fuel, (fuel >= k)%nat -> exists o,
    complete_all64 sp cc fuel t dem f use_accum mm w = Ok o /\
    forall v, In v (ff_levels (c64_finish o)) -> (1 <= lf_bspot v)%Z -> eq64 (lf_v v) f64_zero ->
      (forall c, has_label (bo_labeled (c64_bluespots o)) (lf_bspot v) c -> le64 f64_zero (at_ dem c)) ->
      (dyadic w dem \/ exists c, has_label (bo_labeled (c64_bluespots o)) (lf_bspot v) c /\ off_multiples w (at_ dem c) /\
         forall d, has_label (bo_labeled (c64_bluespots o)) (lf_bspot v) d -> le64 (at_ dem c) (at_ dem d)) ->
      forall c, has_label (bo_labeled (c64_bluespots o)) (lf_bspot v) c -> eq64 (at_ (ff_depths (c64_finish o)) c) f64_zero.
Proof.
  intros cc Hcc sp t dem f use_accum mm w SO H32 HF SI.
  destruct (run64_total cc Hcc sp t dem f use_accum mm w SO H32 HF SI) as (k & K). exists k. intros fuel Fu.
  destruct (K fuel Fu) as (o & H1 & _ & _ & ED & EB & R). exists o. split; [exact H1|]. intros v Hv Hl V0 P AW.
  destruct (r_level _ _ _ _ R v Hv Hl) as (p & h & cs & Ep & Lc & So & WL & FL & _).
  destruct (r_volume _ _ _ _ R v Hv) as (nd & e & _ & _ & Ee & Fe & Pe). rewrite <- Ee in Fe, Pe.
  destruct (res_facts dem t mm w SI) as [Fw [W1 W2]]. destruct (hyps_area dem t mm w SI) as [FA RA]. pose proof (si_cells _ _ _ _ SI) as Big.
  assert (IN : forall c, In c cs -> inside (nrows dem) (ncols dem) c).
  { intros c Hc. apply Lc in Hc. eapply (label_in cc Hcc sp fuel fuel); eauto. }
  assert (EL : forall z, In z (map (at_ dem) cs) -> elev_ok w z /\ is_f32 z).
  { intros z Hz. apply in_map_iff in Hz. destruct Hz as (c & <- & Hz). split; [apply (elev_facts dem t mm w HF SI); apply IN; exact Hz|apply H32; apply IN; exact Hz]. }
  destruct (EL _ (so_min _ _ _ _ So)) as [(Fa & Aa & Ba) Sa]. destruct (EL _ (so_max _ _ _ _ So)) as [(Fb & Ab & Bb) Sb].
  assert (Pz : 0 <= B2R (z_min h)).
  { eapply stats_pos; [exact So|]. intros c Hc. assert (P' := P c (proj1 (proj2 Lc c) Hc)). apply leb_R in P'; [exact P'|reflexivity|apply HF; apply IN; exact Hc]. }
  pose proof (stats_le _ _ _ _ So) as LE.
  assert (Hl2 : (1 <= lf_bspot v <= bo_nlabels (c64_bluespots o))%Z).
  { assert (X : In (lf_bspot v) (zseq 0 (Z.to_nat (bo_nlabels (c64_bluespots o) + 1)))) by (eapply Permutation_in; [apply (r_levels _ _ _ _ R)|apply in_map; exact Hv]).
    apply in_zseq in X. lia. }
  assert (FC : nb w (z_min h) (z_max h) = 1%Z \/ B2R (z_min h) < e32 w (z_min h) (z_max h) (h_bins (z_hist h)) 1).
  { destruct AW as [(j & J & Ej & El)|(c & Hc & Off & Low)].
    - apply (first_dyadic w (z_min h) (z_max h) Fw W1 W2 Fa Fb Aa Ab Ba Bb LE Pz (h_bins (z_hist h)) (so_bins _ _ _ _ So) j J).
      + rewrite <- b64_Q_R, (Qeq_eqR _ _ Ej). apply Q2R_pow2.
      + pose proof (so_min _ _ _ _ So) as M. apply in_map_iff in M. destruct M as (c & <- & Hc). specialize (El c (IN c Hc)). apply Qle_Rle in El.
        rewrite Q2R_mult, !b64_Q_R, Q2R_ofZ in El. exact El.
    - apply (first_away w (z_min h) (z_max h) Fw W1 W2 Fa Fb Aa Ab Ba Bb LE Pz (h_bins (z_hist h)) (so_bins _ _ _ _ So)).
      assert (E : B2R (z_min h) = B2R (at_ dem c)).
      { apply Rle_antisym; [apply (so_between _ _ _ _ So); apply Lc; exact Hc|]. pose proof (so_min _ _ _ _ So) as M. apply in_map_iff in M. destruct M as (d & <- & Hd).
        apply leb_R; [apply HF; apply IN; apply Lc; exact Hc|apply HF; apply IN; exact Hd|]. apply Low. apply Lc. exact Hd. }
      rewrite E. apply off_R. exact Off. }
  destruct (first_count w (z_min h) (z_max h) Fw W1 W2 Fa Fb Aa Ab Ba Bb LE Pz (h_bins (z_hist h)) (so_bins _ _ _ _ So) Sa Sb (map (at_ dem) cs) (h_counts (z_hist h)) (so_min _ _ _ _ So) (so_hist _ _ _ _ So) FC)
    as (c0 & rest & EC & C1).
  destruct (hb w (z_min h) (z_max h) Fw W1 W2 Fa Fb Aa Ab Ba Bb LE _ (so_bins _ _ _ _ So)) as (Nb & Rb & _).
  destruct (m_facts w Fw W1 W2 (z_min h) (z_max h) Fa Fb Aa Ab Ba Bb LE) as (_ & _ & N1).
  destruct (pp_facts cc Hcc sp fuel fuel _ _ dem _ t f _ _ mm w SO H32 HF SI ED EB _ Hl2) as (p' & cs' & Ep' & Lc' & Nc & Gv & Uv & _).
  assert (p' = p) by congruence. subst p'. assert (cs' = cs) by (eapply lists_unique; eauto). subst cs'.
  pose proof (volume_pos cc Hcc sp fuel fuel _ _ dem _ t f _ _ mm w SO H32 HF SI ED EB _ p Hl2 Ep) as VP.
  pose proof (so_len _ _ _ _ So) as LN.
  assert (V0' : B2R (lf_v v) = 0) by (apply eqb_R in V0; [exact V0|exact Fe|reflexivity]).
  assert (LZ : lf_z v = z_min h).
  { assert (D : water_level F64Ops (mkHyps (mkHist (h_counts (z_hist h)) (h_bins (z_hist h))) (z_min h) (z_max h)) (f64_mul (Babs (gt5 t)) (Babs (gt1 t))) (pp_dmax p) (pp_vol p) (lf_v v) = Ok (z_min h)).
    { eapply (dry_level w); eauto; try lia.
      - intros c' Hc'. apply (so_counts _ _ _ _ So) in Hc'. lia.
      - rewrite (inner_bins w (z_min h) (z_max h) Fw W1 W2 Fa Fb Aa Ab Ba Bb LE _ (so_bins _ _ _ _ So)), map_length, zseq_length. lia. }
    destruct h as [[hc hb'] zl zh]. cbn [z_hist h_counts h_bins z_min z_max] in *. rewrite WL in D. injection D as ->. reflexivity. }
  intros c Hc. pose proof (IN c (proj2 (proj2 Lc c) Hc)) as I. destruct (r_cells _ _ _ _ R c I) as [_ CW].
  assert (E : at_ (bo_labeled (c64_bluespots o)) c = lf_bspot v) by apply Hc.
  destruct CW as (v' & Hv' & Ev' & Dry & Wet); [lia|].
  assert (VV : lf_z v' = z_min h).
  { assert (ND : NoDup (map lf_bspot (ff_levels (c64_finish o)))).
    { eapply Permutation_NoDup; [apply Permutation_sym; apply (r_levels _ _ _ _ R)|]. apply zseq_NoDup. }
    assert (v' = v) as -> by (eapply (NoDup_map_inj lf_bspot); [exact ND|exact Hv'|exact Hv|congruence]). exact LZ. }
  pose proof (so_between _ _ _ _ So c (proj2 (proj2 Lc c) Hc)) as [Lo _].
  destruct (Rle_or_lt (B2R (at_ dem c)) (B2R (z_min h))) as [A|A].
  - rewrite VV in Wet. assert (A' : le64 (at_ dem c) (z_min h)) by (apply leb_R; [apply HF; exact I|exact Fa|exact A]). destruct (Wet A') as (-> & _ & _).
    destruct (sub_abs (z_min h) (at_ dem c) 126 Fa (HF c I) ltac:(lia) Aa) as (Fs & Es & _); [apply (elev_facts dem t mm w HF SI c I)|].
    apply eqb_R; [exact Fs|reflexivity|]. rewrite Es. replace (B2R (z_min h) - B2R (at_ dem c)) with 0 by lra. apply rnd64_0.
  - rewrite VV in Dry. assert (A' : lt64 (z_min h) (at_ dem c)) by (apply ltb_R; [exact Fa|apply HF; exact I|exact A]). destruct (Dry A') as (-> & _). reflexivity.
Qed.

(** ** Levels stay below the filled terrain *)
Lemma full_level : forall zmin z fl dm, 0 <= zmin <= z -> z < fl -> fmt32 fl -> fmt32 z -> dm = rnd32 (fl - z) -> rnd64 (zmin + dm) <= fl * (1 + bpow radix2 (-23)).
Proof.
  intros zmin z fl dm [P0 P1] L Ff Fz ->.
  assert (D0 : 0 <= fl - z) by lra.
  assert (LF : bpow radix2 (-149) <= fl).
  { pose proof (@generic_format_ge_bpow radix2 (SpecFloat.fexp 24 128) (-149)) as G. apply G; [intros e; unfold SpecFloat.fexp, SpecFloat.emin; lia|lra|exact Ff]. }
  assert (R0 : 0 <= rnd32 (fl - z)) by (rewrite <- (rnd32_fmt 0) by apply generic_format_0; apply rnd32_le; exact D0).
  pose proof (rnd_up (zmin + rnd32 (fl - z)) ltac:(lra)) as U. rewrite u53_val in U.
  assert (T : rnd32 (fl - z) <= (fl - z) * (1 + bpow radix2 (-24))).
  { destruct (Rle_or_lt (bpow radix2 (-126)) (fl - z)) as [G|G].
    - pose proof (@relative_error_N_FLT radix2 (-149) 24 eq_refl (fun x => negb (Z.even x)) (fl - z)) as RE.
      specialize (RE ltac:(rewrite Rabs_pos_eq by exact D0; exact G)). change (round radix2 (FLT_exp (-149) 24) (Znearest (fun x => negb (Z.even x))) (fl - z)) with (rnd32 (fl - z)) in RE.
      rewrite (Rabs_pos_eq (fl - z)) in RE by lra. change (bpow radix2 (- (24) + 1)) with (/ 8388608) in RE. replace (bpow radix2 (-24)) with (/ 16777216) by (cbn; lra).
      apply Rabs_le_inv in RE. lra.
    - assert (E : fmt32 (fl - z)).
      { change (SpecFloat.fexp 24 128) with (FLT_exp (-149) 24). unfold Rminus. apply (@FLT_format_plus_small radix2 (-149) 24 eq_refl); [exact Ff|apply generic_format_opp; exact Fz|].
        change (fl + - z) with (fl - z). rewrite Rabs_pos_eq by exact D0. apply Rle_trans with (bpow radix2 (-126)); [lra|apply bpow_le; lia]. }
      rewrite rnd32_fmt by exact E. assert (0 <= (fl - z) * bpow radix2 (-24)) by (apply Rmult_le_pos; [exact D0|apply bpow_ge_0]). lra. }
  replace (bpow radix2 (-24)) with (/ 16777216) in T by (cbn; lra). replace (bpow radix2 (-23)) with (/ 8388608) by (cbn; lra).
  assert (S : bpow radix2 (-1022) <= fl * / 1099511627776).
  { replace (/ 1099511627776) with (bpow radix2 (-40)) by (cbn; lra). apply Rle_trans with (bpow radix2 (-149) * bpow radix2 (-40)); [rewrite <- bpow_plus; apply bpow_le; lia|].
    apply Rmult_le_compat_r; [apply bpow_ge_0|exact LF]. }
  lra.
Qed.

Theorem levels_below : forall cc, labels_components cc -> forall sp t dem f (use_accum : bool) mm zresolution,
  size_ok sp dem -> dem32 dem -> dem_finite dem -> sane_inputs t dem mm zresolution ->
  exists k, forall fuel, (fuel >= k)%nat -> exists o,
    complete_all64 sp cc fuel t dem f use_accum mm zresolution = Ok o /\
    let filled := do_filled (c64_dem o) in let depths := ff_depths (c64_finish o) in
    forall v, In v (ff_levels (c64_finish o)) -> (1 <= lf_bspot v)%Z ->
      (forall c, has_label (bo_labeled (c64_bluespots o)) (lf_bspot v) c -> le64 f64_zero (at_ dem c)) ->
      (exists c, has_label (bo_labeled (c64_bluespots o)) (lf_bspot v) c /\ le64 (at_ dem c) (lf_z v)) /\
      (exists c, has_label (bo_labeled (c64_bluespots o)) (lf_bspot v) c /\ (b64_Q (lf_z v) <= b64_Q (at_ filled c) * (1 + (1 # 2 ^ 23)))%Q) /\
      (sp = false -> forall c, has_label (bo_labeled (c64_bluespots o)) (lf_bspot v) c ->
         (b64_Q (lf_z v) <= b64_Q (at_ filled c) * (1 + (1 # 2 ^ 23)))%Q /\
         (b64_Q (at_ depths c) <= b64_Q (at_ filled c) - b64_Q (at_ dem c) + (1 # 2 ^ 22) * b64_Q (at_ filled c))%Q).
Proof.
  intros cc Hcc sp t dem f use_accum mm w SO H32 HF SI.
  destruct (run64_total cc Hcc sp t dem f use_accum mm w SO H32 HF SI) as (k & K). exists k. intros fuel Fu.
  destruct (K fuel Fu) as (o & H1 & _ & _ & ED & EB & R). exists o. split; [exact H1|]. cbv zeta. intros v Hv Hl P.
  destruct (r_level _ _ _ _ R v Hv Hl) as (p & h & cs & Ep & Lc & So & _ & FL & AL & _ & LV).
  assert (IN : forall c, In c cs -> inside (nrows dem) (ncols dem) c).
  { intros c Hc. apply Lc in Hc. eapply (label_in cc Hcc sp fuel fuel); eauto. }
  assert (EL : forall z, In z (map (at_ dem) cs) -> elev_ok w z /\ is_f32 z).
  { intros z Hz. apply in_map_iff in Hz. destruct Hz as (c & <- & Hz). split; [apply (elev_facts dem t mm w HF SI); apply IN; exact Hz|apply H32; apply IN; exact Hz]. }
  destruct (EL _ (so_min _ _ _ _ So)) as [(Fa & Aa & Ba) Sa]. destruct (EL _ (so_max _ _ _ _ So)) as [(Fb & Ab & Bb) Sb].
  assert (Pc : forall c, In c cs -> 0 <= B2R (at_ dem c)).
  { intros c Hc. assert (P' := P c (proj1 (proj2 Lc c) Hc)). apply leb_R in P'; [exact P'|reflexivity|apply HF; apply IN; exact Hc]. }
  assert (Pz : 0 <= B2R (z_min h)) by (eapply stats_pos; [exact So|exact Pc]). specialize (LV Pz).
  assert (Hl2 : (1 <= lf_bspot v <= bo_nlabels (c64_bluespots o))%Z).
  { assert (X : In (lf_bspot v) (zseq 0 (Z.to_nat (bo_nlabels (c64_bluespots o) + 1)))) by (eapply Permutation_in; [apply (r_levels _ _ _ _ R)|apply in_map; exact Hv]).
    apply in_zseq in X. lia. }
  destruct (pp_facts cc Hcc sp fuel fuel _ _ dem _ t f _ _ mm w SO H32 HF SI ED EB _ Hl2) as (p' & cs' & Ep' & Lc' & _ & _ & _ & Fd & Rd & Dm & _).
  assert (p' = p) by congruence. subst p'. assert (cs' = cs) by (eapply lists_unique; eauto). subst cs'.
  pose proof (fun c (Hc : In c cs) => depth_R sp fuel _ _ dem _ t mm w SO H32 HF SI ED c (IN c Hc)) as DR.
  pose proof (fun c (Hc : In c cs) => proj2 (depth_wet cc Hcc sp fuel fuel _ _ dem _ t f _ _ mm w SO H32 HF SI ED EB _ c Hl (proj1 (proj2 Lc c) Hc))) as DW.
  assert (UP : exists c, In c cs /\ B2R (lf_z v) <= B2R (at_ (do_filled (c64_dem o)) c) * (1 + bpow radix2 (-23))).
  { destruct LV as [LV|[_ LV]].
    - apply in_map_iff in Dm. destruct Dm as (d & Ed & Hd). exists d. split; [exact Hd|]. destruct (DR d Hd) as (_ & Ff & Sf & _ & Er & _).
      destruct (add_abs (z_min h) (pp_dmax p) 127 Fa Fd ltac:(lia)) as (_ & Ea & _); [eapply Rle_trans; [exact Aa|apply bpow_le; lia]|rewrite Rabs_pos_eq; apply Rd|].
      rewrite LV, Ea. apply full_level with (z := B2R (at_ dem d)).
      + split; [exact Pz|]. apply (so_between _ _ _ _ So). exact Hd.
      + apply DW. exact Hd.
      + apply f32_fmt; assumption.
      + apply f32_fmt; [apply H32|apply HF]; apply IN; exact Hd.
      + rewrite <- Ed. exact Er.
    - pose proof (so_max _ _ _ _ So) as M. apply in_map_iff in M. destruct M as (d & Ed & Hd). exists d. split; [exact Hd|]. destruct (DR d Hd) as (_ & Ff & Sf & _).
      pose proof (DW d Hd) as W. pose proof (Pc d Hd) as Pd. eapply Rle_trans; [exact LV|]. rewrite <- Ed. unfold gap.
      assert (LF : bpow radix2 (-149) <= B2R (at_ (do_filled (c64_dem o)) d)) by (apply f32_low; auto; lra).
      assert (S : bpow radix2 (-500) <= B2R (at_ (do_filled (c64_dem o)) d) * / 1099511627776).
      { replace (/ 1099511627776) with (bpow radix2 (-40)) by (cbn; lra). apply Rle_trans with (bpow radix2 (-149) * bpow radix2 (-40)); [rewrite <- bpow_plus; apply bpow_le; lia|].
        apply Rmult_le_compat_r; [apply bpow_ge_0|exact LF]. }
      replace (bpow radix2 (-50)) with (/ 1125899906842624) by (cbn; lra). replace (bpow radix2 (-23)) with (/ 8388608) by (cbn; lra). lra. }
  assert (RQ : forall x fl, x <= B2R fl * (1 + bpow radix2 (-23)) -> x <= Q2R (b64_Q fl * (1 + (1 # 2 ^ 23)))).
  { intros x fl H. rewrite Q2R_mult, Q2R_plus, b64_Q_R. replace (Q2R 1) with 1 by (unfold Q2R; cbn; lra). replace (Q2R (1 # 2 ^ 23)) with (bpow radix2 (-23)) by (unfold Q2R; cbn; lra). exact H. }
  split; [|split].
  - pose proof (so_min _ _ _ _ So) as M. apply in_map_iff in M. destruct M as (c & Ec & Hc). exists c. split; [apply Lc; exact Hc|].
    apply leb_R; [apply HF; apply IN; exact Hc|exact FL|]. rewrite Ec. destruct LV as [LV|[LV _]]; [|exact LV].
    destruct (add_abs (z_min h) (pp_dmax p) 127 Fa Fd ltac:(lia)) as (_ & Ea & _); [eapply Rle_trans; [exact Aa|apply bpow_le; lia]|rewrite Rabs_pos_eq; apply Rd|].
    rewrite LV, Ea, <- (rnd_fmt (B2R (z_min h))) at 1 by apply generic_format_B2R. apply rnd64_le. lra.
  - destruct UP as (c & Hc & U). exists c. split; [apply Lc; exact Hc|]. apply Rle_Qle. rewrite b64_Q_R. apply RQ. exact U.
  - intros -> c Hc. assert (Ic : In c cs) by (apply Lc; exact Hc).
    assert (UC : B2R (lf_z v) <= B2R (at_ (do_filled (c64_dem o)) c) * (1 + bpow radix2 (-23))).
    { destruct UP as (d & Hd & U). assert (Ld : has_label (bo_labeled (c64_bluespots o)) (lf_bspot v) d) by (apply Lc; exact Hd).
      destruct (run_shapes cc Hcc false fuel fuel _ _ dem _ t f _ _ SO H32 HF ED EB) as ([S1 S2] & _ & Hr & Hcol).
      destruct (process_filter cc Hcc false _ _ _ _ _ _ _ _ Hr Hcol EB) as (_ & _ & _ & BL).
      assert (B : bluespot (do_depths (c64_dem o)) d c).
      { apply BL; [rewrite <- S1, <- S2; apply IN; exact Hd|rewrite <- S1, <- S2; apply IN; exact Ic| | |].
        - destruct Ld as [_ E]. rewrite E. lia.
        - destruct Hc as [_ E]. rewrite E. lia.
        - destruct Hc as [_ E], Ld as [_ E']. congruence. }
      cbn in SO. destruct (level_water fuel _ _ dem _ ltac:(lia) ltac:(lia) H32 HF ED d c B) as [Q _].
      apply eqb_R in Q; [rewrite <- Q; exact U|apply (DR d Hd)|apply (DR c Ic)]. }
    split; [apply Rle_Qle; rewrite b64_Q_R; apply RQ; exact UC|].
    apply Rle_Qle. rewrite Q2R_plus, Q2R_minus, Q2R_mult, !b64_Q_R. replace (Q2R (1 # 2 ^ 22)) with (/ 4194304) by (unfold Q2R; cbn; lra).
    destruct (r_cells _ _ _ _ R c (IN c Ic)) as [_ CW]. destruct Hc as [_ Ec]. destruct CW as (v' & Hv' & Ev' & Dry & Wet); [rewrite Ec; lia|].
    assert (v' = v) as ->.
    { eapply (NoDup_map_inj lf_bspot); [|exact Hv'|exact Hv|congruence]. eapply Permutation_NoDup; [apply Permutation_sym; apply (r_levels _ _ _ _ R)|]. apply zseq_NoDup. }
    pose proof (DW c Ic) as W. pose proof (Pc c Ic) as P0. destruct (DR c Ic) as (_ & Ff & Sf & _).
    destruct (Rle_or_lt (B2R (at_ dem c)) (B2R (lf_z v))) as [A|A].
    + assert (A' : le64 (at_ dem c) (lf_z v)) by (apply leb_R; [apply HF; apply IN; exact Ic|exact FL|exact A]). destruct (Wet A') as (-> & _ & _).
      destruct (sub_abs (lf_z v) (at_ dem c) 150 FL (HF c (IN c Ic)) ltac:(lia) AL) as (_ & Es & _).
      { destruct (elev_facts dem t mm w HF SI c (IN c Ic)) as (_ & X & _). eapply Rle_trans; [exact X|apply bpow_le; lia]. }
      rewrite Es. eapply Rle_trans; [apply rnd_up; lra|]. rewrite u53_val.
      assert (LF : bpow radix2 (-149) <= B2R (at_ (do_filled (c64_dem o)) c)) by (apply f32_low; auto; lra).
      assert (S : bpow radix2 (-1022) <= B2R (at_ (do_filled (c64_dem o)) c) * / 1099511627776).
      { replace (/ 1099511627776) with (bpow radix2 (-40)) by (cbn; lra). apply Rle_trans with (bpow radix2 (-149) * bpow radix2 (-40)); [rewrite <- bpow_plus; apply bpow_le; lia|].
        apply Rmult_le_compat_r; [apply bpow_ge_0|exact LF]. }
      replace (bpow radix2 (-23)) with (/ 8388608) in UC by (cbn; lra). lra.
    + assert (A' : lt64 (lf_z v) (at_ dem c)) by (apply ltb_R; [exact FL|apply HF; apply IN; exact Ic|exact A]). destruct (Dry A') as (-> & _). change (B2R f64_zero) with 0. lra.
Qed.

(** ** The two parts of C87 *)
Theorem dry_dyadic : forall cc, labels_components cc -> forall sp t dem f (use_accum : bool) mm w,
  size_ok sp dem -> dem32 dem -> dem_finite dem -> sane_inputs t dem mm w ->
  (exists j, (-100 <= j <= 100)%Z /\ (b64_Q w == Qpower 2 j)%Q) ->
  (forall c, inside (nrows dem) (ncols dem) c -> (b64_Q (at_ dem c) <= inject_Z (2 ^ 23) * b64_Q w)%Q) ->
  exists k, forall fuel, (fuel >= k)%nat -> exists o,
    complete_all64 sp cc fuel t dem f use_accum mm w = Ok o /\
    forall v, In v (ff_levels (c64_finish o)) -> (1 <= lf_bspot v)%Z -> eq64 (lf_v v) f64_zero ->
      (forall c, has_label (bo_labeled (c64_bluespots o)) (lf_bspot v) c -> le64 f64_zero (at_ dem c)) ->
      forall c, has_label (bo_labeled (c64_bluespots o)) (lf_bspot v) c -> eq64 (at_ (ff_depths (c64_finish o)) c) f64_zero.
Proof.
  intros cc Hcc sp t dem f ua mm w SO H32 HF SI (j & J & Ej) El.
  destruct (dry_run cc Hcc sp t dem f ua mm w SO H32 HF SI) as (k & K). exists k. intros fuel Fu. destruct (K fuel Fu) as (o & E & D). exists o. split; [exact E|].
  intros v Hv Hl V P. apply (D v Hv Hl V P). left. exists j. auto.
Qed.

Theorem dry_away : forall cc, labels_components cc -> forall sp t dem f (use_accum : bool) mm w,
  size_ok sp dem -> dem32 dem -> dem_finite dem -> sane_inputs t dem mm w ->
  exists k, forall fuel, (fuel >= k)%nat -> exists o,
    complete_all64 sp cc fuel t dem f use_accum mm w = Ok o /\
    forall v, In v (ff_levels (c64_finish o)) -> (1 <= lf_bspot v)%Z -> eq64 (lf_v v) f64_zero ->
      (forall c, has_label (bo_labeled (c64_bluespots o)) (lf_bspot v) c -> le64 f64_zero (at_ dem c)) ->
      (exists c, has_label (bo_labeled (c64_bluespots o)) (lf_bspot v) c /\
         (forall k, (1 <= k)%Z -> ((1 # 2 ^ 22) * (inject_Z k * b64_Q w) < Qabs (b64_Q (at_ dem c) - inject_Z k * b64_Q w))%Q) /\
         forall d, has_label (bo_labeled (c64_bluespots o)) (lf_bspot v) d -> le64 (at_ dem c) (at_ dem d)) ->
      forall c, has_label (bo_labeled (c64_bluespots o)) (lf_bspot v) c -> eq64 (at_ (ff_depths (c64_finish o)) c) f64_zero.
Proof.
  intros cc Hcc sp t dem f ua mm w SO H32 HF SI.
  destruct (dry_run cc Hcc sp t dem f ua mm w SO H32 HF SI) as (k & K). exists k. intros fuel Fu. destruct (K fuel Fu) as (o & E & D). exists o. split; [exact E|].
  intros v Hv Hl V P AW. apply (D v Hv Hl V P). right. exact AW.
Qed.
