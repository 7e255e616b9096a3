(** * Theorems about the complete command *)

From Coq Require Import Permutation QArith Qabs Lqa.
From Verif Require Import Base BaseProofs Num Float64 Dict DictProofs FillModel FillSpec FillThms FlowModel FlowSpec FlowProofs AccumProofs
  DemModel DemProofs LabelModel LabelSpec LabelProofs LabelThms CompSpec CompProofs VectorModel BluespotModel BluespotSpec BluespotProofs BluespotThms
  LevelProofs WatershedProofs NetModel NetSpec NetThms NetworkModel NetworkSpec NetworkThms RainModel PipelineModel RainProofs RainThms
  HypsModel HypsSpec HypsThms ApproxModel ApproxSpec ApproxThms CompleteModel CompleteProofs FloatQ GridProofs.
Local Open Scope Z_scope.
Local Arguments Qplus : simpl never.
Local Arguments Qmult : simpl never.
Local Arguments Qminus : simpl never.

(** Attributes of the nodes: those of the pour point with the same id. *)
Lemma stream_attrs : forall k t fd lab (pps : list (@pourpoint Q)) streams nodes sts,
  map pp_id pps = zseq 0 (length pps) -> stream_process QOps k t fd lab pps streams = Ok (nodes, sts) ->
  forall nd, In nd nodes -> 0 <= nf_id nd < Z.of_nat (length pps) ->
  exists p, nth_error pps (Z.to_nat (nf_id nd)) = Some p /\ nf_bspot nd = Some (nf_id nd) /\ nf_vol nd = pp_vol p /\ nf_wshed nd = pp_wshed p.
Proof.
  intros k t fd lab pps streams nodes sts Ei H nd Hn Hi. unfold stream_process in H.
  apply bind_ok in H. destruct H as (ns & _ & H). injection H as <- _.
  set (index := fold_left (fun d p => dset Z.eqb d (pp_id p) p) pps []) in *.
  assert (NDp : NoDup (map pp_id pps)) by (rewrite Ei; apply zseq_NoDup).
  apply in_map_iff in Hn. destruct Hn as (n & <- & Hn).
  assert (Id : nf_id (make_node QOps t index n) = g_id n) by (unfold make_node; destruct (dget Z.eqb index (g_id n)); auto).
  rewrite Id in *. destruct (nth_error pps (Z.to_nat (g_id n))) as [p|] eqn:Ep; [|apply nth_error_None in Ep; lia].
  assert (Pid : pp_id p = g_id n).
  { assert (Y : nth_error (map pp_id pps) (Z.to_nat (g_id n)) = Some (pp_id p)) by (rewrite nth_error_map, Ep; auto).
    rewrite Ei, nth_error_zseq in Y by lia. injection Y as <-. lia. }
  exists p. split; auto. unfold make_node.
  assert (G : dget Z.eqb index (g_id n) = Some p).
  { rewrite <- Pid. apply (index_val pp_id (fun p => p)); auto. eapply nth_error_In; eauto. }
  rewrite G. cbn [nf_bspot nf_vol nf_wshed]. rewrite Pid. auto.
Qed.

Lemma assemble_dmax : forall t (pix : list (@index_record Q)) (bst : list (@stat Q)) wst ix,
  length bst = length pix -> length wst = length pix ->
  map pp_dmax (assemble_from QOps ix t pix bst wst) = map s_max bst.
Proof.
  induction pix as [|p pix IH]; intros [|s bst] [|w wst] ix L1 L2; cbn [length] in *; try lia; [reflexivity|].
  cbn [assemble_from map pp_dmax]. f_equal. apply IH; lia.
Qed.

Lemma fold_top : forall vs m0,
  let m := fold_left (fun m v => if nltb QOps m v then v else m) vs m0 in
  (m = m0 \/ In m vs) /\ (m0 <= m)%Q /\ forall v, In v vs -> (v <= m)%Q.
Proof.
  cbn [nltb QOps]. induction vs as [|v vs IH]; intros m0; cbn [fold_left].
  - split; auto. split; [lra|]. intros v [].
  - assert (QE := HypsProofs.Qltb_lt m0 v). destruct (Qltb m0 v) eqn:E; [assert (m0 < v)%Q by (apply QE; auto)|]; clear QE.
    + destruct (IH v) as (A & B & C). set (m := fold_left _ vs v) in *.
      split; [right; destruct A as [A|A]; [left; symmetry|right]; auto|]. split; [lra|]. intros x [<-|Hx]; auto.
    + assert (v <= m0)%Q. { destruct (Qlt_le_dec m0 v) as [q|]; auto. apply HypsProofs.Qltb_lt in q. congruence. }
      destruct (IH m0) as (A & B & C). set (m := fold_left _ vs m0) in *. split; [destruct A; [left|right; right]; auto|]. split; auto.
      intros x [<-|Hx]; auto. lra.
Qed.

(** ** The attributes of the bluespots, exactly *)
Section Chain.
Variable cc : raster bool -> raster Z * Z.
Hypothesis Hcc : labels_components cc.
Variable sp : bool.
Variables (fuel fuel' : nat) (t1 t5 : b64) (dem : raster b64) (dout : dem_out) (t : geotransform b64)
  (f : @unit_stats b64 -> bool) (accum : option (raster b64)) (out : bluespot_out).
Hypothesis SO : size_ok sp dem.
Hypothesis H32 : dem32 dem.
Hypothesis HF : dem_finite dem.
Hypothesis HD : dem_process sp fuel t1 t5 dem = Ok dout.
Hypothesis HB : bluespot_process sp cc fuel' t (do_depths dout) (do_flowdir dout) (Some f) accum (Some dem) = Ok out.

Let area : Q := (Qabs (gt1 (gt_Q t)) * Qabs (gt5 (gt_Q t)))%Q.

Lemma pps_stats : forall pps, exact_pourpoints t (do_depths dout) out = Ok pps ->
  same_shape dem (bo_labeled out) /\ numbered (bo_labeled out) (bo_nlabels out) /\ largest_label (bo_labeled out) (bo_nlabels out) /\
  length pps = Z.to_nat (bo_nlabels out + 1) /\ 0 <= bo_nlabels out /\
  forall l, 0 <= l <= bo_nlabels out -> exists p cs, nth_error pps (Z.to_nat l) = Some p /\
    lists_cells (has_label (bo_labeled out) l) cs /\
    let ds := map (at_ (raster_Q (do_depths dout))) cs in
    (pp_vol p == area * Qsum ds)%Q /\ (pp_dmax p = 0%Q \/ In (pp_dmax p) ds) /\ (0 <= pp_dmax p)%Q /\ (forall d, In d ds -> d <= pp_dmax p)%Q.
Proof.
  intros pps EP.
  destruct (depths_facts sp fuel t1 t5 dem dout SO H32 HF HD) as (Sd & Dp & De).
  destruct (dem_flow sp fuel t1 t5 dem dout SO H32 HF HD) as (Sf & D & _).
  assert (Hr : 1 <= nrows (do_depths dout)) by (destruct Sd as [<- _]; destruct sp; cbn in SO; lia).
  assert (Hc : 1 <= ncols (do_depths dout)) by (destruct Sd as [_ <-]; destruct sp; cbn in SO; lia).
  destruct (process_filter cc Hcc sp _ _ _ _ _ _ _ _ Hr Hc HB) as (Sh & Nm & _).
  assert (Sdf : same_shape (do_depths dout) (do_flowdir dout)) by (destruct Sd, Sf; split; congruence).
  destruct (process_pourpoints cc Hcc sp fuel' t _ _ _ _ _ _ Hr Hc Sdf D HB) as (pix' & _ & _ & Lpp & _).
  set (lab := bo_labeled out) in *. set (n := bo_nlabels out) in *.
  assert (Hr2 : 1 <= nrows lab) by (destruct Sh; lia). assert (Hc2 : 1 <= ncols lab) by (destruct Sh; lia).
  assert (LG : largest_label lab n) by (apply numbered_largest; auto).
  assert (NL : nlabels_is lab None n) by (right; split; auto).
  assert (Sq : same_shape (raster_Q (do_depths dout)) lab) by (destruct Sh; split; auto).
  destruct (label_stats_fold QOps 0%Q 0%Q (raster_Q (do_depths dout)) lab None n Sq NL (proj1 Nm) Hr2 Hc2) as (sq & B1 & B2 & B3).
  unfold exact_pourpoints in EP. fold lab in EP. rewrite B1 in EP. cbn [bind] in EP.
  apply bind_ok in EP. destruct EP as (wst & W1 & EP). injection EP as EP.
  split; [destruct Sd, Sh; split; congruence|]. split; auto. split; auto.
  set (qpix := map (fun p => mkIdx 0%Q (pp_row p) (pp_col p)) (bo_pourpoints out)) in *.
  assert (Lq : length qpix = length (bo_pourpoints out)) by (unfold qpix; apply map_length).
  assert (Lw : length wst = length qpix).
  { destruct (run_inv cc Hcc sp _ _ _ _ _ _ _ _ Hr Hc HB) as (st & new & bst & wst' & pix & _ & _ & _ & _ & E3 & E4 & E5 & E6 & E7).
    assert (Sl : same_shape (do_flowdir dout) lab) by (destruct Sh, Sf, Sd; split; congruence).
    assert (Hr3 : 1 <= nrows (do_flowdir dout)) by (destruct Sl; lia). assert (Hc3 : 1 <= ncols (do_flowdir dout)) by (destruct Sl; lia).
    rewrite watersheds_either in E4 by auto.
    destruct (watersheds_numbered fuel' _ _ _ _ D Sl Hr3 Hc3 Nm E4) as [Sw Nw].
    assert (Lw : largest_label (bo_watersheds out) n) by (apply numbered_largest; auto; destruct Sw; lia).
    destruct (label_count_spec (bo_watersheds out) n (proj1 Nw) Lw) as (wst2 & W1' & W2 & _).
    assert (wst2 = wst) by congruence. subst wst2. unfold n in *. lia. }
  assert (Ls : length sq = length qpix) by (unfold n in *; lia).
  destruct (assemble_q QOps (gt_Q t) qpix sq wst 0 Ls Lw) as (A1 & _ & A3 & _).
  pose proof (assemble_dmax (gt_Q t) qpix sq wst 0 Ls Lw) as A5.
  unfold assemble_pourpoints in EP. rewrite EP in A1, A3, A5.
  assert (Lp : length pps = length qpix) by (rewrite <- (map_length pp_id), A1, zseq_length; auto).
  split; [unfold n in *; lia|]. split; [apply Nm|].
  intros l Hl. pose proof (B3 l Hl) as Es.
  destruct (nth_error pps (Z.to_nat l)) as [p|] eqn:Ep; [|apply nth_error_None in Ep; unfold n in *; lia].
  exists p, (lcells lab l). split; auto. split; [apply lcells_spec|]. cbv zeta.
  set (ds := map (at_ (raster_Q (do_depths dout))) (lcells lab l)) in *.
  split.
  - assert (X : nth_error (map pp_vol pps) (Z.to_nat l) = Some (pp_vol p)) by (rewrite nth_error_map, Ep; auto).
    rewrite A3, nth_error_map, Es in X. cbn [option_map] in X. injection X as X. rewrite <- X, fold_sum.
    change (nmul QOps) with Qmult. change (nadd QOps) with Qplus. change (s_sum (stat0 QOps 0%Q 0%Q)) with 0%Q.
    transitivity ((0 + Qsum ds) * area)%Q; [|ring]. apply Qmult_comp; [apply pysum_Q|exact (cell_area_Q (gt_Q t))].
  - assert (X : nth_error (map pp_dmax pps) (Z.to_nat l) = Some (pp_dmax p)) by (rewrite nth_error_map, Ep; auto).
    rewrite A5, nth_error_map, Es in X. cbn [option_map] in X. injection X as X. rewrite <- X, fold_max.
    cbn [stat0 s_max]. apply fold_top.
Qed.
End Chain.

(** ** Everything about one run *)
Definition lands (area : Q) (out : bluespot_out) (pps : list (@pourpoint Q)) (dem : raster b64) (zres : Q)
    (final : list (@node Q * option (@event Q))) (fo : finish_out) : Prop :=
  let lab := bo_labeled out in let n := bo_nlabels out in
  exists st, bluespot_hypsometry_stats QOps Q_int q_inf (- q_inf)%Q lab (raster_Q dem) zres None 0 = Ok st /\
  Permutation (map lf_bspot (fo_levels fo)) (zseq 0 (Z.to_nat (n + 1))) /\
  (forall o, In o (fo_levels fo) ->
     (exists nd e, In (nd, Some e) final /\ n_id nd = lf_bspot o /\ lf_v o = e_vol e) /\
     exists p h, nth_error pps (Z.to_nat (lf_bspot o)) = Some p /\ In (lf_bspot o, h) st /\
       water_level QOps h area (pp_dmax p) (pp_vol p) (lf_v o) = Ok (lf_z o) /\ lf_dmax o = (lf_z o - z_min h)%Q) /\
  same_shape (fo_labels fo) lab /\ same_shape (fo_depths fo) lab /\
  forall c, inside (nrows lab) (ncols lab) c ->
    (at_ lab c = 0 -> at_ (fo_labels fo) c = 0 /\ (-999 <= at_ (raster_Q dem) c -> at_ (fo_depths fo) c == 0)%Q) /\
    (at_ lab c <> 0 -> exists o, In o (fo_levels fo) /\ lf_bspot o = at_ lab c /\
       (lf_z o < at_ (raster_Q dem) c -> at_ (fo_depths fo) c == 0)%Q /\ ((lf_z o < at_ (raster_Q dem) c)%Q -> at_ (fo_labels fo) c = 0) /\
       (at_ (raster_Q dem) c <= lf_z o -> at_ (fo_depths fo) c == lf_z o - at_ (raster_Q dem) c)%Q /\
       ((at_ (raster_Q dem) c <= lf_z o)%Q -> at_ (fo_labels fo) c = at_ lab c)).

Theorem complete_facts : forall cc, labels_components cc -> forall sp t dem f (use_accum : bool),
  size_ok sp dem -> dem32 dem -> dem_finite dem -> nrows dem * ncols dem <= 2 ^ 53 ->
  square_cells (gt1 t) (gt5 t) = true ->
  exists k, forall fuel, (fuel >= k)%nat -> exists dout out pps nodes sts,
    let accum := if use_accum then Some (accum64 (do_accum dout)) else None in
    dem_process sp fuel (gt1 t) (gt5 t) dem = Ok dout /\
    bluespot_process sp cc fuel t (do_depths dout) (do_flowdir dout) (Some f) accum (Some dem) = Ok out /\
    exact_pourpoints t (do_depths dout) out = Ok pps /\
    NoDup (map nf_id nodes) /\
    (forall nd, In nd nodes -> 0 <= nf_id nd <= bo_nlabels out ->
       exists p, nth_error pps (Z.to_nat (nf_id nd)) = Some p /\ nf_vol nd = pp_vol p /\ nf_wshed nd = pp_wshed p) /\
    (forall nd, In nd nodes -> 0 <= nf_vol nd /\ 0 <= nf_wshed nd)%Q /\
    forall mm zres, (0 < zres)%Q -> exists final fo,
      let vols := simple_volumes QOps mm nodes in
      acyclic_closed (map solver_node vols) /\
      process QOps (length vols) (map solver_node vols) = Ok final /\
      map fst final = map solver_node vols /\ (forall n o, In (n, o) final -> exists e, o = Some e /\ e_id e = n_id n) /\
      complete_all sp cc fuel t dem f use_accum mm zres = Ok (mkCA dout out pps (mkCO vols sts final) fo) /\
      complete sp cc fuel t dem f use_accum mm = Ok (mkCO vols sts final) /\
      lands (Qabs (b64_Q (gt5 t)) * Qabs (b64_Q (gt1 t)))%Q out pps dem zres final fo.
Proof.
  intros cc Hcc sp t dem f use_accum SO H32 HF Big SQ.
  destruct (chain_total cc Hcc sp use_accum t dem f SO H32 HF SQ) as (k & K).
  exists (Nat.max k (S (Z.to_nat (nrows dem * ncols dem)))). intros fuel Fu.
  destruct (K fuel ltac:(lia)) as (dout & out & ED & EB).
  set (accum := if use_accum then Some (accum64 (do_accum dout)) else None) in *.
  assert (HA : accum = None \/ accum = Some (accum64 (do_accum dout))) by (unfold accum; destruct use_accum; auto).
  destruct (rain_shares cc Hcc sp fuel fuel _ _ dem dout t f accum out SO H32 HF Big ED HA EB) as (pps & Ep & Lp & R).
  destruct (exact_pps cc Hcc sp fuel fuel _ _ dem dout t f accum out SO H32 HF ED EB) as (pps' & Ep' & _ & Ei & _ & Pp).
  assert (pps' = pps) by congruence. subst pps'.
  destruct (pps_stats cc Hcc sp fuel fuel _ _ dem dout t f accum out SO H32 HF ED EB pps Ep) as (Sh & Nm & LG & Ln & N0 & _).
  destruct (dem_flow sp fuel _ _ dem dout SO H32 HF ED) as ([Q1 Q2] & _ & _).
  destruct (R true fuel) as (nodes & sts & Es & ND & Pm & Vn & V).
  { assert (1 <= nrows dem) by (destruct sp; cbn in SO; lia). assert (1 <= ncols dem) by (destruct sp; cbn in SO; lia).
    unfold rcells. rewrite length_cells_of.
    assert (E : nrows (do_flowdir dout) = nrows dem) by congruence. assert (E' : ncols (do_flowdir dout) = ncols dem) by congruence.
    rewrite E, E'. assert (Z.of_nat (Z.to_nat (nrows dem) * Z.to_nat (ncols dem)) = nrows dem * ncols dem) by (rewrite Nat2Z.inj_mul, !Z2Nat.id; auto; lia).
    lia. }
  { lia. }
  assert (Nj : forall nd, In nd nodes -> nf_junction nd = false -> 0 <= nf_id nd < Z.of_nat (length pps)).
  { intros nd Hn J. assert (X : In (nf_id nd) (zseq 0 (length pps))).
    { eapply Permutation_in; [exact Pm|]. apply in_map. apply filter_In. rewrite J. auto. }
    apply in_zseq in X. lia. }
  pose proof (stream_attrs _ _ _ _ _ _ _ _ Ei Es) as At.
  exists dout, out, pps, nodes, sts. cbv zeta. fold accum. split; [exact ED|]. split; [exact EB|]. split; [exact Ep|]. split; [exact ND|].
  split.
  { intros nd Hn J. destruct (At nd Hn ltac:(lia)) as (p & A & _ & B & C). exists p. auto. }
  split.
  { intros nd Hn. split; [apply Vn; auto|]. unfold stream_process in Es. apply bind_ok in Es. destruct Es as (ns & _ & Es).
    injection Es as <- _. apply in_map_iff in Hn. destruct Hn as (m & <- & _). unfold make_node.
    destruct (dget Z.eqb _ (g_id m)) as [p|] eqn:G; cbn [nf_wshed]; [|apply Qle_refl].
    rewrite pp_index_get in G by (rewrite Ei; apply zseq_NoDup). destruct (find _ pps) as [q|] eqn:F; [|discriminate].
    injection G as ->. apply find_some in F. destruct (Pp p (proj1 F)) as (_ & ws & _ & ->).
    apply Qmult_le_0_compat; [change 0%Q with (inject_Z 0); rewrite <- Zle_Qle; lia|]. apply Qmult_le_0_compat; apply Qabs_nonneg. }
  intros mm zres Zr. destruct (V mm) as (_ & _ & AC).
  set (vols := simple_volumes QOps mm nodes) in *.
  assert (Mv : map fst vols = nodes).
  { unfold vols, simple_volumes. rewrite map_map. cbn [fst]. apply map_id. }
  assert (UI : unique_ids (map solver_node vols)).
  { unfold unique_ids. rewrite map_map. cbn [n_id solver_node]. rewrite <- Mv, map_map in ND. exact ND. }
  destruct (process_total QOps (map solver_node vols) (length vols)) as (fin & Ef); [rewrite map_length; lia|].
  destruct (all_written _ _ _ _ UI AC Ef) as (Mf & Wf).
  destruct (finish_spec t dem (bo_labeled out) (bo_nlabels out) pps vols fin zres Sh Nm LG) as (st & fo & EF & Est & Rest); auto.
  { rewrite Ei, Ln. reflexivity. }
  { rewrite <- Mv, map_map in ND. exact ND. }
  { rewrite Mv, <- Ln. exact Pm. }
  { rewrite Mv. intros m Hm J. destruct (At m Hm (Nj m Hm J)) as (p & _ & A & _). exact A. }
  { intros m o Ho. destruct (Wf m o Ho) as (e & E & _). eauto. }
  exists fin, fo. split; [exact AC|]. split; [exact Ef|]. split; [exact Mf|]. split; [exact Wf|]. split; [|split].
  - unfold complete_all. rewrite ED. cbn [bind]. fold accum. rewrite EB. cbn [bind]. rewrite Ep. cbn [bind]. rewrite Es. cbn [bind].
    fold vols. rewrite Ef. cbn [bind]. rewrite EF. reflexivity.
  - unfold complete. rewrite ED. cbn [bind]. fold accum. rewrite EB. cbn [bind]. rewrite Ep. cbn [bind]. rewrite Es. cbn [bind].
    fold vols. rewrite Ef. reflexivity.
  - exists st. split; [exact Est|]. exact Rest.
Qed.

(** ** C63 *)
Theorem complete_succeeds : forall cc, labels_components cc -> forall sp t dem f (use_accum : bool),
  size_ok sp dem -> dem32 dem -> dem_finite dem -> nrows dem * ncols dem <= 2 ^ 53 ->
  square_cells (gt1 t) (gt5 t) = true ->
  exists k, forall fuel, (fuel >= k)%nat -> forall mm zres, (0 < zres)%Q ->
  exists a, complete_all sp cc fuel t dem f use_accum mm zres = Ok a /\
    complete sp cc fuel t dem f use_accum mm = Ok (ca_volumes a) /\
    let lab := bo_labeled (ca_bluespots a) in let fo := ca_finish a in
    Permutation (map lf_bspot (fo_levels fo)) (zseq 0 (Z.to_nat (bo_nlabels (ca_bluespots a) + 1))) /\
    (forall o, In o (fo_levels fo) -> exists nd e, In (nd, Some e) (co_final (ca_volumes a)) /\ n_id nd = lf_bspot o /\ lf_v o = e_vol e) /\
    same_shape dem (fo_labels fo) /\ same_shape dem (fo_depths fo) /\
    forall c, inside (nrows dem) (ncols dem) c ->
      (at_ lab c = 0 -> at_ (fo_labels fo) c = 0 /\ (-999 <= b64_Q (at_ dem c) -> at_ (fo_depths fo) c == 0)%Q) /\
      (at_ lab c <> 0 -> exists o, In o (fo_levels fo) /\ lf_bspot o = at_ lab c /\
         ((lf_z o < b64_Q (at_ dem c))%Q -> (at_ (fo_depths fo) c == 0)%Q /\ at_ (fo_labels fo) c = 0) /\
         ((b64_Q (at_ dem c) <= lf_z o)%Q -> (at_ (fo_depths fo) c == lf_z o - b64_Q (at_ dem c))%Q /\ at_ (fo_labels fo) c = at_ lab c)).
Proof.
  intros cc Hcc sp t dem f use_accum SO H32 HF Big SQ.
  destruct (complete_facts cc Hcc sp t dem f use_accum SO H32 HF Big SQ) as (k & K). exists k. intros fuel Fu mm zres Zr.
  destruct (K fuel Fu) as (dout & out & pps & nodes & sts & ED & EB & Ep & _ & _ & _ & V).
  destruct (V mm zres Zr) as (final & fo & _ & _ & _ & _ & EA & EC & st & _ & Pm & Lv & S1 & S2 & Cl).
  destruct (pps_stats cc Hcc sp fuel fuel _ _ dem dout t f _ out SO H32 HF ED EB pps Ep) as ([Q1 Q2] & _).
  eexists. split; [exact EA|]. split; [exact EC|]. cbn [ca_bluespots ca_finish ca_volumes co_final]. cbv zeta.
  split; [exact Pm|]. split; [intros o Ho; apply (Lv o Ho)|]. split; [destruct S1; split; congruence|]. split; [destruct S2; split; congruence|].
  intros c Hi. rewrite Q1, Q2 in Hi. destruct (Cl c Hi) as (C1 & C2). split; [exact C1|]. intros H.
  destruct (C2 H) as (o & O1 & O2 & O3 & O4 & O5 & O6). exists o. split; [exact O1|]. split; [exact O2|]. split; intros X; split; auto.
Qed.

(** ** The level of one bluespot: level water and exact depths *)
Section Label.
Variable cc : raster bool -> raster Z * Z.
Hypothesis Hcc : labels_components cc.
Variables (fuel fuel' : nat) (t1 t5 : b64) (dem : raster b64) (dout : dem_out) (t : geotransform b64)
  (f : @unit_stats b64 -> bool) (accum : option (raster b64)) (out : bluespot_out) (pps : list (@pourpoint Q)) (g : Z).
Hypothesis SO : size_ok false dem.
Hypothesis H32 : dem32 dem.
Hypothesis HF : dem_finite dem.
Hypothesis HD : dem_process false fuel t1 t5 dem = Ok dout.
Hypothesis HB : bluespot_process false cc fuel' t (do_depths dout) (do_flowdir dout) (Some f) accum (Some dem) = Ok out.
Hypothesis EP : exact_pourpoints t (do_depths dout) out = Ok pps.
Hypothesis GD : grid_dem g dem.

Let area : Q := (Qabs (b64_Q (gt5 t)) * Qabs (b64_Q (gt1 t)))%Q.
Hypothesis Area : (0 < area)%Q.

Lemma grid_nonneg : forall k x, 0 <= k -> on_grid k x -> (0 <= b64_Q x)%Q.
Proof.
  intros k x K (m & M & E). assert (0 <= b64_Q x * inject_Z (2 ^ k))%Q.
  { rewrite E. change 0%Q with (inject_Z 0). rewrite <- Zle_Qle. lia. }
  assert (0 < inject_Z (2 ^ k))%Q by (change 0%Q with (inject_Z 0); rewrite <- Zlt_Qlt; apply Z.pow_pos_nonneg; lia).
  nra.
Qed.

Lemma volume_below : forall a (zs : list Q) L, (forall z, In z zs -> (z <= L)%Q) ->
  (volume_at a zs L == a * Qsum (map (fun z => L - z) zs))%Q.
Proof.
  intros a zs L H. unfold volume_at. apply Qmult_comp; [reflexivity|]. induction zs as [|z zs IH]; cbn [map Qsum]; [reflexivity|].
  rewrite IH by (intros; apply H; right; auto). destruct (Qlt_le_dec z L) as [q|q]; [reflexivity|].
  specialize (H z (or_introl eq_refl)). lra.
Qed.

Lemma Qsum_ext : forall {A} (u v : A -> Q) l, (forall x, In x l -> (u x == v x)%Q) -> (Qsum (map u l) == Qsum (map v l))%Q.
Proof.
  induction l as [|x l IH]; intros H; cbn [map Qsum]; [reflexivity|].
  rewrite (H x (or_introl eq_refl)), IH by (intros; apply H; right; auto). reflexivity.
Qed.

Lemma label_water : forall st zres l, (0 < zres)%Q ->
  bluespot_hypsometry_stats QOps Q_int q_inf (- q_inf)%Q (bo_labeled out) (raster_Q dem) zres None 0 = Ok st ->
  1 <= l <= bo_nlabels out -> exists spill cs p h,
    nth_error pps (Z.to_nat l) = Some p /\ nth_error st (Z.to_nat l) = Some (l, h) /\ (forall h', In (l, h') st -> h' = h) /\
    lists_cells (has_label (bo_labeled out) l) cs /\
    (forall c, In c cs -> (0 <= b64_Q (at_ dem c) <= spill)%Q /\ (b64_Q (at_ (do_depths dout) c) == spill - b64_Q (at_ dem c))%Q) /\
    (forall c, In c cs -> (b64_Q (at_ (do_filled dout) c) == spill)%Q) /\
    (forall c, In c cs -> (z_min h <= b64_Q (at_ dem c))%Q) /\
    (pp_vol p == volume_at area (map (at_ (raster_Q dem)) cs) spill)%Q /\
    (pp_dmax p == spill - z_min h)%Q.
Proof.
  intros st zres l Zr Est Hl.
  destruct (pps_stats cc Hcc false fuel fuel' _ _ dem dout t f _ out SO H32 HF HD HB pps EP) as (Sh & Nm & LG & Ln & N0 & St).
  destruct (depths_facts false fuel t1 t5 dem dout SO H32 HF HD) as (Sd & Dp & _).
  pose proof SO as SO'. cbn in SO'. destruct SO' as (Hr & Hc).
  destruct (filled_facts false fuel t1 t5 dem dout SO H32 HF HD) as (Er & Ec & _ & FF & Ge & _ & _).
  pose proof (grid_depths g fuel t1 t5 dem dout Hr Hc H32 HF GD HD) as GQ.
  destruct (process_filter cc Hcc false fuel' t (do_depths dout) (do_flowdir dout) f accum (Some dem) out) as (_ & _ & _ & Bl); auto;
    try (destruct Sd; lia).
  destruct (St l ltac:(lia)) as (p & cs & Ep & Lc & Vp & Dm & D0 & Du). cbv zeta in *.
  assert (Shq : same_shape (raster_Q dem) (bo_labeled out)) by (destruct Sh; split; auto).
  assert (Bd : forall c, inside (nrows (bo_labeled out)) (ncols (bo_labeled out)) c -> (- q_inf < at_ (raster_Q dem) c < q_inf)%Q).
  { intros c _. unfold raster_Q, at_. cbn [rget]. apply b64_Q_bound. }
  destruct (hypsometry_exact (bo_labeled out) (raster_Q dem) zres (bo_nlabels out) q_inf (- q_inf)%Q Shq Nm LG Zr Bd) as (st' & Est' & Esn & _ & Hy).
  assert (st' = st) by congruence. subst st'.
  destruct (Hy l Hl) as (h & cs' & Eh & Lc' & Ls & _). assert (cs' = cs) by (eapply lists_unique; eauto). subst cs'.
  pose proof (stats_labels_n _ _ _ _ _ _ _ _ _ _ Shq (proj1 Nm) LG Esn) as Ms.
  assert (In1 : forall c, In c cs <-> inside (nrows dem) (ncols dem) c /\ at_ (bo_labeled out) c = l).
  { intros c. destruct Lc as [_ Lc]. destruct Sh as [S1 S2]. rewrite S1, S2. apply Lc. }
  destruct Ls as (Lm & Lu). apply in_map_iff in Lm. destruct Lm as (c0 & E0 & Hc0).
  pose proof (proj1 (In1 c0) Hc0) as (I0 & L0).
  set (spill := b64_Q (at_ (do_filled dout) c0)).
  assert (Lev : forall c, In c cs -> (b64_Q (at_ (do_filled dout) c) == spill)%Q).
  { intros c Hc'. pose proof (proj1 (In1 c) Hc') as (Ic & Lcc).
    assert (B : bluespot (do_depths dout) c0 c).
    { destruct Sd as [S1 S2]. apply Bl; rewrite <- ?S1, <- ?S2; auto; try lia. }
    destruct (level_water fuel t1 t5 dem dout Hr Hc H32 HF HD c0 c B) as (Eq & _).
    apply b64_Q_eq in Eq; [symmetry; exact Eq|apply FF|apply FF]; rewrite Er, Ec; auto. }
  assert (Dq : forall c, In c cs -> (0 <= b64_Q (at_ dem c) <= spill)%Q /\ (b64_Q (at_ (do_depths dout) c) == spill - b64_Q (at_ dem c))%Q).
  { intros c Hc'. pose proof (proj1 (In1 c) Hc') as (Ic & Lcc). destruct (GQ c Ic) as (_ & E). rewrite (Lev c Hc') in E.
    split; auto. split; [apply (grid_nonneg g); apply GD; auto|].
    pose proof (Ge c Ic) as G. apply b64_Q_le in G; [|apply HF; auto|apply FF; rewrite Er, Ec; auto]. rewrite (Lev c Hc') in G. exact G. }
  exists spill, cs, p, h. split; auto. split; auto. split; [|split; [auto|split; [exact Dq|split; [exact Lev|split; [|split]]]]].
  - intros h' Hh'. assert (NDs : NoDup (map fst st)) by (rewrite Ms; apply zseq_NoDup).
    apply nth_error_In in Eh. apply In_nth_error in Hh'. destruct Hh' as (i & Hi). apply In_nth_error in Eh. destruct Eh as (j & Hj).
    assert (i = j).
    { rewrite NoDup_nth_error in NDs. apply NDs; [rewrite map_length; apply nth_error_Some; congruence|].
      rewrite !nth_error_map, Hi, Hj. reflexivity. }
    subst j. congruence.
  - intros c Hc'. apply Lu. apply in_map_iff. exists c. auto.
  - rewrite Vp, volume_below.
    + apply Qmult_comp; [apply Qmult_comm|]. rewrite map_map. apply Qsum_ext. intros c Hc'. apply (proj2 (Dq c Hc')).
    + intros z Hz. apply in_map_iff in Hz. destruct Hz as (c & <- & Hc'). apply (Dq c Hc').
  - apply Qle_antisym.
    + destruct Dm as [->|Dm].
      * pose proof (proj1 (Dq c0 Hc0)) as X. rewrite <- E0. change (at_ (raster_Q dem) c0) with (b64_Q (at_ dem c0)). lra.
      * apply in_map_iff in Dm. destruct Dm as (c & Ec' & Hc'). rewrite <- Ec'.
        change (b64_Q (at_ (do_depths dout) c) <= spill - z_min h)%Q. rewrite (proj2 (Dq c Hc')).
        assert (z_min h <= at_ (raster_Q dem) c)%Q by (apply Lu; apply in_map_iff; exists c; auto).
        change (at_ (raster_Q dem) c) with (b64_Q (at_ dem c)) in H. lra.
    + assert (X : (b64_Q (at_ (do_depths dout) c0) <= pp_dmax p)%Q) by (apply Du; apply in_map_iff; exists c0; auto).
      rewrite (proj2 (Dq c0 Hc0)) in X. rewrite <- E0. exact X.
Qed.

(** The level of a bluespot: between bottom and spill level, growing with the volume. *)
Lemma label_sane : forall zres final fo final' fo', (0 < zres)%Q -> lands area out pps dem zres final fo -> lands area out pps dem zres final' fo' ->
  forall c, inside (nrows dem) (ncols dem) c -> at_ (bo_labeled out) c <> 0 ->
  forall o, In o (fo_levels fo) -> lf_bspot o = at_ (bo_labeled out) c ->
  exists p, nth_error pps (Z.to_nat (at_ (bo_labeled out) c)) = Some p /\
  (lf_z o <= b64_Q (at_ (do_filled dout) c))%Q /\
  (pp_vol p <= lf_v o -> lf_z o == b64_Q (at_ (do_filled dout) c))%Q /\
  (lf_v o <= 0 -> lf_z o <= b64_Q (at_ dem c))%Q /\
  (b64_Q (at_ (do_depths dout) c) == b64_Q (at_ (do_filled dout) c) - b64_Q (at_ dem c))%Q /\
  forall o', In o' (fo_levels fo') -> lf_bspot o' = at_ (bo_labeled out) c -> (lf_v o <= lf_v o' -> lf_z o <= lf_z o')%Q.
Proof.
  intros zres final fo final' fo' Zr (st & Est & _ & Lv & _) (st' & Est' & _ & Lv' & _) c Hi Hl o Ho Eo.
  assert (st' = st) by congruence. subst st'.
  destruct (pps_stats cc Hcc false fuel fuel' _ _ dem dout t f _ out SO H32 HF HD HB pps EP) as (Sh & Nm & LG & _).
  assert (Hn : 1 <= at_ (bo_labeled out) c <= bo_nlabels out).
  { destruct Nm as (LI & _). destruct Sh as [S1 S2]. rewrite S1, S2 in Hi. specialize (LI c Hi). lia. }
  set (l := at_ (bo_labeled out) c) in *.
  destruct (label_water st zres l Zr Est Hn) as (spill & cs & p & h & Ep & Eh & Uh & Lc & Dq & Lev & Zm & Vp & Dm).
  assert (Hc : In c cs). { apply Lc. destruct Sh as [S1 S2]. rewrite S1, S2 in Hi. split; auto. }
  assert (Shq : same_shape (raster_Q dem) (bo_labeled out)) by (destruct Sh; split; auto).
  destruct (water_level_sane (bo_labeled out) (raster_Q dem) zres (bo_nlabels out) q_inf (- q_inf)%Q st l h cs area spill (pp_dmax p) (pp_vol p))
    as (W1 & W2); auto.
  { intros d _. unfold raster_Q, at_. cbn [rget]. apply b64_Q_bound. }
  { intros d Hd. apply (Dq d Hd). }
  assert (WL : forall x fo0 (final0 : list (@node Q * option (@event Q))), In x (fo_levels fo0) -> lf_bspot x = l ->
    (forall o, In o (fo_levels fo0) -> (exists nd e, In (nd, Some e) final0 /\ n_id nd = lf_bspot o /\ lf_v o = e_vol e) /\
       exists p h, nth_error pps (Z.to_nat (lf_bspot o)) = Some p /\ In (lf_bspot o, h) st /\
       water_level QOps h area (pp_dmax p) (pp_vol p) (lf_v o) = Ok (lf_z o) /\ lf_dmax o = (lf_z o - z_min h)%Q) ->
    water_level QOps h area (pp_dmax p) (pp_vol p) (lf_v x) = Ok (lf_z x)).
  { intros x fo0 final0 Hx Ex L0. destruct (L0 x Hx) as (_ & p' & h' & A & B & C & _). rewrite Ex in A, B.
    rewrite (Uh h' B) in C. assert (p' = p) by congruence. subst p'. exact C. }
  pose proof (WL o fo final Ho Eo Lv) as Wo. destruct (W1 (lf_v o)) as (L & EL & (B1 & B2) & B3 & B4).
  assert (L = lf_z o) by congruence. subst L.
  exists p. split; auto. rewrite (Lev c Hc). split; auto. split; auto. split.
  { intros X. pose proof (B4 X). pose proof (Zm c Hc). lra. }
  split; [apply (Dq c Hc)|]. intros o' Ho' Eo' V. apply (W2 (lf_v o) (lf_v o')); auto. apply (WL o' fo' final' Ho' Eo' Lv').
Qed.
End Label.

Lemma event_unique : forall (final : list (@node Q * option (@event Q))) a o b o', NoDup (map n_id (map fst final)) ->
  In (a, o) final -> In (b, o') final -> n_id a = n_id b -> a = b /\ o = o'.
Proof.
  intros final a o b o' ND Ha Hb E. rewrite map_map in ND.
  apply In_nth_error in Ha. destruct Ha as (i & Hi). apply In_nth_error in Hb. destruct Hb as (j & Hj).
  assert (i = j).
  { rewrite NoDup_nth_error in ND. apply ND; [rewrite map_length; apply nth_error_Some; congruence|].
    rewrite !nth_error_map, Hi, Hj. cbn [option_map fst]. congruence. }
  subst j. split; congruence.
Qed.

(** ** C64 *)
Theorem final_depths_bounds : forall cc, labels_components cc -> forall t dem f (use_accum : bool) g,
  size_ok false dem -> dem32 dem -> dem_finite dem -> nrows dem * ncols dem <= 2 ^ 53 ->
  square_cells (gt1 t) (gt5 t) = true -> grid_dem g dem -> (0 < Qabs (b64_Q (gt5 t)) * Qabs (b64_Q (gt1 t)))%Q ->
  exists k, forall fuel, (fuel >= k)%nat -> forall mm zres, (0 < zres)%Q ->
  exists a, complete_all false cc fuel t dem f use_accum mm zres = Ok a /\
  forall c, inside (nrows dem) (ncols dem) c ->
    let depth := at_ (fo_depths (ca_finish a)) c in let full := b64_Q (at_ (do_depths (ca_dem a)) c) in
    (0 <= depth <= full)%Q /\
    forall nd e, In (nd, Some e) (co_final (ca_volumes a)) -> at_ (bo_labeled (ca_bluespots a)) c <> 0 ->
      n_id nd = at_ (bo_labeled (ca_bluespots a)) c ->
      (n_cap nd <= e_vol e -> depth == full)%Q /\ (e_vol e <= 0 -> depth == 0)%Q.
Proof.
  intros cc Hcc t dem f use_accum g SO H32 HF Big SQ GD Ar.
  destruct (complete_facts cc Hcc false t dem f use_accum SO H32 HF Big SQ) as (k & K). exists k. intros fuel Fu mm zres Zr.
  destruct (K fuel Fu) as (dout & out & pps & nodes & sts & ED & EB & Ep & ND & At & _ & V).
  destruct (V mm zres Zr) as (final & fo & _ & _ & Mf & Ev & EA & _ & LD).
  destruct (pps_stats cc Hcc false fuel fuel _ _ dem dout t f _ out SO H32 HF ED EB pps Ep) as ([Q1 Q2] & Nm & _).
  destruct (depths_facts false fuel _ _ dem dout SO H32 HF ED) as (Sd & Dp & _).
  eexists. split; [exact EA|]. cbn [ca_dem ca_bluespots ca_finish ca_volumes co_final]. cbv zeta.
  pose proof LD as LD'. destruct LD' as (st & Est & Pm & Lv & S1 & S2 & Cl).
  intros c Hi. pose proof Hi as Hi'. rewrite Q1, Q2 in Hi'. destruct (Cl c Hi') as (C1 & C2).
  assert (P0 : (0 <= b64_Q (at_ dem c))%Q) by (apply (grid_nonneg g); apply GD; auto).
  destruct (Z.eq_dec (at_ (bo_labeled out) c) 0) as [E0|N0].
  - destruct (C1 E0) as (_ & D0). change (at_ (raster_Q dem) c) with (b64_Q (at_ dem c)) in D0. rewrite D0 by lra.
    split; [|congruence]. split; [lra|]. apply b64_Q_nonneg. apply (Dp c Hi).
  - destruct (C2 N0) as (o & Ho & Eo & D1 & _ & D2 & _). change (at_ (raster_Q dem) c) with (b64_Q (at_ dem c)) in D1, D2.
    destruct (label_sane cc Hcc fuel fuel _ _ dem dout t f _ out pps g SO H32 HF ED EB Ep GD Ar zres final fo final fo Zr LD LD c Hi N0 o Ho Eo)
      as (p & Np & B1 & B2 & B3 & B4 & _).
    assert (Dpos : (0 <= b64_Q (at_ (do_depths dout) c))%Q) by (apply b64_Q_nonneg; apply (Dp c Hi)).
    split.
    + destruct (Qlt_le_dec (lf_z o) (b64_Q (at_ dem c))) as [X|X]; [rewrite (D1 X)|rewrite (D2 X)]; split; lra.
    + intros nd e He _ Id. destruct (Lv o Ho) as ((nd' & e' & He' & Id' & Ve) & _).
      assert (NDf : NoDup (map n_id (map fst final))).
      { rewrite Mf. unfold simple_volumes. rewrite !map_map. exact ND. }
      destruct (event_unique final nd (Some e) nd' (Some e') NDf He He' ltac:(congruence)) as (<- & Ee). injection Ee as <-.
      assert (Cap : n_cap nd = pp_vol p).
      { assert (X : In nd (map solver_node (simple_volumes QOps mm nodes))) by (rewrite <- Mf; apply in_map_iff; exists (nd, Some e); auto).
        unfold simple_volumes in X. rewrite map_map in X. apply in_map_iff in X. destruct X as (m & <- & Hm).
        cbn [solver_node n_id n_cap fst] in *.
        destruct Nm as (LI & _). specialize (LI c Hi'). destruct (At m Hm ltac:(lia)) as (p' & A & B & _). rewrite Id in A. congruence. }
      rewrite Cap. split; intros X.
      * rewrite Ve in B2. specialize (B2 X). rewrite D2 by lra. lra.
      * rewrite Ve in B3. specialize (B3 X). destruct (Qlt_le_dec (lf_z o) (b64_Q (at_ dem c))) as [Y|Y]; [apply D1; auto|]. rewrite (D2 Y). lra.
Qed.

(** ** C65 *)
Theorem more_rain_deeper : forall cc, labels_components cc -> forall t dem f (use_accum : bool) g,
  size_ok false dem -> dem32 dem -> dem_finite dem -> nrows dem * ncols dem <= 2 ^ 53 ->
  square_cells (gt1 t) (gt5 t) = true -> grid_dem g dem -> (0 < Qabs (b64_Q (gt5 t)) * Qabs (b64_Q (gt1 t)))%Q ->
  exists k, forall fuel, (fuel >= k)%nat -> forall mm mm' zres, (0 < zres)%Q -> (mm <= mm')%Q ->
  exists a a', complete_all false cc fuel t dem f use_accum mm zres = Ok a /\
    complete_all false cc fuel t dem f use_accum mm' zres = Ok a' /\
  forall c, inside (nrows dem) (ncols dem) c ->
    (at_ (fo_depths (ca_finish a)) c <= at_ (fo_depths (ca_finish a')) c)%Q /\
    (at_ (fo_labels (ca_finish a)) c <> 0 -> at_ (fo_labels (ca_finish a')) c = at_ (fo_labels (ca_finish a)) c).
Proof.
  intros cc Hcc t dem f use_accum g SO H32 HF Big SQ GD Ar.
  destruct (complete_facts cc Hcc false t dem f use_accum SO H32 HF Big SQ) as (k & K). exists k. intros fuel Fu mm mm' zres Zr Mm.
  destruct (K fuel Fu) as (dout & out & pps & nodes & sts & ED & EB & Ep & ND & At & Pos & V).
  destruct (V mm zres Zr) as (final & fo & AC & Pr & Mf & Ev & EA & _ & LD).
  destruct (V mm' zres Zr) as (final' & fo' & AC' & Pr' & Mf' & Ev' & EA' & _ & LD').
  destruct (pps_stats cc Hcc false fuel fuel _ _ dem dout t f _ out SO H32 HF ED EB pps Ep) as ([Q1 Q2] & Nm & _).
  eexists. eexists. split; [exact EA|]. split; [exact EA'|]. cbn [ca_finish]. clear EA EA'.
  assert (UI : forall x, unique_ids (map solver_node (simple_volumes QOps x nodes))).
  { intros x. unfold unique_ids, simple_volumes. rewrite !map_map. exact ND. }
  (* more water in every bluespot *)
  assert (Mono : forall nd e nd' e', In (nd, Some e) final -> In (nd', Some e') final' -> n_id nd = n_id nd' -> (e_vol e <= e_vol e')%Q).
  { destruct (process_spec _ _ _ _ Pr) as (M & evs & R & A & _). destruct (process_spec _ _ _ _ Pr') as (M' & evs' & R' & A' & _).
    rewrite index_unique in R, R' by apply UI.
    intros nd e nd' e' H H' E. destruct (A nd e H) as (I & Ie & _). destruct (A' nd' e' H') as (I' & Ie' & _).
    apply (more_rain _ _ _ _ evs evs' (UI mm)) with (2 := R) (3 := R'); auto; [|congruence].
    clear - Mm Pos. unfold simple_volumes. rewrite !map_map. induction nodes as [|n ns IH]; cbn [map]; constructor.
    - cbn [solver_node n_id n_dstr n_cap n_water fst snd]. split; auto. split; auto. split; [reflexivity|].
      destruct (Pos n (or_introl eq_refl)) as (_ & W). change (nmul QOps) with Qmult.
      assert (0 < milli QOps)%Q by reflexivity. apply Qmult_le_compat_r; [|lra]. rewrite !(Qmult_comm (nf_wshed n)). apply Qmult_le_compat_r; auto.
    - apply IH. intros nd Hn. apply Pos. right; auto. }
  pose proof LD as LD1. destruct LD1 as (st & Est & Pm & Lv & _ & _ & Cl).
  pose proof LD' as LD1. destruct LD1 as (st' & Est' & Pm' & Lv' & _ & _ & Cl').
  intros c Hi. pose proof Hi as Hi'. rewrite Q1, Q2 in Hi'. destruct (Cl c Hi') as (C1 & C2). destruct (Cl' c Hi') as (C1' & C2').
  assert (P0 : (0 <= b64_Q (at_ dem c))%Q) by (apply (grid_nonneg g); apply GD; auto).
  change (at_ (raster_Q dem) c) with (b64_Q (at_ dem c)) in *.
  destruct (Z.eq_dec (at_ (bo_labeled out) c) 0) as [E0|N0].
  - destruct (C1 E0) as (L0 & D0). destruct (C1' E0) as (L0' & D0'). rewrite D0, D0' by lra. split; [lra|]. congruence.
  - destruct (C2 N0) as (o & Ho & Eo & D1 & D2 & D3 & D4). destruct (C2' N0) as (o' & Ho' & Eo' & D1' & D2' & D3' & D4').
    destruct (label_sane cc Hcc fuel fuel _ _ dem dout t f _ out pps g SO H32 HF ED EB Ep GD Ar zres final fo final' fo' Zr LD LD' c Hi N0 o Ho Eo)
      as (p & Np & _ & _ & _ & _ & Up).
    assert (Z : (lf_z o <= lf_z o')%Q).
    { apply Up; auto. destruct (Lv o Ho) as ((nd & e & He & Id & ->) & _). destruct (Lv' o' Ho') as ((nd' & e' & He' & Id' & ->) & _).
      apply (Mono nd e nd' e'); auto. congruence. }
    destruct (Qlt_le_dec (lf_z o) (b64_Q (at_ dem c))) as [X|X], (Qlt_le_dec (lf_z o') (b64_Q (at_ dem c))) as [Y|Y]; try (exfalso; lra).
    + rewrite (D1 X), (D1' Y), (D2 X), (D2' Y). split; [lra|auto].
    + rewrite (D1 X), (D3' Y), (D2 X). split; [lra|]. intros N. exfalso. apply N. reflexivity.
    + rewrite (D3 X), (D3' Y), (D4 X), (D4' Y). split; [lra|auto].
Qed.

(** ** C66 *)
Theorem water_within_capacity : forall cc, labels_components cc -> forall t dem f (use_accum : bool) g,
  size_ok false dem -> dem32 dem -> dem_finite dem -> nrows dem * ncols dem <= 2 ^ 53 ->
  square_cells (gt1 t) (gt5 t) = true -> grid_dem g dem -> (0 < Qabs (b64_Q (gt5 t)) * Qabs (b64_Q (gt1 t)))%Q ->
  exists k, forall fuel, (fuel >= k)%nat -> forall mm zres, (0 < zres)%Q ->
  exists a, complete_all false cc fuel t dem f use_accum mm zres = Ok a /\
  forall nd e cs, In (nd, Some e) (co_final (ca_volumes a)) -> 1 <= n_id nd <= bo_nlabels (ca_bluespots a) ->
    lists_cells (has_label (bo_labeled (ca_bluespots a)) (n_id nd)) cs ->
    let water := (Qabs (b64_Q (gt5 t)) * Qabs (b64_Q (gt1 t)) * Qsum (map (at_ (fo_depths (ca_finish a))) cs))%Q in
    (0 <= water <= n_cap nd)%Q /\ (n_cap nd <= e_vol e -> water == n_cap nd)%Q /\ (e_vol e <= 0 -> water == 0)%Q.
Proof.
  intros cc Hcc t dem f use_accum g SO H32 HF Big SQ GD Ar.
  destruct (complete_facts cc Hcc false t dem f use_accum SO H32 HF Big SQ) as (k & K).
  destruct (final_depths_bounds cc Hcc t dem f use_accum g SO H32 HF Big SQ GD Ar) as (k' & K').
  exists (Nat.max k k'). intros fuel Fu mm zres Zr.
  destruct (K fuel ltac:(lia)) as (dout & out & pps & nodes & sts & ED & EB & Ep & ND & At & _ & V).
  destruct (V mm zres Zr) as (final & fo & _ & _ & Mf & _ & EA & _ & _).
  destruct (K' fuel ltac:(lia) mm zres Zr) as (a & EA' & B). rewrite EA in EA'. injection EA' as <-.
  cbn [ca_dem ca_bluespots ca_finish ca_volumes co_final] in B. cbv zeta in B.
  destruct (pps_stats cc Hcc false fuel fuel _ _ dem dout t f _ out SO H32 HF ED EB pps Ep) as ([Q1 Q2] & Nm & _ & _ & _ & St).
  eexists. split; [exact EA|]. cbn [ca_dem ca_bluespots ca_finish ca_volumes co_final]. intros nd e cs He Hn Lc. cbv zeta.
  set (area := (Qabs (b64_Q (gt5 t)) * Qabs (b64_Q (gt1 t)))%Q) in *.
  destruct (St (n_id nd) ltac:(lia)) as (p & cs' & Np & Lc' & Vp & _). assert (cs' = cs) by (eapply lists_unique; eauto). subst cs'.
  assert (Cap : (n_cap nd == area * Qsum (map (fun c => b64_Q (at_ (do_depths dout) c)) cs))%Q).
  { assert (X : In nd (map solver_node (simple_volumes QOps mm nodes))) by (rewrite <- Mf; apply in_map_iff; exists (nd, Some e); auto).
    unfold simple_volumes in X. rewrite map_map in X. apply in_map_iff in X. destruct X as (m & <- & Hm).
    cbn [solver_node n_id n_cap fst] in *. destruct (At m Hm ltac:(lia)) as (p' & A & -> & _).
    assert (p' = p) by congruence. subst p'. rewrite Vp. apply Qmult_comp; [apply Qmult_comm|]. apply Qsum_ext. intros; reflexivity. }
  assert (Cell : forall c, In c cs -> inside (nrows dem) (ncols dem) c /\ at_ (bo_labeled out) c = n_id nd).
  { intros c Hc. apply Lc in Hc. rewrite Q1, Q2. exact Hc. }
  rewrite Cap. split; [|split].
  - assert (S0 : (0 <= Qsum (map (at_ (fo_depths fo)) cs) <= Qsum (map (fun c => b64_Q (at_ (do_depths dout) c)) cs))%Q).
    { assert (Bc : forall c, In c cs -> (0 <= at_ (fo_depths fo) c <= b64_Q (at_ (do_depths dout) c))%Q) by (intros c Hc; apply B; apply Cell; auto).
      clear - Bc. induction cs as [|c cs IH]; cbn [map Qsum]; [split; lra|].
      pose proof (Bc c (or_introl eq_refl)). destruct IH as [X Y]; [intros; apply Bc; right; auto|]. split; lra. }
    split; nra.
  - intros X. apply Qmult_comp; [reflexivity|]. apply Qsum_ext. intros c Hc. destruct (Cell c Hc) as (I & E).
    apply (proj2 (B c I) nd e He); [lia|auto|]. rewrite Cap. exact X.
  - intros X. setoid_replace (Qsum (map (at_ (fo_depths fo)) cs)) with 0%Q; [ring|].
    rewrite (Qsum_ext _ (fun _ => 0%Q)); [clear; induction cs; cbn [map Qsum]; lra|]. intros c Hc. destruct (Cell c Hc) as (I & E).
    apply (proj2 (B c I) nd e He); [lia|auto|auto].
Qed.

(** ** Concrete runs *)
Lemma rain_grid : grid_dem 0 rain_dem.
Proof.
  split; [lia|]. intros [i j] Hi. unfold inside in Hi. cbn in Hi.
  assert (I : In (i, j) (cells_of 3 6)) by (apply in_cells_of; exact Hi).
  vm_compute in I. unfold on_grid.
  repeat (destruct I as [I|I]; [injection I as <- <-;
    match goal with |- context [b64_Q ?x] => let q := eval vm_compute in (Qred (b64_Q x)) in exists (Qnum q) end;
    split; [cbn; lia|vm_compute; reflexivity]|]).
  destruct I.
Qed.

Definition at_run (r : res complete_all_out) (p : complete_all_out -> bool) : bool :=
  match r with Ok a => p a | _ => false end.

(** 100 mm: 0.8 m3 in each of the two bluespots of one cell and 8 m3, none of it in the raster *)
Definition dry_run (mm : Q) := complete_all false cc_memo 20 ex_gt rain_dem all_pass true mm 1%Q.

Theorem water_lost : exists a, dry_run 100%Q = Ok a /\
  (exists nd e, In (nd, Some e) (co_final (ca_volumes a)) /\ n_id nd = 1 /\ (e_vol e == 4 # 5)%Q /\ (n_cap nd == 8)%Q) /\
  forall c, inside 3 6 c -> (at_ (fo_depths (ca_finish a)) c == 0)%Q.
Proof.
  assert (X : at_run (dry_run 100%Q) (fun a =>
    match co_final (ca_volumes a) with
    | [_; (n, Some e); _] => (n_id n =? 1) && Qeq_bool (e_vol e) (4 # 5) && Qeq_bool (n_cap n) 8
    | _ => false end &&
    forallb (fun c => Qeq_bool (at_ (fo_depths (ca_finish a)) c) 0) (cells_of 3 6)) = true) by (vm_compute; reflexivity).
  destruct (dry_run 100%Q) as [a| |]; try discriminate X. cbn [at_run] in X. exists a. split; [reflexivity|].
  apply andb_prop in X. destruct X as [X Y]. rewrite forallb_forall in Y. split.
  - destruct (co_final (ca_volumes a)) as [|n0 [|[n [e|]] [|n2 [|]]]]; try discriminate X.
    apply andb_prop in X. destruct X as [X X3]. apply andb_prop in X. destruct X as [X1 X2].
    exists n, e. split; [right; left; auto|]. split; [apply Z.eqb_eq; auto|]. split; apply Qeq_bool_iff; auto.
  - intros c Hc. apply Qeq_bool_iff. apply Y. apply in_cells_of. exact Hc.
Qed.

(** no rain at all *)
Theorem dry_marked : exists a, dry_run 0%Q = Ok a /\ at_ (fo_labels (ca_finish a)) (1, 1) = 1 /\
  (at_ (fo_depths (ca_finish a)) (1, 1)%Z == 0)%Q /\ forall nd e, In (nd, Some e) (co_final (ca_volumes a)) -> (e_vol e == 0)%Q.
Proof.
  assert (X : at_run (dry_run 0%Q) (fun a => (at_ (fo_labels (ca_finish a)) (1, 1) =? 1) &&
    Qeq_bool (at_ (fo_depths (ca_finish a)) (1, 1)) 0 &&
    forallb (fun p => match snd p with Some e => Qeq_bool (e_vol e) 0 | None => true end) (co_final (ca_volumes a))) = true)
    by (vm_compute; reflexivity).
  destruct (dry_run 0%Q) as [a| |]; try discriminate X. cbn [at_run] in X. exists a. split; [reflexivity|].
  apply andb_prop in X. destruct X as [X X3]. apply andb_prop in X. destruct X as [X1 X2]. rewrite forallb_forall in X3.
  split; [apply Z.eqb_eq; auto|]. split; [apply Qeq_bool_iff; auto|].
  intros nd e He. apply Qeq_bool_iff. apply (X3 _ He).
Qed.

(** Depths rounded to float32: 2^26 - 1 becomes 2^26 *)
Definition round_dem : raster b64 := zrows [[2^27; 2^27; 2^27; 2^27]; [2^26; 1; 2^25; 2^27]; [2^27; 2^27; 2^27; 2^27]].
Definition round_run := complete_all false cc_memo 20 ex_gt round_dem all_pass true (1000 * inject_Z (2 ^ 28))%Q (inject_Z (2 ^ 20)).

Lemma round_dem_ok : dem32 round_dem /\ dem_finite round_dem.
Proof. apply dem_ok. vm_compute. reflexivity. Qed.

Theorem rounding_overflow : exists a, dem32 round_dem /\ dem_finite round_dem /\ size_ok false round_dem /\ round_run = Ok a /\
  (b64_Q (at_ (do_depths (ca_dem a)) (1, 2)%Z) == inject_Z (2 ^ 25))%Q /\
  (at_ (fo_depths (ca_finish a)) (1, 2)%Z == inject_Z (2 ^ 25 + 1))%Q.
Proof.
  assert (X : at_run round_run (fun a => Qeq_bool (b64_Q (at_ (do_depths (ca_dem a)) (1, 2))) (inject_Z (2 ^ 25)) &&
    Qeq_bool (at_ (fo_depths (ca_finish a)) (1, 2)) (inject_Z (2 ^ 25 + 1))) = true) by (vm_compute; reflexivity).
  destruct round_run as [a| |]; try discriminate X. cbn [at_run] in X. exists a. apply andb_prop in X. destruct X as [X1 X2].
  split; [apply round_dem_ok|]. split; [apply round_dem_ok|]. split; [cbn; lia|]. split; [reflexivity|].
  split; apply Qeq_bool_iff; auto.
Qed.

(** ** C67 *)
Theorem wet_marked : forall cc, labels_components cc -> forall sp t dem f (use_accum : bool),
  size_ok sp dem -> dem32 dem -> dem_finite dem -> nrows dem * ncols dem <= 2 ^ 53 ->
  square_cells (gt1 t) (gt5 t) = true ->
  exists k, forall fuel, (fuel >= k)%nat -> forall mm zres, (0 < zres)%Q ->
  exists a, complete_all sp cc fuel t dem f use_accum mm zres = Ok a /\
  forall c, inside (nrows dem) (ncols dem) c ->
    ((0 < at_ (fo_depths (ca_finish a)) c)%Q -> (-999 <= b64_Q (at_ dem c))%Q ->
       at_ (bo_labeled (ca_bluespots a)) c <> 0 /\ at_ (fo_labels (ca_finish a)) c = at_ (bo_labeled (ca_bluespots a)) c) /\
    (at_ (fo_labels (ca_finish a)) c <> 0 -> at_ (fo_labels (ca_finish a)) c = at_ (bo_labeled (ca_bluespots a)) c).
Proof.
  intros cc Hcc sp t dem f use_accum SO H32 HF Big SQ.
  destruct (complete_succeeds cc Hcc sp t dem f use_accum SO H32 HF Big SQ) as (k & K). exists k. intros fuel Fu mm zres Zr.
  destruct (K fuel Fu mm zres Zr) as (a & EA & _ & _ & _ & _ & _ & Cl). exists a. split; auto.
  intros c Hi. destruct (Cl c Hi) as (C1 & C2). destruct (Z.eq_dec (at_ (bo_labeled (ca_bluespots a)) c) 0) as [E|N].
  - destruct (C1 E) as (L & D). split; [|congruence]. intros W G. exfalso. rewrite (D G) in W. lra.
  - destruct (C2 N) as (o & _ & _ & A & B). destruct (Qlt_le_dec (lf_z o) (b64_Q (at_ dem c))) as [X|X].
    + destruct (A X) as (D & L). split; [|congruence]. intros W. exfalso. rewrite D in W. lra.
    + destruct (B X) as (D & L). split; auto.
Qed.

(** Compiled functions: the deepest cells of the bluespot are filled to 3 and the cell at 8 to 10. Just below capacity
    the level is found by interpolating up to 8, at capacity it is 0 + 3. *)
Definition shallow_dem : raster b64 := zrows [[10; 10; 10; 3]; [10; 10; 0; 10]; [10; 0; 8; 10]; [10; 10; 10; 10]].
Definition shallow_run (mm : Q) := complete_all true cc_memo 20 ex_gt shallow_dem all_pass true mm 1%Q.

Lemma shallow_grid : grid_dem 0 shallow_dem.
Proof.
  split; [lia|]. intros [i j] Hi. unfold inside in Hi. cbn in Hi.
  assert (I : In (i, j) (cells_of 4 4)) by (apply in_cells_of; exact Hi).
  vm_compute in I. unfold on_grid.
  repeat (destruct I as [I|I]; [injection I as <- <-;
    match goal with |- context [b64_Q ?x] => let q := eval vm_compute in (Qred (b64_Q x)) in exists (Qnum q) end;
    split; [cbn; lia|vm_compute; reflexivity]|]).
  destruct I.
Qed.

Lemma shallow_dem_ok : dem32 shallow_dem /\ dem_finite shallow_dem.
Proof. apply dem_ok. vm_compute. reflexivity. Qed.

Theorem more_rain_shallower : exists a a', shallow_run 1990%Q = Ok a /\ shallow_run 5000%Q = Ok a' /\
  inside 4 4 (1, 2) /\ (b64_Q (at_ (do_depths (ca_dem a)) (1, 2)%Z) == 3)%Q /\
  (at_ (fo_depths (ca_finish a)) (1, 2)%Z == 448 # 100)%Q /\ (at_ (fo_depths (ca_finish a')) (1, 2)%Z == 3)%Q.
Proof.
  assert (X : at_run (shallow_run 1990%Q) (fun a =>
    Qeq_bool (b64_Q (at_ (do_depths (ca_dem a)) (1, 2))) 3 && Qeq_bool (at_ (fo_depths (ca_finish a)) (1, 2)) (448 # 100)) = true)
    by (vm_compute; reflexivity).
  assert (Y : at_run (shallow_run 5000%Q) (fun a => Qeq_bool (at_ (fo_depths (ca_finish a)) (1, 2)) 3) = true)
    by (vm_compute; reflexivity).
  destruct (shallow_run 1990%Q) as [a| |]; try discriminate X. cbn [at_run] in X.
  destruct (shallow_run 5000%Q) as [a'| |]; try discriminate Y. cbn [at_run] in Y.
  exists a, a'. split; [reflexivity|]. split; [reflexivity|]. split; [unfold inside; cbn; lia|].
  apply andb_prop in X. destruct X as [X1 X2]. split; [|split]; apply Qeq_bool_iff; assumption.
Qed.
