(** * initvolumes -pr in the chain of commands *)

From Coq Require Import QArith Qabs String Permutation.
From Verif Require Import Base BaseProofs Num Float64 Dict DictProofs FillSpec DemModel DemProofs AccumProofs LabelModel LabelSpec CompSpec CompProofs VectorModel
  BluespotModel BluespotSpec BluespotProofs LevelProofs BluespotThms NetModel NetSpec NetworkModel NetworkSpec NetworkThms RainModel RainProofs RainThms
  PipelineModel HypsModel ApproxModel CompleteModel CompleteProofs CompleteThms StepModel StepThms OgrModel OgrSpec OgrThms RerunThms CmdModel CmdSpec CmdThms
  RasterRainThms PrModel.
Local Open Scope Z_scope.
Local Open Scope list_scope.

Lemma raster_tool_ok : forall t labels water u attribute nodes gs vols, ~ In attribute reserved ->
  Forall2 (fun n g => has g (node_attrs n)) nodes gs ->
  raster_volumes QOps 0%Q 0%Q t labels water u nodes = Ok vols ->
  exists vs, raster_volume_tool t labels water u attribute gs = Ok vs /\ Forall2 (volume_full attribute) vols vs.
Proof.
  intros t labels water u attribute nodes gs vols R F E. unfold raster_volume_tool. unfold raster_volumes in E.
  destruct (negb _); [discriminate|]. apply bind_ok in E. destruct E as (stats & -> & E). cbn [bind]. cbv zeta in *.
  set (volumes := map _ stats) in *. set (max_id := Z.of_nat (length volumes) - 1) in *.
  revert E. apply (mmap_rel (fun n g => has g (node_attrs n)) (volume_full attribute)) with (2 := F).
  intros n g nv H En.
  assert (X : exists v, nv = (n, v) /\ (if nf_id n <=? max_id then list_rd volumes (nf_id n) else Ok (nofZ QOps 0)) = Ok v).
  { destruct (nf_id n <=? max_id); [apply bind_ok in En; destruct En as (v & Ev & En); injection En as <-; eauto|injection En as <-; eauto]. }
  clear En. destruct X as (v & -> & Ev). unfold get_index.
  rewrite (prop_has g _ "nodeid"%string (int_ (nf_id n)) H) by pick. cbn [bind int_]. rewrite Ev. cbn [bind].
  eexists. split; [reflexivity|]. split.
  - cbn [fst snd].
    assert (A : forall a w, In a reserved -> In (a, w) (node_attrs n) -> dget String.eqb (dset String.eqb g attribute (Some (VReal v))) a = Some w).
    { intros a w I J. rewrite (dget_dset_other String.eqb String.eqb_spec) by (intros ->; contradiction). eapply has_in; eauto. }
    unfold has. repeat constructor; cbn [fst snd]; try (apply A; pick). apply (dget_dset_same String.eqb String.eqb_spec).
  - unfold get_float, prop, dget_err. destruct (String.eqb_spec attribute "wshed_area") as [->|N].
    + rewrite (dget_dset_same String.eqb String.eqb_spec). cbn [bind py_float]. eauto.
    + rewrite (dget_dset_other String.eqb String.eqb_spec) by exact N.
      rewrite (has_in g _ "wshed_area"%string (real_ (nf_wshed n)) H) by pick. cbn [bind py_float real_]. eauto.
Qed.

Theorem pr_agrees : forall fuel t dem flowdir labels water pr u pps nodes streams vols zres final fin attribute L ws,
  stream_process QOps fuel (gt_Q t) flowdir labels pps true = Ok (nodes, streams) ->
  raster_volumes QOps 0%Q 0%Q (gt_Q t) water (raster_Q (load None pr)) u nodes = Ok vols ->
  process QOps (length vols) (map solver_node vols) = Ok final ->
  finish t dem labels pps vols final zres = Ok fin ->
  names_ok L ws -> ~ In attribute reserved ->
  exists ds, vector_steps_pr fuel t dem flowdir labels water pr u zres attribute L
               (write_features (after ws) (l_pourpoints L) (map pourpoint_props pps)) = Ok (ds, fo_depths fin, fo_labels fin) /\
    layer_shows ds (l_pourpoints L) pourpoint_props pps /\
    layer_shows ds (l_nodes L) node_attrs nodes /\
    layer_shows ds (l_streams L) stream_attrs streams /\
    layer_shows ds (l_init L) (volume_attrs attribute) vols /\
    layer_shows ds (l_final L) final_attrs final /\
    layer_shows ds (l_hyps L) hyps_attrs (fo_hyps fin) /\
    layer_shows ds (l_levels L) level_attrs (fo_levels fin).
Proof.
  intros fuel t dem flowdir labels water pr u pps nodes streams vols zres final fin attribute L ws Es Er Ep Ef (ND & NE & Ws) Ra.
  destruct L as [p n s i f h l]. cbn [l_pourpoints l_nodes l_streams l_init l_final l_hyps l_levels] in *.
  assert (N0 : forall a, In a [p; n; s; i; f; h; l] -> a <> ""%string) by (intros a Ha ->; contradiction).
  assert (W0 : forall a, In a [p; n; s; i; f; h; l] -> written a ws = []).
  { intros a Ha. apply written_none. intros w Hw E. apply (Ws w Hw). rewrite E. exact Ha. }
  clear NE Ws.
  repeat (match goal with H : NoDup (_ :: _) |- _ => apply NoDup_cons_iff in H; destruct H end).
  cbn [In] in *.
  unfold finish in Ef. apply bind_ok in Ef. destruct Ef as (hfs & Eh & Ef).
  fold (pp_index_of pps) in Ef. apply bind_ok in Ef. destruct Ef as (his & Ei & Ef).
  apply bind_ok in Ef. destruct Ef as (ffs & Eff & Ef). apply bind_ok in Ef. destruct Ef as (levels & El & Ef).
  apply bind_ok in Ef. destruct Ef as ([od ol] & Eb & Ef).
  destruct od as [depths|]; [|discriminate Ef]. destruct ol as [flabels|]; [|discriminate Ef]. injection Ef as <-.
  cbn [fo_depths fo_labels fo_hyps fo_levels].
  (* pour points *)
  rewrite after_snoc. set (P := map pourpoint_props pps). set (w1 := ws ++ [(p, P)]).
  assert (FP : Forall2 (fun q g => has g (pourpoint_props q)) pps P).
  { apply Forall2_self. intros q. unfold has, pourpoint_props. repeat constructor. }
  assert (Kh : forall (A : Type) (at_of : A -> list (string * option value)) r f0 g, keeps f0 g -> has f0 (at_of r) -> has g (at_of r)).
  { intros A at_of r f0 g K Hh. eapply has_keeps; eauto. }
  unfold vector_steps_pr. cbn [l_pourpoints l_nodes l_streams l_init l_final l_hyps l_levels].
  (* network *)
  rd W0 N0 w1 p P g1 R1 K1. pose proof (keeps_full _ _ _ _ (Kh _ pourpoint_props) FP K1) as F1.
  destruct (network_tool_ok _ _ _ _ _ _ _ _ Es F1) as (N & S & En & FN & FS).
  unfold cmd_network at 1. rewrite R1. cbn [bind]. rewrite En. cbn [bind]. rewrite !after_snoc.
  set (w2 := (w1 ++ [(n, N)]) ++ [(s, S)]).
  (* initvolumes *)
  rd W0 N0 w2 n N g2 R2 K2. pose proof (keeps_full _ _ _ _ (Kh _ node_attrs) FN K2) as F2.
  destruct (raster_tool_ok _ _ _ _ _ _ _ _ Ra F2 Er) as (V & EV & FV).
  unfold cmd_initvolumes_raster at 1.
  assert (Us : initvolumes_source QOps None true true = Ok Use_raster) by reflexivity.
  rewrite Us. cbn [bind]. rewrite R2. cbn [bind]. rewrite EV. cbn [bind]. rewrite after_snoc. set (w3 := w2 ++ [(i, V)]).
  (* finalvolumes *)
  rd W0 N0 w3 i V g3 R3 K3.
  assert (F3 : Forall2 (volume_full attribute) vols g3).
  { eapply keeps_full; [|exact FV|exact K3]. intros r a b K (A & q & B). split; [eapply has_keeps; eauto|].
    exists q. eapply get_float_keeps; eauto. }
  destruct (final_tool_ok attribute vols g3 final Ra F3 Ep) as (Ln & Mf & FF & EF & FFF).
  unfold cmd_finalvolumes at 1. rewrite R3. cbn [bind]. rewrite EF. cbn [bind]. rewrite after_snoc. set (w4 := w3 ++ [(f, FF)]).
  (* hyps *)
  rd W0 N0 w4 p P g4 R4 K4. pose proof (keeps_full _ _ _ _ (Kh _ pourpoint_props) FP K4) as F4.
  destruct (hyps_tool_ok t labels dem zres pps g4 hfs his F4 Eh Ei) as (HH & EH & FH).
  unfold cmd_hyps at 1. rewrite R4. cbn [bind]. rewrite EH. cbn [bind]. rewrite after_snoc. set (w5 := w4 ++ [(h, HH)]).
  (* finallevels *)
  rd W0 N0 w5 f FF g5 R5 K5. rd W0 N0 w5 h HH g6 R6 K6.
  assert (F5 : Forall2 final_full (combine (map snd (nv_index vols)) final) g5).
  { eapply keeps_full; [|exact FFF|exact K5]. intros r a b K (A & B). split; eapply has_keeps; eauto. }
  pose proof (keeps_full _ _ _ _ (Kh _ hyps_attrs) FH K6) as F6.
  pose proof (ffs_rel vols final g5 ffs Mf F5 Eff) as F5'.
  destruct (levels_tool_ok ffs his g5 g6 levels F5' F6 El) as (LL & EL & FL).
  unfold cmd_finallevels at 1. rewrite R5. cbn [bind]. rewrite R6. cbn [bind]. rewrite EL. cbn [bind]. rewrite after_snoc.
  set (w6 := w5 ++ [(l, LL)]).
  (* finalbluespots *)
  rd W0 N0 w6 l LL g7 R7 K7. pose proof (keeps_full _ _ _ _ (Kh _ level_full) FL K7) as F7.
  unfold cmd_finalbluespots. rewrite R7. cbn [bind]. unfold bluespots_tool. rewrite (read_levels_ok _ _ F7). cbn [bind].
  rewrite Eb. cbn [bind]. eexists. split; [reflexivity|].
  (* the layers in the end *)
  rd W0 N0 w6 p P z1 Z1 Y1. rd W0 N0 w6 n N z2 Z2 Y2. rd W0 N0 w6 s S z3 Z3 Y3. rd W0 N0 w6 i V z4 Z4 Y4.
  rd W0 N0 w6 f FF z5 Z5 Y5. rd W0 N0 w6 h HH z6 Z6 Y6.
  split; [exists z1; split; [exact Z1|exact (keeps_full _ _ _ _ (Kh _ pourpoint_props) FP Y1)]|].
  split; [exists z2; split; [exact Z2|exact (keeps_full _ _ _ _ (Kh _ node_attrs) FN Y2)]|].
  split; [exists z3; split; [exact Z3|exact (keeps_full _ _ _ _ (Kh _ stream_attrs) FS Y3)]|].
  split.
  { exists z4. split; [exact Z4|]. apply (keeps_full _ _ _ _ (Kh _ (volume_attrs attribute))) with (2 := Y4).
    eapply Forall2_weaken; [|exact FV]. intros nv g (A & _). eapply has_incl; [exact A|]. intros x Hx. cbn in Hx |- *. tauto. }
  split.
  { exists z5. split; [exact Z5|]. apply (keeps_full _ _ _ _ (Kh _ final_attrs)) with (2 := Y5).
    clear - FFF Mf. revert final FF Mf FFF. induction (map snd (nv_index vols)) as [|nv ix IH]; intros final FF Mf FFF.
    - destruct final; [|discriminate Mf]. inversion FFF. constructor.
    - destruct final as [|x final]; [discriminate Mf|]. cbn [combine] in FFF. inversion FFF; subst. constructor; [apply H1|].
      apply IH; [cbn [map] in Mf; congruence|assumption]. }
  split; [exists z6; split; [exact Z6|exact (keeps_full _ _ _ _ (Kh _ hyps_attrs) FH Y6)]|].
  exists g7. split; [exact R7|]. eapply Forall2_weaken; [|exact F7]. intros x g A. inversion A; subst. assumption.
Qed.


(** ** From the terrain to the final rasters *)
Lemma lab_facts : forall cc, labels_components cc -> forall sp fuel dem dout t f accum out lab,
  size_ok sp dem -> dem32 dem -> dem_finite dem -> dem_process sp fuel (gt1 t) (gt5 t) dem = Ok dout ->
  bluespot_process sp cc fuel t (do_depths dout) (do_flowdir dout) (Some f) accum (Some dem) = Ok out ->
  lab = bo_labeled out \/ lab = bo_watersheds out ->
  same_shape dem lab /\ labels_in lab (bo_nlabels out) /\ largest_label lab (bo_nlabels out).
Proof.
  intros cc Hcc sp fuel dem dout t f accum out lab SO H32 HF ED EB HL.
  assert (H1 : 1 <= nrows dem) by (destruct sp; cbn in SO; lia). assert (H2 : 1 <= ncols dem) by (destruct sp; cbn in SO; lia).
  destruct (dem_flow sp fuel _ _ dem dout SO H32 HF ED) as (Sf & D & _).
  destruct (depths_facts sp fuel _ _ dem dout SO H32 HF ED) as (Sd & _ & _).
  assert (Hr : 1 <= nrows (do_depths dout)) by (destruct Sd as [<- _]; lia).
  assert (Hc : 1 <= ncols (do_depths dout)) by (destruct Sd as [_ <-]; lia).
  destruct (process_filter cc Hcc sp _ _ _ _ _ _ _ _ Hr Hc EB) as (Sh & Nm & _).
  assert (X : same_shape dem lab /\ numbered lab (bo_nlabels out)).
  { assert (Sl : same_shape dem (bo_labeled out)) by (destruct Sh, Sd; split; congruence).
    destruct HL as [->| ->]; auto.
    destruct (run_inv cc Hcc sp _ _ _ _ _ _ _ _ Hr Hc EB) as (st & new & bst & wst & pix & _ & _ & _ & _ & E3 & E4 & _).
    assert (Sl' : same_shape (do_flowdir dout) (bo_labeled out)) by (destruct Sl, Sf; split; congruence).
    rewrite watersheds_either in E4 by (auto; destruct Sf; lia).
    destruct (watersheds_numbered fuel _ _ _ _ D Sl' ltac:(destruct Sf; lia) ltac:(destruct Sf; lia) Nm E4) as [Sww Nw].
    split; auto. destruct Sww, Sl, Sl'; split; congruence. }
  destruct X as [SL NL]. split; [exact SL|]. split; [apply NL|]. apply numbered_largest; auto; destruct SL; lia.
Qed.

Theorem raster_rain_chain : forall cc, labels_components cc ->
  forall sp t dem f (use_accum : bool) pr u,
  size_ok sp dem -> dem32 dem -> dem_finite dem -> nrows dem * ncols dem <= 2 ^ 53 ->
  square_cells (gt1 t) (gt5 t) = true -> same_shape dem (rf_data pr) ->
  exists k, forall fuel, (fuel >= k)%nat -> exists dout out pps nodes sts,
  dem_process sp fuel (gt1 t) (gt5 t) dem = Ok dout /\
  bluespot_process sp cc fuel t (do_depths dout) (do_flowdir dout) (Some f)
    (if use_accum then Some (accum64 (do_accum dout)) else None) (Some dem) = Ok out /\
  exact_pourpoints t (do_depths dout) out = Ok pps /\
  let water c := b64_Q (at_ (rf_data pr) c) in
  let factor := match u with U_mm => Qabs (gt1 (gt_Q t)) * Qabs (gt5 (gt_Q t)) / 1000 | U_l => 1 # 1000 | U_m3 => 1 end%Q in
  forall lab zres attribute L ws, lab = bo_labeled out \/ lab = bo_watersheds out -> (0 < zres)%Q -> names_ok L ws -> ~ In attribute reserved ->
  exists vols final fo ds,
    vector_steps_pr fuel t dem (do_flowdir dout) (bo_labeled out) lab pr u zres attribute L
      (write_features (after ws) (l_pourpoints L) (map pourpoint_props pps)) = Ok (ds, fo_depths fo, fo_labels fo) /\
    layer_shows ds (l_pourpoints L) pourpoint_props pps /\ layer_shows ds (l_nodes L) node_attrs nodes /\
    layer_shows ds (l_streams L) stream_attrs sts /\ layer_shows ds (l_init L) (volume_attrs attribute) vols /\
    layer_shows ds (l_final L) final_attrs final /\ layer_shows ds (l_hyps L) hyps_attrs (fo_hyps fo) /\
    layer_shows ds (l_levels L) level_attrs (fo_levels fo) /\
    map fst vols = nodes /\
    (forall nd v, In (nd, v) vols -> exists cs, lists_cells (has_label lab (nf_id nd)) cs /\ (v == Qsum (map water cs) * factor)%Q) /\
    (Qsum (map out_vol final) + Qsum (map out_spill (filter (fun p => is_root (fst p)) final)) == Qsum (map water (rcells dem)) * factor)%Q /\
    Permutation (map lf_bspot (fo_levels fo)) (zseq 0 (Z.to_nat (bo_nlabels out + 1))) /\
    (forall o, In o (fo_levels fo) -> exists nd e, In (nd, Some e) final /\ n_id nd = lf_bspot o /\ lf_v o = e_vol e) /\
    same_shape dem (fo_labels fo) /\ same_shape dem (fo_depths fo) /\
    forall c, inside (nrows dem) (ncols dem) c ->
      (at_ (bo_labeled out) c = 0 -> at_ (fo_labels fo) c = 0 /\ (-999 <= b64_Q (at_ dem c) -> at_ (fo_depths fo) c == 0)%Q) /\
      (at_ (bo_labeled out) c <> 0 -> exists o, In o (fo_levels fo) /\ lf_bspot o = at_ (bo_labeled out) c /\
         ((lf_z o < b64_Q (at_ dem c))%Q -> (at_ (fo_depths fo) c == 0)%Q /\ at_ (fo_labels fo) c = 0) /\
         ((b64_Q (at_ dem c) <= lf_z o)%Q -> (at_ (fo_depths fo) c == lf_z o - b64_Q (at_ dem c))%Q /\ at_ (fo_labels fo) c = at_ (bo_labeled out) c)).
Proof.
  intros cc Hcc sp t dem f use_accum pr u SO H32 HF Big SQ Sw.
  assert (Swq : same_shape dem (raster_Q (rf_data pr))) by exact Sw.
  destruct (raster_balance cc Hcc sp t dem f use_accum (raster_Q (rf_data pr)) u SO H32 HF Big SQ Swq) as (k & K).
  exists (Nat.max k (S (Z.to_nat (nrows dem * ncols dem)))). intros fuel Fu.
  destruct (K fuel ltac:(lia)) as (dout & out & pps & nodes & sts & ED & EB & Ep & Es & B). cbv zeta in B.
  exists dout, out, pps, nodes, sts. split; [exact ED|]. split; [exact EB|]. split; [exact Ep|]. cbv zeta.
  intros lab zres attribute L ws HL Zr NO NR. destruct (B lab HL) as (vols & final & Er & Mv & Tot & Ef & Bal).
  assert (HA : (if use_accum then Some (accum64 (do_accum dout)) else None) = None \/
    (if use_accum then Some (accum64 (do_accum dout)) else None) = Some (accum64 (do_accum dout))) by (destruct use_accum; auto).
  destruct (rain_shares cc Hcc sp fuel fuel _ _ dem dout t f _ out SO H32 HF Big ED HA EB) as (pps' & Ep' & Lp & R).
  assert (pps' = pps) by congruence. subst pps'.
  destruct (exact_pps cc Hcc sp fuel fuel _ _ dem dout t f _ out SO H32 HF ED EB) as (pps' & Ep'' & _ & Ei & _ & _).
  assert (pps' = pps) by congruence. subst pps'.
  destruct (pps_stats cc Hcc sp fuel fuel _ _ dem dout t f _ out SO H32 HF ED EB pps Ep) as (Sh & Nm & LG & Ln & N0 & _).
  destruct (dem_flow sp fuel _ _ dem dout SO H32 HF ED) as (Sf & D & _).
  assert (H1 : 1 <= nrows dem) by (destruct sp; cbn in SO; lia). assert (H2 : 1 <= ncols dem) by (destruct sp; cbn in SO; lia).
  assert (K1 : (length (rcells (do_flowdir dout)) <= fuel)%nat).
  { unfold rcells. rewrite length_cells_of. destruct Sf as [<- <-].
    assert (Z.of_nat (Z.to_nat (nrows dem) * Z.to_nat (ncols dem)) = nrows dem * ncols dem) by (rewrite Nat2Z.inj_mul, !Z2Nat.id; auto; lia).
    lia. }
  assert (K2 : (length pps <= fuel)%nat) by lia.
  destruct (R true fuel K1 K2) as (nodes' & sts' & Es' & ND & Pm & _ & V). rewrite Es in Es'. injection Es' as <- <-.
  destruct (V 0%Q) as (_ & _ & AC0).
  assert (AC : acyclic_closed (map solver_node vols)).
  { apply (same_network (map solver_node (simple_volumes QOps 0%Q nodes))); auto. unfold simple_volumes. rewrite <- Mv, !map_map. reflexivity. }
  assert (UI : unique_ids (map solver_node vols)).
  { unfold unique_ids. rewrite map_map. cbn [n_id solver_node]. rewrite <- Mv, map_map in ND. exact ND. }
  destruct (all_written _ _ _ _ UI AC Ef) as (Mf & Wf).
  pose proof (CompleteThms.stream_attrs _ _ _ _ _ _ _ _ Ei Es) as At.
  assert (Nj : forall nd, In nd nodes -> nf_junction nd = false -> 0 <= nf_id nd < Z.of_nat (length pps)).
  { intros nd Hn J. assert (X : In (nf_id nd) (zseq 0 (length pps))).
    { eapply Permutation_in; [exact Pm|]. apply in_map. apply filter_In. rewrite J. auto. }
    apply in_zseq in X. lia. }
  destruct (finish_spec t dem (bo_labeled out) (bo_nlabels out) pps vols final zres Sh Nm LG) as (st & fo & EF & Est & PL & LV & S1 & S2 & Cl); auto.
  { rewrite Ei, Ln. reflexivity. }
  { rewrite <- Mv, map_map in ND. exact ND. }
  { rewrite Mv, <- Ln. exact Pm. }
  { rewrite Mv. intros m Hm J. destruct (At m Hm (Nj m Hm J)) as (p & _ & A & _). exact A. }
  { intros m o Ho. destruct (Wf m o Ho) as (e & E & _). eauto. }
  destruct (pr_agrees fuel t dem (do_flowdir dout) (bo_labeled out) lab pr u pps nodes sts vols zres final fo attribute L ws Es ltac:(rewrite load_none; exact Er) Ef EF NO NR)
    as (ds & EV & L1 & L2 & L3 & L4 & L5 & L6 & L7).
  exists vols, final, fo, ds. do 8 (split; [assumption|]). split; [exact Mv|]. split.
  { destruct (node_ids cc Hcc sp fuel fuel _ _ dem dout t f _ out pps true fuel nodes sts SO H32 HF Big ED HA EB Ep K1 K2 Es) as (_ & Sl & _ & Ni).
    destruct (lab_facts cc Hcc sp fuel dem dout t f _ out lab SO H32 HF ED EB HL) as (Sx & LI & LX).
    destruct (raster_volumes_spec (gt_Q t) lab (raster_Q (rf_data pr)) u nodes (bo_nlabels out)) as (rv & E & _ & X); auto.
    - destruct Sx, Swq; split; congruence.
    - destruct Sx; congruence.
    - destruct Sx; congruence.
    - intros nd Hn. apply (Ni nd Hn).
    - rewrite Er in E. injection E as <-. exact X. }
  split.
  { rewrite Bal. assert (Rc : rcells (raster_Q (rf_data pr)) = rcells dem) by (unfold rcells; destruct Swq as [-> ->]; reflexivity).
    rewrite Rc. reflexivity. }
  split; [exact PL|]. split; [intros o Ho; apply (LV o Ho)|]. destruct Sh as [Q1 Q2].
  split; [destruct S1; split; congruence|]. split; [destruct S2; split; congruence|].
  intros c Hi. rewrite Q1, Q2 in Hi. destruct (Cl c Hi) as (C1 & C2). split; [exact C1|]. intros H.
  destruct (C2 H) as (o & O1 & O2 & O3 & O4 & O5 & O6). exists o. split; [exact O1|]. split; [exact O2|]. split; intros X; split; auto.
Qed.

(** Rasters that do not fit, and options that do not. *)
Theorem raster_refused : forall mm t bluespots pr u nodes nodes_layer out out_layer attribute fs,
  read_features nodes (Some nodes_layer) = Ok fs ->
  cmd_initvolumes_raster mm t bluespots pr u nodes nodes_layer out out_layer attribute =
    match mm, bluespots with
    | Some q, _ => if Qeq_bool q 0 then cmd_initvolumes_raster None t bluespots pr u nodes nodes_layer out out_layer attribute else Exc UsageError
    | None, None => Exc UsageError
    | None, Some b =>
        if (nrows b =? nrows (rf_data pr)) && (ncols b =? ncols (rf_data pr)) then cmd_initvolumes_raster None t (Some b) pr u nodes nodes_layer out out_layer attribute
        else Exc AssertionError
    end.
Proof.
  intros mm t bluespots pr u nodes nl out ol attribute fs R. unfold cmd_initvolumes_raster, initvolumes_source, truthy. cbn [neqb QOps nofZ].
  change (inject_Z 0) with 0%Q. destruct mm as [q|].
  - destruct (Qeq_bool q 0); reflexivity.
  - destruct bluespots as [b|]; [|reflexivity]. cbn [negb andb bind]. rewrite R. cbn [bind]. unfold raster_volume_tool.
    change (nrows (raster_Q (load None pr))) with (nrows (rf_data pr)). change (ncols (raster_Q (load None pr))) with (ncols (rf_data pr)).
    destruct ((nrows b =? nrows (rf_data pr)) && (ncols b =? ncols (rf_data pr))) eqn:E; reflexivity.
Qed.
