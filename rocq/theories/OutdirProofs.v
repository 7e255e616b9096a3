(** * The program of the complete command, output by output *)

From Coq Require Import QArith Qabs String.
From Verif Require Import Base BaseProofs Num Float64 Dict DictProofs FillModel FlowModel DemModel LabelModel VectorModel BluespotModel NetModel
  NetworkModel RainModel PipelineModel HypsModel ApproxModel CompleteModel OgrModel OgrSpec OgrThms RerunThms
  CmdModel CmdSpec CmdThms HistoryModel OutdirModel OutdirSpec.
Local Open Scope Z_scope.
Local Open Scope list_scope.

(** ** Programs *)
Definition before (ws : list output) (r : list output * outcome) : list output * outcome := (ws ++ fst r, snd r).

Lemma before_nil : forall r, before [] r = r.
Proof. intros [ws o]. reflexivity. Qed.

Lemma trace_write : forall w k d, trace (Write w k) d = before [w] (trace k (put d w)).
Proof. intros w k d. cbn [trace]. destruct (trace k (put d w)). reflexivity. Qed.

Lemma before_before : forall a b r, before a (before b r) = before (a ++ b) r.
Proof. intros a b [ws o]. unfold before. cbn [fst snd]. rewrite app_assoc. reflexivity. Qed.

Lemma lift_ok : forall {A} (r : res A) x k, r = Ok x -> lift r k = k x.
Proof. intros A r x k ->. reflexivity. Qed.

Lemma put_all_app : forall a b d, put_all d (a ++ b) = put_all (put_all d a) b.
Proof. intros a b d. apply fold_left_app. Qed.

Lemma read_labels_same : forall d n r, read_labels (put d (RasterFile n (Labels r))) n = Ok r.
Proof. intros d n r. unfold read_labels, put. cbn [d_rasters]. rewrite (dget_dset_same String.eqb String.eqb_spec). reflexivity. Qed.
Lemma read_floats_same : forall d n r, read_floats (put d (RasterFile n (Floats r))) n = Ok r.
Proof. intros d n r. unfold read_floats, put. cbn [d_rasters]. rewrite (dget_dset_same String.eqb String.eqb_spec). reflexivity. Qed.
Lemma read_labels_other : forall d n m c, n <> m -> read_labels (put d (RasterFile m c)) n = read_labels d n.
Proof. intros d n m c N. unfold read_labels, put. cbn [d_rasters]. rewrite (dget_dset_other String.eqb String.eqb_spec) by congruence. reflexivity. Qed.
Lemma read_floats_other : forall d n m c, n <> m -> read_floats (put d (RasterFile m c)) n = read_floats d n.
Proof. intros d n m c N. unfold read_floats, put. cbn [d_rasters]. rewrite (dget_dset_other String.eqb String.eqb_spec) by congruence. reflexivity. Qed.
Lemma read_labels_layer : forall d n m fs, read_labels (put d (Layer m fs)) n = read_labels d n.
Proof. reflexivity. Qed.
Lemma read_floats_layer : forall d n m fs, read_floats (put d (Layer m fs)) n = read_floats d n.
Proof. reflexivity. Qed.
Ltac files := rewrite ?read_labels_layer, ?read_floats_layer;
  repeat (first [rewrite read_labels_same | rewrite read_floats_same | rewrite read_labels_other by discriminate
                | rewrite read_floats_other by discriminate | rewrite read_labels_layer | rewrite read_floats_layer]).

(** ** DemTool *)
Definition dem_outputs (p : options) (o : dem_out) : list output :=
  [RasterFile "filled.tif" (Floats (do_filled o)); RasterFile "bs_depths.tif" (Floats (do_depths o));
   RasterFile "flowdir.tif" (Labels (do_flowdir o))] ++
  (if o_accum p then [RasterFile "accum.tif" (Labels (do_accum o))] else []).

Lemma dem_trace : forall p o k d, dem_process (o_speedups p) (o_fuel p) (gt1 (o_gt p)) (gt5 (o_gt p)) (o_dem p) = Ok o ->
  trace (dem_tool p k) d = before (dem_outputs p o) (trace k (put_all d (dem_outputs p o))).
Proof.
  intros p o k d H. unfold dem_process in H. unfold dem_tool.
  destruct (negb (square_cells (gt1 (o_gt p)) (gt5 (o_gt p)))); [discriminate H|].
  apply bind_ok in H. destruct H as (filled & E1 & H). cbv zeta in H.
  apply bind_ok in H. destruct H as ([short diag] & E2 & H). apply bind_ok in H. destruct H as (nf & E3 & H).
  apply bind_ok in H. destruct H as (fd & E4 & H). apply bind_ok in H. destruct H as (ac & E5 & H). injection H as <-.
  rewrite (lift_ok _ _ _ E1), !trace_write, (lift_ok _ _ _ E2), (lift_ok _ _ _ E3), (lift_ok _ _ _ E4), trace_write, !before_before.
  unfold dem_outputs. cbn [do_filled do_depths do_flowdir do_accum].
  destruct (o_accum p); [rewrite (lift_ok _ _ _ E5), trace_write, before_before|]; reflexivity.
Qed.

(** ** BluespotTool *)
Definition polygons (p : options) (n : string) (r : raster Z) : list output :=
  if o_vector p then [Layer n (map polygon_props (o_polygons p r))] else [].
Definition bluespot_outputs (p : options) (o : bluespot_out) (pps : list (@pourpoint Q)) : list output :=
  ([RasterFile "bluespots.tif" (Labels (bo_labeled o))] ++ polygons p "bluespots" (bo_labeled o)) ++
  ([RasterFile "watersheds.tif" (Labels (bo_watersheds o))] ++ polygons p "watersheds" (bo_watersheds o)) ++
  [Layer "pourpoints" (map pourpoint_props pps)].

Lemma vectorize_trace : forall p file n k d r, read_labels d file = Ok r ->
  trace (vectorize p file n k) d = before (polygons p n r) (trace k (put_all d (polygons p n r))).
Proof.
  intros p file n k d r R. unfold vectorize, polygons. destruct (o_vector p); [|rewrite before_nil; reflexivity].
  cbn [trace]. rewrite (lift_ok _ _ _ R), trace_write. reflexivity.
Qed.

Lemma polygons_files : forall p n r d f, read_labels (put_all d (polygons p n r)) f = read_labels d f.
Proof. intros p n r d f. unfold polygons. destruct (o_vector p); reflexivity. Qed.

Lemma bluespot_trace : forall p o pps k d depths flowdir accum,
  read_floats d "bs_depths.tif" = Ok depths -> read_labels d "flowdir.tif" = Ok flowdir ->
  (o_accum p = true -> read_labels d "accum.tif" = Ok accum) ->
  bluespot_process (o_speedups p) (o_cc p) (o_fuel p) (o_gt p) depths flowdir (Some (o_filter p))
    (if o_accum p then Some (accum64 accum) else None) (Some (o_dem p)) = Ok o ->
  exact_pourpoints (o_gt p) depths o = Ok pps ->
  trace (bluespot_tool p k) d = before (bluespot_outputs p o pps) (trace k (put_all d (bluespot_outputs p o pps))).
Proof.
  intros p o pps k d depths flowdir accum R1 R2 R3 H Ep. unfold bluespot_process in H.
  destruct (if o_accum p then Some (accum64 accum) else None) eqn:Ea in H; rewrite <- Ea in H; clear Ea;
  (destruct (negb (square_cells (gt1 (o_gt p)) (gt5 (o_gt p)))) eqn:Sq; [discriminate H|];
  cbv zeta in H; apply bind_ok in H; destruct H as (raw & E1 & H); apply bind_ok in H; destruct H as (nc & E2 & H);
  destruct (o_cc p nc) as [labeled nlabels] eqn:E3;
  apply bind_ok in H; destruct H as (bs & E4 & H); apply bind_ok in H; destruct H as (ws & E5 & H);
  apply bind_ok in H; destruct H as (wst & E6 & H); apply bind_ok in H; destruct H as (pix & E7 & H); injection H as <-;
  unfold bluespot_tool; cbv zeta; cbn [trace]; rewrite Sq, (lift_ok _ _ _ R1), (lift_ok _ _ _ E1), (lift_ok _ _ _ E2), E3, (lift_ok _ _ _ E4), trace_write;
  erewrite vectorize_trace by (files; reflexivity); cbn [trace]; rewrite before_before;
  assert (F : forall n, n <> "bluespots.tif"%string ->
    read_labels (put_all (put d (RasterFile "bluespots.tif" (Labels labeled))) (polygons p "bluespots" labeled)) n = read_labels d n)
    by (intros n N; rewrite polygons_files, read_labels_other by exact N; reflexivity);
  rewrite F by discriminate;
  rewrite (lift_ok _ _ _ R2), (lift_ok _ _ _ E5), (lift_ok _ _ _ E6), trace_write;
  erewrite vectorize_trace by (files; reflexivity); cbn [trace]; rewrite !before_before;
  rewrite polygons_files, read_labels_other, F by discriminate;
  assert (A : (if o_accum p then accum0 <- read_labels d "accum.tif" ;; Ok (Some (accum64 accum0)) else Ok None) =
     Ok (if o_accum p then Some (accum64 accum) else None))
    by (destruct (o_accum p); [rewrite R3 by reflexivity|]; reflexivity);
  rewrite (lift_ok _ _ _ A), (lift_ok _ _ _ E7), (lift_ok _ _ _ Ep), trace_write, before_before;
  unfold bluespot_outputs; cbn [bo_labeled bo_watersheds]; rewrite !put_all_app; cbn [put_all fold_left];
  f_equal; rewrite <- !app_assoc; reflexivity).
Qed.

(** ** The other tools *)
Definition layer_facts (attribute : string) (vols : list (@node_feature Q * Q)) (nodes : list (@node_feature Q)) (streams : list (@stream_feature Q))
    (final : list (@node Q * option (@event Q))) (fin : finish_out) (N S V F H LL : list props) : Prop :=
  Forall2 (fun n g => has g (node_attrs n)) nodes N /\ Forall2 (fun n g => has g (stream_attrs n)) streams S /\
  Forall2 (volume_full attribute) vols V /\ Forall2 final_full (combine (map snd (nv_index vols)) final) F /\
  map fst final = map solver_node (map snd (nv_index vols)) /\
  Forall2 (fun i g => has g (hyps_attrs i)) (fo_hyps fin) H /\ Forall2 (fun l g => has g (level_full l)) (fo_levels fin) LL.

Definition vector_outputs (L : layer_names) (p : options) (fin : finish_out) (N S V F H LL : list props) : list output :=
  [Layer (l_nodes L) N; Layer (l_streams L) S; Layer (l_init L) V; Layer (l_final L) F; Layer (l_hyps L) H; Layer (l_levels L) LL;
   RasterFile "finaldepths.tif" (Exact (fo_depths fin)); RasterFile "finalbluespots.tif" (Labels (fo_labels fin));
   Layer "finalbluespots" (map polygon_props (o_polygons p (fo_labels fin)))].

Ltac store := unfold put, put_all; cbn [fold_left d_rasters d_store d_others].

Lemma vector_trace : forall L p d labels flowdir pps nodes streams final fin ws,
  let vols := simple_volumes QOps (o_mm p) nodes in
  d_store d = after (ws ++ [(l_pourpoints L, map pourpoint_props pps)]) -> names_ok L ws ->
  read_labels d "bluespots.tif" = Ok labels -> read_labels d "flowdir.tif" = Ok flowdir ->
  stream_process QOps (o_fuel p) (gt_Q (o_gt p)) flowdir labels pps true = Ok (nodes, streams) ->
  process QOps (length vols) (map solver_node vols) = Ok final ->
  finish (o_gt p) (o_dem p) labels pps vols final (o_zresolution p) = Ok fin ->
  exists N S V F H LL, trace (vector_tools L p) d = (vector_outputs L p fin N S V F H LL, Returned 0) /\
    layer_facts "inputv" vols nodes streams final fin N S V F H LL.
Proof.
  intros L p d labels flowdir pps nodes streams final fin ws vols Ed (ND & NE & Ws) Rl Rf Es Ep Ef.
  assert (Ra : ~ In "inputv"%string reserved) by (cbn; intuition discriminate).
  set (attribute := "inputv"%string) in *.
  destruct L as [pp n s i f h l]. unfold vector_outputs. cbn [l_pourpoints l_nodes l_streams l_init l_final l_hyps l_levels] in *.
  assert (N0 : forall a, In a [pp; n; s; i; f; h; l] -> a <> ""%string) by (intros a Ha ->; contradiction).
  assert (W0 : forall a, In a [pp; n; s; i; f; h; l] -> written a ws = []).
  { intros a Ha. apply written_none. intros w Hw E. apply (Ws w Hw). rewrite E. exact Ha. }
  clear NE Ws.
  repeat (match goal with H : NoDup (_ :: _) |- _ => apply NoDup_cons_iff in H; destruct H end).
  cbn [In] in *.
  unfold finish in Ef. apply bind_ok in Ef. destruct Ef as (hfs & Eh & Ef).
  fold (pp_index_of pps) in Ef. apply bind_ok in Ef. destruct Ef as (his & Ei & Ef).
  apply bind_ok in Ef. destruct Ef as (ffs & Eff & Ef). apply bind_ok in Ef. destruct Ef as (levels & El & Ef).
  apply bind_ok in Ef. destruct Ef as ([od ol] & Eb & Ef).
  destruct od as [depths|]; [|discriminate Ef]. destruct ol as [flabels|]; [|discriminate Ef]. injection Ef as <-.
  unfold layer_facts. cbn [fo_depths fo_labels fo_hyps fo_levels].
  set (P := map pourpoint_props pps) in *. set (w1 := ws ++ [(pp, P)]) in *.
  assert (FP : Forall2 (fun q g => has g (pourpoint_props q)) pps P).
  { apply Forall2_self. intros q. unfold has, pourpoint_props. repeat constructor. }
  assert (Kh : forall (A : Type) (at_of : A -> list (string * option value)) r f0 g, keeps f0 g -> has f0 (at_of r) -> has g (at_of r)).
  { intros A at_of r f0 g K Hh. eapply has_keeps; eauto. }
  unfold vector_tools. cbn [l_pourpoints l_nodes l_streams l_init l_final l_hyps l_levels].
  (* network *)
  rd W0 N0 w1 pp P g1 R1 K1. pose proof (keeps_full _ _ _ _ (Kh _ pourpoint_props) FP K1) as F1.
  destruct (network_tool_ok _ _ _ _ _ _ _ _ Es F1) as (N & S & En & FN & FS).
  cbn [trace]. rewrite Ed. rewrite (lift_ok _ _ _ R1), (lift_ok _ _ _ Rl), (lift_ok _ _ _ Rf), (lift_ok _ _ _ En), !trace_write.
  cbn [trace]. store. rewrite Ed, !after_snoc. set (w2 := (w1 ++ [(n, N)]) ++ [(s, S)]).
  (* initvolumes *)
  rd W0 N0 w2 n N g2 R2 K2. pose proof (keeps_full _ _ _ _ (Kh _ node_attrs) FN K2) as F2.
  destruct (volume_tool_ok (o_mm p) attribute nodes g2 Ra F2) as (V & EV & FV).
  rewrite (lift_ok _ _ _ R2), (lift_ok _ _ _ EV), trace_write. cbn [trace]. store. rewrite after_snoc. set (w3 := w2 ++ [(i, V)]).
  (* finalvolumes *)
  rd W0 N0 w3 i V g3 R3 K3.
  assert (F3 : Forall2 (volume_full attribute) vols g3).
  { eapply keeps_full; [|exact FV|exact K3]. intros r a b K (A & q & B). split; [eapply has_keeps; eauto|].
    exists q. eapply get_float_keeps; eauto. }
  destruct (final_tool_ok attribute vols g3 final Ra F3 Ep) as (Ln & Mf & FF & EF & FFF).
  rewrite (lift_ok _ _ _ R3), (lift_ok _ _ _ EF), trace_write. cbn [trace]. store. rewrite after_snoc. set (w4 := w3 ++ [(f, FF)]).
  (* hyps *)
  rd W0 N0 w4 pp P g4 R4 K4. pose proof (keeps_full _ _ _ _ (Kh _ pourpoint_props) FP K4) as F4.
  destruct (hyps_tool_ok (o_gt p) labels (o_dem p) (o_zresolution p) pps g4 hfs his F4 Eh Ei) as (HH & EH & FH).
  rewrite (lift_ok _ _ _ R4), (lift_ok _ _ _ EH), trace_write. cbn [trace]. store. rewrite after_snoc. set (w5 := w4 ++ [(h, HH)]).
  (* finallevels *)
  rd W0 N0 w5 f FF g5 R5 K5. rd W0 N0 w5 h HH g6 R6 K6.
  assert (F5 : Forall2 final_full (combine (map snd (nv_index vols)) final) g5).
  { eapply keeps_full; [|exact FFF|exact K5]. intros r a b K (A & B). split; eapply has_keeps; eauto. }
  pose proof (keeps_full _ _ _ _ (Kh _ hyps_attrs) FH K6) as F6.
  pose proof (ffs_rel vols final g5 ffs Mf F5 Eff) as F5'.
  destruct (levels_tool_ok ffs his g5 g6 levels F5' F6 El) as (LL & EL & FL).
  rewrite (lift_ok _ _ _ R5), (lift_ok _ _ _ R6), (lift_ok _ _ _ EL), trace_write. cbn [trace]. store. rewrite after_snoc.
  set (w6 := w5 ++ [(l, LL)]).
  (* finalbluespots *)
  rd W0 N0 w6 l LL g7 R7 K7. pose proof (keeps_full _ _ _ _ (Kh _ level_full) FL K7) as F7.
  assert (EB : bluespots_tool labels g7 (o_dem p) = Ok (depths, flabels)).
  { unfold bluespots_tool. rewrite (read_levels_ok _ _ F7). cbn [bind]. rewrite Eb. reflexivity. }
  rewrite (lift_ok _ _ _ R7), (lift_ok _ _ _ EB), !trace_write. cbn [trace].
  erewrite lift_ok by (files; reflexivity). rewrite trace_write. cbn [trace]. rewrite !before_before.
  exists N, S, V, FF, HH, LL. split; [reflexivity|].
  split; [exact FN|]. split; [exact FS|]. split; [exact FV|]. split; [exact FFF|]. split; [exact Mf|]. split; [exact FH|exact FL].
Qed.
