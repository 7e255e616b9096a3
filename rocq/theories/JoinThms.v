(** * Ids in the layers of the complete command *)

From Coq Require Import QArith Qabs String Permutation.
From Verif Require Import Base BaseProofs Num Dict Float64 FillSpec FlowModel DemModel DemProofs FlowProofs AccumProofs WatershedProofs LabelModel LabelSpec CompSpec CompProofs VectorModel
  BluespotModel BluespotSpec BluespotProofs LevelProofs BluespotThms NetModel NetSpec NetProofs NetworkModel NetworkSpec NetworkProofs NetworkThms RainModel RainProofs RainThms PipelineModel HypsModel HypsThms
  ApproxModel CompleteModel CompleteProofs CompleteThms StreamThms OgrModel CmdModel CmdSpec OutdirModel OutdirSpec OutdirThms PolygonSpec PolygonThms JoinSpec.
Local Open Scope list_scope.
Local Open Scope Z_scope.

Lemma hyps_keys : forall ix hfs his, mmap (hyps_input_of ix) hfs = Ok his -> map hi_bspot his = map hf_bspot hfs.
Proof.
  intros ix hfs. induction hfs as [|f hfs IH]; intros his E; cbn [mmap] in E; [injection E as <-; reflexivity|].
  apply bind_ok in E. destruct E as (i & E1 & E). apply bind_ok in E. destruct E as (is' & E2 & E). injection E as <-. cbn [map]. f_equal; [|apply IH; exact E2].
  unfold hyps_input_of in E1. apply bind_ok in E1. destruct E1 as (p & _ & E1). destruct (hf_dict f), (hf_cell_area f); try discriminate. injection E1 as <-. reflexivity.
Qed.

Theorem record_keys : forall cc, labels_components cc -> forall sp t dem f (use_accum : bool),
  size_ok sp dem -> dem32 dem -> dem_finite dem -> nrows dem * ncols dem <= 2 ^ 53 ->
  square_cells (gt1 t) (gt5 t) = true ->
  exists k, forall fuel, (fuel >= k)%nat -> forall mm zres, (0 < zres)%Q ->
  exists a, complete_all sp cc fuel t dem f use_accum mm zres = Ok a /\
    let n := bo_nlabels (ca_bluespots a) in let ns := map fst (co_nodes (ca_volumes a)) in
    0 <= n /\
    map pp_id (ca_pourpoints a) = zseq 0 (Z.to_nat (n + 1)) /\
    NoDup (map nf_id ns) /\ Permutation (map nf_id (filter (fun m => negb (nf_junction m)) ns)) (zseq 0 (Z.to_nat (n + 1))) /\
    (forall m, In m ns -> nf_bspot m = if nf_junction m then None else Some (nf_id m)) /\
    map (fun s => (sf_id s, sf_dstr s)) (co_streams (ca_volumes a)) = map (fun m => (nf_id m, nf_dstr m)) ns /\
    (forall m d, In m ns -> nf_dstr m = Some d -> In d (map nf_id ns)) /\
    map (fun p => n_id (fst p)) (co_final (ca_volumes a)) = map nf_id ns /\
    map hi_bspot (fo_hyps (ca_finish a)) = zseq 0 (Z.to_nat (n + 1)) /\
    Permutation (map lf_bspot (fo_levels (ca_finish a))) (zseq 0 (Z.to_nat (n + 1))) /\
    (forall ps, polygonized (bo_labeled (ca_bluespots a)) ps -> Permutation (map fst ps) (zseq 1 (Z.to_nat n))) /\
    (forall ps, polygonized (bo_watersheds (ca_bluespots a)) ps -> Permutation (map fst ps) (zseq 1 (Z.to_nat n))) /\
    (forall ps, polygonized (fo_labels (ca_finish a)) ps -> forall i, In i (map fst ps) -> In i (zseq 1 (Z.to_nat n))).
Proof.
  intros cc Hcc sp t dem f use_accum SO H32 HF Big Sq.
  destruct (complete_succeeds cc Hcc sp t dem f use_accum SO H32 HF Big Sq) as (k & W).
  exists (Nat.max k (S (Z.to_nat (nrows dem * ncols dem)))). intros fuel Fu mm zres Zr.
  destruct (W fuel ltac:(lia) mm zres Zr) as (a & E & _ & PL & _ & (S1 & S2) & _ & M). exists a. split; [exact E|]. cbv zeta in *.
  unfold complete_all in E. apply bind_ok in E. destruct E as (dout & ED & E). apply bind_ok in E. destruct E as (out & EB & E).
  apply bind_ok in E. destruct E as (pps & Ep & E). apply bind_ok in E. destruct E as ([nodes sts] & Es & E). cbv zeta in E.
  apply bind_ok in E. destruct E as (final & EF & E). apply bind_ok in E. destruct E as (fin & Ef & E). injection E as <-.
  cbn [ca_bluespots ca_finish ca_volumes ca_pourpoints co_nodes co_streams co_final] in *.
  assert (HA : (if use_accum then Some (accum64 (do_accum dout)) else None) = None \/
    (if use_accum then Some (accum64 (do_accum dout)) else None) = Some (accum64 (do_accum dout))) by (destruct use_accum; auto).
  destruct (rain_shares cc Hcc sp fuel fuel _ _ dem dout t f _ out SO H32 HF Big ED HA EB) as (pps' & Ep' & Lp & R).
  assert (pps' = pps) by congruence. subst pps'.
  destruct (exact_pps cc Hcc sp fuel fuel _ _ dem dout t f _ out SO H32 HF ED EB) as (pps' & Ep'' & _ & Ei & _ & _).
  assert (pps' = pps) by congruence. subst pps'.
  destruct (pps_stats cc Hcc sp fuel fuel _ _ dem dout t f _ out SO H32 HF ED EB pps Ep) as (Sh & Nm & LG & Ln & N0 & _).
  destruct (dem_flow sp fuel _ _ dem dout SO H32 HF ED) as ([Q1 Q2] & _ & _).
  assert (Lc : (length (rcells (do_flowdir dout)) <= fuel)%nat).
  { assert (1 <= nrows dem) by (destruct sp; cbn in SO; lia). assert (1 <= ncols dem) by (destruct sp; cbn in SO; lia).
    unfold rcells. rewrite length_cells_of.
    assert (X : nrows (do_flowdir dout) = nrows dem) by congruence. assert (X' : ncols (do_flowdir dout) = ncols dem) by congruence.
    rewrite X, X'. assert (Z.of_nat (Z.to_nat (nrows dem) * Z.to_nat (ncols dem)) = nrows dem * ncols dem) by (rewrite Nat2Z.inj_mul, !Z2Nat.id; auto; lia).
    lia. }
  destruct (R true fuel Lc ltac:(lia)) as (nodes' & sts' & Es' & ND & Pm & _ & V). rewrite Es in Es'. injection Es' as <- <-.
  destruct (V mm) as (_ & _ & AC).
  destruct (streams_drawn cc Hcc sp fuel fuel _ _ dem dout t f _ out SO H32 HF Big ED HA EB) as (pps' & Ep3 & St).
  assert (pps' = pps) by congruence. subst pps'.
  destruct (St fuel Lc ltac:(lia)) as (nodes' & sts' & Es' & SI & NA & SA & _). rewrite Es in Es'. injection Es' as <- <-.
  assert (Mv : map fst (simple_volumes QOps mm nodes) = nodes).
  { unfold simple_volumes. rewrite map_map. cbn [fst]. apply map_id. }
  rewrite Mv.
  destruct (depths_facts sp fuel _ _ dem dout SO H32 HF ED) as ((D1 & D2) & _).
  assert (Hr : 1 <= nrows (do_depths dout)) by (destruct sp; cbn in SO; lia).
  assert (Hc : 1 <= ncols (do_depths dout)) by (destruct sp; cbn in SO; lia).
  pose proof Nm as (LI & NN & _).
  split; [exact NN|]. split; [rewrite Ei, Ln; reflexivity|]. split; [exact ND|]. split; [rewrite <- Ln; exact Pm|]. split.
  { intros m Hm. destruct (NA m Hm) as (_ & X). destruct (nf_junction m); [apply X|]. destruct X as (p & _ & Pi & _ & B & _). congruence. }
  split; [exact SI|]. split.
  { intros m d Hm Hd. assert (X : In (nf_id m, nf_dstr m) (map (fun s => (sf_id s, sf_dstr s)) sts)) by (rewrite SI; apply in_map_iff; eauto).
    apply in_map_iff in X. destruct X as (s & Xs & Hs). injection Xs as X1 X2. destruct (SA s Hs) as (_ & path & _ & _ & _ & _ & _ & T).
    rewrite X2, Hd in T. destruct T as (m' & H1 & H2 & _). apply in_map_iff. eauto. }
  assert (UI : unique_ids (map solver_node (simple_volumes QOps mm nodes))).
  { unfold unique_ids. rewrite map_map. cbn [n_id solver_node]. rewrite <- Mv, map_map in ND. exact ND. }
  destruct (all_written _ _ _ _ UI AC EF) as (Mf & _). split.
  { rewrite <- (map_map fst n_id), Mf, map_map. rewrite <- Mv at 2. rewrite map_map. reflexivity. }
  split.
  { unfold finish in Ef. apply bind_ok in Ef. destruct Ef as (hfs & Eh & Ef). apply bind_ok in Ef. destruct Ef as (his & Ej & Ef).
    apply bind_ok in Ef. destruct Ef as (ffs & _ & Ef). apply bind_ok in Ef. destruct Ef as (lv & _ & Ef).
    apply bind_ok in Ef. destruct Ef as ([[dd|] [ll|]] & _ & Ef); try discriminate. injection Ef as <-. cbn [fo_hyps].
    rewrite (hyps_keys _ _ _ Ej).
    assert (NDp : NoDup (map pp_id pps)) by (rewrite Ei; apply zseq_NoDup).
    destruct (hypsometry_io_sound _ _ _ _ _ _ _ _ _ _ _ LI LG NDp Eh) as (_ & _ & X & _). rewrite X, Ei, Ln. reflexivity. }
  split; [exact PL|]. split; [intros ps P; apply (bluespot_polygons cc Hcc sp _ _ _ _ _ _ _ _ ps Hr Hc EB P)|].
  split; [intros ps P; apply (watershed_polygons cc Hcc sp _ _ _ _ _ _ _ _ _ _ ps SO H32 HF ED EB P)|].
  intros ps P i Hi. apply in_map_iff in Hi. destruct Hi as ([j cs] & <- & Hi). cbn [fst]. destruct (pg_region _ _ P j cs Hi) as (c & (Ic & Ec) & N & _).
  rewrite <- S1, <- S2 in Ic. destruct (M c Ic) as (M0 & M1). destruct (Z.eq_dec (at_ (bo_labeled out) c) 0) as [Z0|Z0]; [destruct (M0 Z0); congruence|].
  destruct (M1 Z0) as (o & _ & _ & A1 & A2). assert (X : at_ (fo_labels fin) c = at_ (bo_labeled out) c).
  { destruct (Qlt_le_dec (lf_z o) (b64_Q (at_ dem c))) as [Y|Y]; [destruct (A1 Y); congruence|destruct (A2 Y); assumption]. }
  destruct Sh as [H1 H2]. rewrite H1, H2 in Ic. specialize (LI c Ic). apply in_zseq. lia.
Qed.

(** ** In the datasource *)
Lemma shows_column : forall {A} ds n (attrs : A -> list (string * option value)) rs att (v : A -> option value),
  layer_shows ds n attrs rs -> (forall r, In r rs -> In (att, v r) (attrs r)) -> column ds n att (map v rs).
Proof.
  intros A ds n attrs rs att v (gs & E & F) H. exists gs. split; [exact E|]. clear E. induction F as [|r g rs gs Hr F IH]; [reflexivity|].
  cbn [map]. f_equal; [|apply IH; intros x Hx; apply H; right; exact Hx].
  unfold has in Hr. rewrite Forall_forall in Hr. exact (Hr (att, v r) (H r (or_introl eq_refl))).
Qed.
Lemma shows_keys : forall {A} ds n (attrs : A -> list (string * option value)) rs att (v : A -> Z) ids,
  layer_shows ds n attrs rs -> (forall r, In r rs -> In (att, int_ (v r)) (attrs r)) -> Permutation (map v rs) ids -> NoDup ids -> keys ds n att ids.
Proof.
  intros A ds n attrs rs att v ids H I P N. exists (map v rs). split; [rewrite map_map; apply (shows_column ds n attrs rs att (fun r => int_ (v r)) H I)|].
  split; [exact P|]. eapply Permutation_NoDup; [symmetry; exact P|exact N].
Qed.

Theorem layers_join : forall p, labels_components (o_cc p) -> polygons_ok p ->
  size_ok (o_speedups p) (o_dem p) -> dem32 (o_dem p) -> dem_finite (o_dem p) -> nrows (o_dem p) * ncols (o_dem p) <= 2 ^ 53 ->
  square_cells (gt1 (o_gt p)) (gt5 (o_gt p)) = true -> (0 < o_zresolution p)%Q ->
  exists k, forall fuel, (fuel >= k)%nat -> exists n nodes bspots dstrs finals,
  let ds := d_store (do_run empty_dir (Whole (with_fuel p fuel))) in
  0 <= n /\ NoDup nodes /\
  keys ds "pourpoints" "bspot_id" (zseq 0 (Z.to_nat (n + 1))) /\
  keys ds "hypsometry" "bspot_id" (zseq 0 (Z.to_nat (n + 1))) /\
  keys ds "finallevels" "bspot_id" (zseq 0 (Z.to_nat (n + 1))) /\
  (o_vector p = true -> keys ds "bluespots" "bspot_id" (zseq 1 (Z.to_nat n)) /\ keys ds "watersheds" "bspot_id" (zseq 1 (Z.to_nat n))) /\
  column ds "finalbluespots" "bspot_id" (map int_ finals) /\ incl finals (zseq 1 (Z.to_nat n)) /\
  column ds "nodes" "nodeid" (map int_ nodes) /\ column ds "streams" "nodeid" (map int_ nodes) /\
  column ds "initvolumes" "nodeid" (map int_ nodes) /\ column ds "finalstate" "nodeid" (map int_ nodes) /\
  column ds "nodes" "bspot_id" (map (option_map VInt) bspots) /\
  Forall2 (fun i b => b = if (0 <=? i) && (i <=? n) then Some i else None) nodes bspots /\ incl (zseq 0 (Z.to_nat (n + 1))) nodes /\
  column ds "nodes" "dstrnodeid" (map (option_map VInt) dstrs) /\ column ds "streams" "dstrnodeid" (map (option_map VInt) dstrs) /\
  forall d, In (Some d) dstrs -> In d nodes.
Proof.
  intros p Hcc PO SO H32 HF Big Sq Zr.
  destruct (record_keys (o_cc p) Hcc (o_speedups p) (o_gt p) (o_dem p) (o_filter p) (o_accum p) SO H32 HF Big Sq) as (k & W).
  exists k. intros fuel Fu. destruct (W fuel Fu (o_mm p) (o_zresolution p) Zr) as (a & E & NN & K1 & ND & PN & NB & ST & DI & FI & HY & LV & PB & PW & PF).
  set (q := with_fuel p fuel).
  destruct (complete_directory q a E) as (_ & _ & _ & L1 & L2 & L3 & L4 & L5 & L6 & L7 & L8 & L9 & L10).
  change (l_pourpoints complete_names) with "pourpoints"%string in L3. change (l_nodes complete_names) with "nodes"%string in L4.
  change (l_streams complete_names) with "streams"%string in L5. change (l_init complete_names) with "initvolumes"%string in L6.
  change (l_final complete_names) with "finalstate"%string in L7. change (l_hyps complete_names) with "hypsometry"%string in L8.
  change (l_levels complete_names) with "finallevels"%string in L9.
  change (o_vector q) with (o_vector p) in L1, L2. change (o_polygons q) with (o_polygons p) in L1, L2, L10.
  set (ds := d_store (do_run empty_dir (Whole q))) in *.
  set (ns := map fst (co_nodes (ca_volumes a))) in *. set (n := bo_nlabels (ca_bluespots a)) in *.
  destruct (PO (bo_labeled (ca_bluespots a))) as (ps1 & P1 & Q1). destruct (PO (bo_watersheds (ca_bluespots a))) as (ps2 & P2 & Q2).
  destruct (PO (fo_labels (ca_finish a))) as (ps3 & P3 & Q3).
  assert (SI : map sf_id (co_streams (ca_volumes a)) = map nf_id ns).
  { apply (f_equal (map fst)) in ST. rewrite !map_map in ST. exact ST. }
  assert (SD : map sf_dstr (co_streams (ca_volumes a)) = map nf_dstr ns).
  { apply (f_equal (map snd)) in ST. rewrite !map_map in ST. exact ST. }
  exists n, (map nf_id ns), (map nf_bspot ns), (map nf_dstr ns), (map fst ps3). cbv zeta. fold q. fold ds.
  split; [exact NN|]. split; [exact ND|].
  split; [apply (shows_keys _ _ _ _ _ pp_id _ L3); [intros r _; left; reflexivity|rewrite K1; apply Permutation_refl|apply zseq_NoDup]|].
  split; [apply (shows_keys _ _ _ _ _ hi_bspot _ L8); [intros r _; left; reflexivity|rewrite HY; apply Permutation_refl|apply zseq_NoDup]|].
  split; [apply (shows_keys _ _ _ _ _ lf_bspot _ L9); [intros r _; left; reflexivity|exact LV|apply zseq_NoDup]|].
  split.
  { intros V. split.
    - apply (shows_keys _ _ _ _ _ (fun i => i) _ (L1 V)); [intros r _; left; reflexivity|rewrite map_id, Q1; apply PB; exact P1|apply zseq_NoDup].
    - apply (shows_keys _ _ _ _ _ (fun i => i) _ (L2 V)); [intros r _; left; reflexivity|rewrite map_id, Q2; apply PW; exact P2|apply zseq_NoDup]. }
  split; [rewrite <- Q3; apply (shows_column _ _ _ _ _ int_ L10); intros r _; left; reflexivity|].
  split; [intros i Hi; apply (PF ps3 P3 i Hi)|].
  split; [rewrite map_map; apply (shows_column _ _ _ _ _ (fun m => int_ (nf_id m)) L4); intros r _; left; reflexivity|].
  split; [rewrite <- SI, map_map; apply (shows_column _ _ _ _ _ (fun m => int_ (sf_id m)) L5); intros r _; left; reflexivity|].
  split; [unfold ns; rewrite !map_map; apply (shows_column _ _ _ _ _ (fun m => int_ (nf_id (fst m))) L6); intros r _; left; reflexivity|].
  split; [rewrite <- FI, map_map; apply (shows_column _ _ _ _ _ (fun m => int_ (n_id (fst m))) L7); intros r _; left; reflexivity|].
  split; [rewrite map_map; apply (shows_column _ _ _ _ _ (fun m => option_map VInt (nf_bspot m)) L4); intros r _; unfold node_attrs; cbn; auto 10|].
  assert (Inz : forall m, In m ns -> nf_junction m = negb ((0 <=? nf_id m) && (nf_id m <=? n))).
  { intros m Hm. destruct (nf_junction m) eqn:J.
    - destruct ((0 <=? nf_id m) && (nf_id m <=? n)) eqn:B; [|reflexivity]. exfalso. apply andb_true_iff in B. destruct B as (B1 & B2).
      apply Z.leb_le in B1, B2. assert (X : In (nf_id m) (map nf_id (filter (fun m => negb (nf_junction m)) ns))).
      { eapply Permutation_in; [symmetry; exact PN|]. apply in_zseq. lia. }
      apply in_map_iff in X. destruct X as (m' & X1 & X2). apply filter_In in X2. destruct X2 as (X2 & X3).
      assert (m' = m); [|subst m'; rewrite J in X3; discriminate X3].
      clear - ND X1 X2 Hm. induction ns as [|x l IH]; [destruct Hm|]. cbn [map] in ND. inversion ND as [|? ? N1 N2]; subst.
      destruct Hm as [->|Hm], X2 as [->|X2]; auto.
      + exfalso. apply N1. rewrite <- X1. apply in_map. exact X2.
      + exfalso. apply N1. rewrite X1. apply in_map. exact Hm.
    - assert (X : In (nf_id m) (zseq 0 (Z.to_nat (n + 1)))).
      { eapply Permutation_in; [exact PN|]. apply in_map. apply filter_In. rewrite J. auto. }
      apply in_zseq in X. symmetry. apply negb_false_iff. apply andb_true_iff. split; apply Z.leb_le; lia. }
  split.
  { assert (Y : forall m, In m ns -> nf_bspot m = if (0 <=? nf_id m) && (nf_id m <=? n) then Some (nf_id m) else None).
    { intros m Hm. rewrite (NB m Hm), (Inz m Hm). destruct ((0 <=? nf_id m) && (nf_id m <=? n)); reflexivity. }
    clear - Y. induction ns as [|m l IH]; [constructor|]. cbn [map]. constructor; [apply Y; left; reflexivity|]. apply IH. intros x Hx. apply Y. right. exact Hx. }
  split.
  { intros i Hi. assert (X : In i (map nf_id (filter (fun m => negb (nf_junction m)) ns))) by (eapply Permutation_in; [symmetry; exact PN|exact Hi]).
    apply in_map_iff in X. destruct X as (m & <- & X). apply filter_In in X. apply in_map. apply X. }
  split; [rewrite map_map; apply (shows_column _ _ _ _ _ (fun m => option_map VInt (nf_dstr m)) L4); intros r _; unfold node_attrs; cbn; auto 10|].
  split; [rewrite <- SD, map_map; apply (shows_column _ _ _ _ _ (fun m => option_map VInt (sf_dstr m)) L5); intros r _; right; left; reflexivity|].
  intros d Hd. apply in_map_iff in Hd. destruct Hd as (m & Hd & Hm). eapply DI; eassumption.
Qed.
