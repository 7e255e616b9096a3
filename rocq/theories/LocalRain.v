(** * C102 for the complete command *)

From Coq Require Import QArith Qabs Lqa Lia.
From Verif Require Import Base BaseProofs Num Float64 Float64Proofs FillModel FillSpec FillProofs Dict DictProofs FlowModel FlowSpec FlowProofs AccumProofs
  LabelModel LabelSpec LabelProofs LabelFloat LabelThms CompSpec CompProofs VectorModel BluespotModel BluespotSpec BluespotProofs DemModel DemProofs
  LevelProofs NetModel NetSpec UntangleProofs UntangleFacts NetProofs NetThms NetworkModel NetworkSpec NetworkThms RainModel PipelineModel
  RainProofs RainThms LocalSpec LocalThms.
Local Open Scope Z_scope.

Lemma vols_edges : forall mm mm' (nodes : list (@node_feature Q)),
  Forall2 same_edges (map solver_node (simple_volumes QOps mm nodes)) (map solver_node (simple_volumes QOps mm' nodes)).
Proof. intros mm mm'. induction nodes as [|n l IH]; cbn; constructor; auto. split; reflexivity. Qed.

Lemma vols_change : forall mm mm' (q : Z -> bool) (nodes : list (@node_feature Q)),
  (forall n, In n nodes -> 0 <= nf_wshed n)%Q ->
  (Qsum (map input_change (filter (fun p => q (n_id (fst p)))
     (combine (map solver_node (simple_volumes QOps mm nodes)) (map solver_node (simple_volumes QOps mm' nodes))))) ==
   Qabs (mm' - mm) / 1000 * drained_area q (simple_volumes QOps mm nodes))%Q.
Proof.
  intros mm mm' q. unfold drained_area. induction nodes as [|n l IH]; intros P; [cbn; ring|].
  cbn [simple_volumes map combine filter solver_node fst n_id].
  fold (simple_volumes QOps mm l). fold (simple_volumes QOps mm' l).
  specialize (IH (fun m Hm => P m (or_intror Hm))).
  destruct (q (nf_id n)); [|exact IH].
  cbn [map Qsum fst]. rewrite IH. unfold input_change at 1. cbn [fst snd solver_node n_water n_cap].
  cbn [nmul QOps]. change (milli QOps) with (1 / 1000)%Q.
  assert (E : (Qabs (nf_wshed n * mm' * (1 / 1000) - nf_wshed n * mm * (1 / 1000)) == nf_wshed n * Qabs (mm' - mm) * (1 / 1000))%Q).
  { transitivity (Qabs (nf_wshed n * (mm' - mm) * (1 / 1000))); [apply Qabs_wd; ring|].
    rewrite !Qabs_Qmult. rewrite (Qabs_pos (nf_wshed n)) by (apply P; left; auto). reflexivity. }
  rewrite E. setoid_replace (nf_vol n - nf_vol n)%Q with 0%Q by ring.
  change (Qabs 0) with 0%Q. field.
Qed.

Theorem complete_change : forall cc, labels_components cc ->
  forall sp t dem f (use_accum : bool),
  size_ok sp dem -> dem32 dem -> dem_finite dem -> nrows dem * ncols dem <= 2 ^ 53 ->
  square_cells (gt1 t) (gt5 t) = true ->
  exists k, forall fuel, (fuel >= k)%nat -> forall mm mm', exists o o',
  complete sp cc fuel t dem f use_accum mm = Ok o /\ complete sp cc fuel t dem f use_accum mm' = Ok o' /\
  (forall p, In p (combine (co_final o) (co_final o')) ->
   forall up, (forall n v, In (n, v) (co_nodes o) -> (up (nf_id n) = true <-> drains_to (map solver_node (co_nodes o)) (nf_id n) (n_id (fst (fst p))))) ->
   vol_change p + spill_change p <= Qabs (mm' - mm) / 1000 * drained_area up (co_nodes o))%Q /\
  (Qsum (map vol_change (combine (co_final o) (co_final o'))) +
   Qsum (map spill_change (filter (fun p => is_root (fst (fst p))) (combine (co_final o) (co_final o')))) <=
   Qabs (mm' - mm) / 1000 * (inject_Z (nrows dem * ncols dem) * (Qabs (gt1 (gt_Q t)) * Qabs (gt5 (gt_Q t)))))%Q.
Proof.
  intros cc Hcc sp t dem f use_accum SO H32 HF Big SQ.
  destruct (chain_total cc Hcc sp use_accum t dem f SO H32 HF SQ) as (k & K).
  exists (Nat.max k (S (Z.to_nat (nrows dem * ncols dem)))). intros fuel Fu mm mm'.
  destruct (K fuel ltac:(lia)) as (dout & out & ED & EB).
  set (accum := if use_accum then Some (accum64 (do_accum dout)) else None) in *.
  assert (HA : accum = None \/ accum = Some (accum64 (do_accum dout))) by (unfold accum; destruct use_accum; auto).
  destruct (rain_shares cc Hcc sp fuel fuel _ _ dem dout t f accum out SO H32 HF Big ED HA EB) as (pps & Ep & Lp & R).
  destruct (dem_flow sp fuel _ _ dem dout SO H32 HF ED) as ([Q1 Q2] & _ & _).
  destruct (R true fuel) as (nodes & sts & Es & ND & _ & _ & V).
  { assert (1 <= nrows dem) by (destruct sp; cbn in SO; lia). assert (1 <= ncols dem) by (destruct sp; cbn in SO; lia).
    unfold rcells. rewrite length_cells_of.
    assert (E : nrows (do_flowdir dout) = nrows dem) by congruence. assert (E' : ncols (do_flowdir dout) = ncols dem) by congruence.
    rewrite E, E'. assert (Z.of_nat (Z.to_nat (nrows dem) * Z.to_nat (ncols dem)) = nrows dem * ncols dem) by (rewrite Nat2Z.inj_mul, !Z2Nat.id; auto; lia).
    lia. }
  { lia. }
  assert (UI : forall m, unique_ids (map solver_node (simple_volumes QOps m nodes))).
  { intros m. unfold unique_ids, simple_volumes. rewrite !map_map. exact ND. }
  assert (RUN : forall m, exists fin, process QOps (length (simple_volumes QOps m nodes)) (map solver_node (simple_volumes QOps m nodes)) = Ok fin /\
    complete sp cc fuel t dem f use_accum m = Ok (mkCO (simple_volumes QOps m nodes) sts fin)).
  { intros m. destruct (process_total QOps (map solver_node (simple_volumes QOps m nodes)) (length (simple_volumes QOps m nodes))) as (fin & Ef);
      [rewrite map_length; lia|]. exists fin. split; [exact Ef|].
    unfold complete. rewrite ED. cbn [bind]. fold accum. rewrite EB. cbn [bind]. rewrite Ep. cbn [bind]. rewrite Es. cbn [bind].
    rewrite Ef. reflexivity. }
  destruct (RUN mm) as (fin & Ef & Ec). destruct (RUN mm') as (fin' & Ef' & Ec').
  exists (mkCO (simple_volumes QOps mm nodes) sts fin), (mkCO (simple_volumes QOps mm' nodes) sts fin').
  split; [exact Ec|]. split; [exact Ec'|]. cbn [co_nodes co_final].
  destruct (V mm) as (_ & _ & AC). destruct (V 1000%Q) as (S1 & S2 & _).
  assert (W : forall n, In n nodes -> (0 <= nf_wshed n)%Q).
  { intros n Hn. specialize (S2 n (nf_wshed n * 1000 * milli QOps)%Q).
    assert (X : In (n, (nf_wshed n * 1000 * milli QOps)%Q) (simple_volumes QOps 1000%Q nodes)) by (unfold simple_volumes; apply in_map_iff; exists n; auto).
    apply S2 in X. change (milli QOps) with (1 / 1000)%Q in X.
    assert (E : (nf_wshed n * 1000 * (1 / 1000) == nf_wshed n)%Q) by field.
    destruct (nf_junction n); [rewrite E in X; rewrite X; apply Qle_refl|].
    destruct X as (ws & _ & X). rewrite E in X. rewrite X.
    apply Qmult_le_0_compat; [|discriminate]. apply Qmult_le_0_compat; [|apply Qmult_le_0_compat; apply Qabs_nonneg].
    change 0%Q with (inject_Z 0). rewrite <- Zle_Qle. lia. }
  split.
  - intros p Hp up UP.
    assert (UP' : forall m, In m (map solver_node (simple_volumes QOps mm nodes)) ->
      (up (n_id m) = true <-> drains_to (map solver_node (simple_volumes QOps mm nodes)) (n_id m) (n_id (fst (fst p))))).
    { intros m Hm. apply in_map_iff in Hm. destruct Hm as ((n & v) & <- & Hn). exact (UP n v Hn). }
    pose proof (process_upstream_change _ _ _ _ _ _ (UI mm) AC (vols_edges mm mm' nodes) Ef Ef' p Hp up UP') as C.
    rewrite vols_change in C by exact W.
    assert (VN : (vol_change p <= Qsum (map vol_change (filter (fun p => up (n_id (fst (fst p)))) (combine fin fin'))))%Q).
    { assert (G : forall l : list ((@node Q * option (@event Q)) * (@node Q * option (@event Q))), In p l -> (vol_change p <= Qsum (map vol_change l))%Q).
      { assert (NN : forall l : list ((@node Q * option (@event Q)) * (@node Q * option (@event Q))), (0 <= Qsum (map vol_change l))%Q)
          by (intros l; apply Qsum_nonneg; intros x Hx; apply in_map_iff in Hx; destruct Hx as (y & <- & _); apply Qabs_nonneg).
        induction l as [|a l IH]; intros []; cbn [map Qsum].
        - subst a. pose proof (NN l). lra.
        - specialize (IH H). pose proof (Qabs_nonneg (out_vol (snd a) - out_vol (fst a))) as N. fold (vol_change a) in N. lra. }
      apply G. apply filter_In. split; [exact Hp|].
      destruct (process_balance _ _ _ (UI mm) AC Ef) as (M & _). apply UP'; [|constructor].
      rewrite <- M. apply in_map. destruct p. eapply in_combine_l; eauto. }
    lra.
  - pose proof (process_total_change _ _ _ _ _ _ (UI mm) AC (vols_edges mm mm' nodes) Ef Ef') as C.
    pose proof (vols_change mm mm' (fun _ => true) nodes W) as X.
    assert (T : forall {A} (l : list A), filter (fun _ => true) l = l) by (intros A l; induction l; cbn; congruence).
    unfold drained_area in X. rewrite !T in X.
    assert (D : (Qsum (map (fun p => nf_wshed (fst p)) (simple_volumes QOps mm nodes)) ==
                 inject_Z (nrows dem * ncols dem) * (Qabs (gt1 (gt_Q t)) * Qabs (gt5 (gt_Q t))))%Q).
    { transitivity (Qsum (map snd (simple_volumes QOps 1000%Q nodes))).
      - unfold simple_volumes. rewrite !map_map. apply Qsum_ext. intros n _. cbn [fst snd nmul QOps].
        change (milli QOps) with (1 / 1000)%Q. field.
      - rewrite S1. field. }
    rewrite D in X. rewrite <- X. exact C.
Qed.
