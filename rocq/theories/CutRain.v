(** * C104 for the complete command *)

From Coq Require Import QArith Qabs Lqa Lia.
From Verif Require Import Base BaseProofs Num Float64 Float64Proofs FillModel FillSpec FillProofs Dict DictProofs FlowModel FlowSpec FlowProofs AccumProofs
  LabelModel LabelSpec LabelProofs LabelFloat LabelThms CompSpec CompProofs VectorModel BluespotModel BluespotSpec BluespotProofs DemModel DemProofs
  LevelProofs NetModel NetSpec UntangleProofs UntangleFacts NetProofs NetThms NetworkModel NetworkSpec NetworkThms RainModel PipelineModel
  RainProofs RainThms LocalSpec LocalThms LocalRain CutSpec CutThms.
Local Open Scope Z_scope.

Lemma vols_surplus : forall mm q (nodes : list (@node_feature Q)),
  (surplus (map solver_node (simple_volumes QOps mm nodes)) q ==
   mm / 1000 * drained_area q (simple_volumes QOps mm nodes) - held (map solver_node (simple_volumes QOps mm nodes)) q)%Q.
Proof.
  intros mm q. unfold surplus, drained_area, held. induction nodes as [|n l IH]; [cbn; ring|].
  cbn [simple_volumes map filter solver_node fst n_id]. fold (simple_volumes QOps mm l).
  destruct (q (nf_id n)); [|exact IH]. cbn [map Qsum fst]. rewrite IH. cbn [solver_node n_water n_cap].
  cbn [nmul QOps fst snd]. change (milli QOps) with (1 / 1000)%Q. field.
Qed.

Theorem complete_cut : forall cc, labels_components cc ->
  forall sp t dem f (use_accum : bool),
  size_ok sp dem -> dem32 dem -> dem_finite dem -> nrows dem * ncols dem <= 2 ^ 53 ->
  square_cells (gt1 t) (gt5 t) = true ->
  exists k, forall fuel, (fuel >= k)%nat -> forall mm, exists o,
  complete sp cc fuel t dem f use_accum mm = Ok o /\
  forall p, In p (co_final o) ->
  ((0 < out_spill p)%Q <-> exists q, part_above (map solver_node (co_nodes o)) (n_id (fst p)) q /\
     (held (map solver_node (co_nodes o)) q < mm / 1000 * drained_area q (co_nodes o))%Q) /\
  (forall q, part_above (map solver_node (co_nodes o)) (n_id (fst p)) q ->
     (mm / 1000 * drained_area q (co_nodes o) - held (map solver_node (co_nodes o)) q <= out_spill p)%Q) /\
  ((0 < out_spill p)%Q -> exists q, part_above (map solver_node (co_nodes o)) (n_id (fst p)) q /\
     (out_spill p == mm / 1000 * drained_area q (co_nodes o) - held (map solver_node (co_nodes o)) q)%Q).
Proof.
  intros cc Hcc sp t dem f use_accum SO H32 HF Big SQ.
  destruct (chain_total cc Hcc sp use_accum t dem f SO H32 HF SQ) as (k & K).
  exists (Nat.max k (S (Z.to_nat (nrows dem * ncols dem)))). intros fuel Fu mm.
  destruct (K fuel ltac:(lia)) as (dout & out & ED & EB).
  set (accum := if use_accum then Some (accum64 (do_accum dout)) else None) in *.
  assert (HA : accum = None \/ accum = Some (accum64 (do_accum dout))) by (unfold accum; destruct use_accum; auto).
  destruct (rain_shares cc Hcc sp fuel fuel _ _ dem dout t f accum out SO H32 HF Big ED HA EB) as (pps & Ep & Lp & R).
  destruct (dem_flow sp fuel _ _ dem dout SO H32 HF ED) as ([Q1 Q2] & _ & _).
  destruct (R true fuel) as (nodes & sts & Es & ND & _ & _ & V).
  { assert (1 <= nrows dem) by (destruct sp; cbn in SO; lia). assert (1 <= ncols dem) by (destruct sp; cbn in SO; lia).
    unfold rcells. rewrite length_cells_of.
    assert (E : nrows (do_flowdir dout) = nrows dem) by congruence. assert (E' : ncols (do_flowdir dout) = ncols dem) by congruence.
    rewrite E, E'. assert (Z.of_nat (Z.to_nat (nrows dem) * Z.to_nat (ncols dem)) = nrows dem * ncols dem) by (rewrite Nat2Z.inj_mul, !Z2Nat.id; auto; lia).
    lia. }
  { lia. }
  assert (UI : unique_ids (map solver_node (simple_volumes QOps mm nodes))).
  { unfold unique_ids, simple_volumes. rewrite !map_map. exact ND. }
  destruct (process_total QOps (map solver_node (simple_volumes QOps mm nodes)) (length (simple_volumes QOps mm nodes))) as (fin & Ef);
    [rewrite map_length; lia|].
  exists (mkCO (simple_volumes QOps mm nodes) sts fin). split.
  { unfold complete. rewrite ED. cbn [bind]. fold accum. rewrite EB. cbn [bind]. rewrite Ep. cbn [bind]. rewrite Es. cbn [bind].
    rewrite Ef. reflexivity. }
  destruct (V mm) as (_ & _ & AC). cbn [co_final co_nodes]. intros p Hp.
  destruct (process_cut _ _ _ UI AC Ef p Hp) as (_ & L & W).
  assert (L' : forall q, part_above (map solver_node (simple_volumes QOps mm nodes)) (n_id (fst p)) q ->
     (mm / 1000 * drained_area q (simple_volumes QOps mm nodes) - held (map solver_node (simple_volumes QOps mm nodes)) q <= out_spill p)%Q).
  { intros q P. specialize (L q P). rewrite vols_surplus in L. exact L. }
  assert (W' : (0 < out_spill p)%Q -> exists q, part_above (map solver_node (simple_volumes QOps mm nodes)) (n_id (fst p)) q /\
     (out_spill p == mm / 1000 * drained_area q (simple_volumes QOps mm nodes) - held (map solver_node (simple_volumes QOps mm nodes)) q)%Q).
  { intros P. destruct (W P) as (q & PA & _ & S). exists q. split; [exact PA|]. rewrite vols_surplus in S. exact S. }
  split; [|split; [exact L'|exact W']]. split.
  - intros P. destruct (W' P) as (q & PA & S). exists q. split; [exact PA|]. lra.
  - intros (q & PA & S). specialize (L' q PA). lra.
Qed.
