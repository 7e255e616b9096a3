(** * Final polygons of full bluespots *)

From Coq Require Import QArith Qabs Lqa.
From Verif Require Import Base BaseProofs Num Float64 FloatQ FillSpec FillThms LabelModel LabelSpec CompSpec CompProofs VectorModel DemModel DemProofs
  BluespotModel BluespotSpec BluespotProofs LevelProofs BluespotThms NetModel NetSpec NetworkModel RainModel RainThms PipelineModel ApproxModel CompleteModel
  GridProofs CompleteThms PolygonSpec PolygonThms.
Local Open Scope Z_scope.

(** An id whose cells keep it in another raster with no more cells of that id: links carry over. *)
Lemma linked_carry : forall ids ids', same_shape ids ids' -> forall i,
  (forall c, inside (nrows ids) (ncols ids) c -> at_ ids c = i -> at_ ids' c = i) -> i <> 0 ->
  forall c d, linked ids c d -> at_ ids c = i -> linked ids' c d.
Proof.
  intros ids ids' (S1 & S2) i K N c d H. induction H as [c I M|a b c H IH A I E]; intros Ei.
  - apply ln_here; [rewrite <- S1, <- S2; exact I|rewrite (K c I Ei); exact N].
  - destruct (linked_same _ _ _ H) as ((Ib & Eb) & _). eapply ln_step; [apply IH; exact Ei|exact A|rewrite <- S1, <- S2; exact I|].
    rewrite (K b Ib), (K c I); congruence.
Qed.

(** Links stay within an id. *)
Lemma one_polygon : forall ids ids' ps i, same_shape ids ids' -> i <> 0 ->
  (forall c, inside (nrows ids) (ncols ids) c -> at_ ids c = i <-> at_ ids' c = i) ->
  (forall c d, inside (nrows ids) (ncols ids) c -> inside (nrows ids) (ncols ids) d -> at_ ids c = i -> at_ ids d = i -> linked ids c d) ->
  (exists c, has_label ids i c) -> polygonized ids' ps ->
  exists j cs, nth_error ps j = Some (i, cs) /\ (forall c, In c cs <-> has_label ids i c) /\
    forall k ds, nth_error ps k = Some (i, ds) -> k = j.
Proof.
  intros ids ids' ps i S N K Lk (c0 & I0 & E0) P. destruct S as (S1 & S2).
  assert (Cells : forall cs, In (i, cs) ps -> forall c, In c cs <-> has_label ids i c).
  { intros cs Hi c. destruct (pg_region _ _ P i cs Hi) as (b & (Ib & Eb) & _ & D). rewrite D. rewrite <- S1, <- S2 in Ib. split.
    - intros H. apply linked_same in H. destruct H as ((Ic & Ec) & _). rewrite <- S1, <- S2 in Ic. split; [exact Ic|]. apply K; [exact Ic|congruence].
    - intros (Ic & Ec). apply K in Eb; [|exact Ib]. apply (linked_carry ids ids' (conj S1 S2) i); [|exact N|apply Lk; auto|exact Eb].
      intros d Id Ed. apply (K d Id). exact Ed. }
  destruct (pg_covered _ _ P c0) as (i' & cs & H1 & H2); [rewrite <- S1, <- S2; exact I0|rewrite (proj1 (K c0 I0) E0); exact N|].
  assert (i' = i) as ->.
  { destruct (pg_region _ _ P i' cs H1) as (b & (Ib & Eb) & _ & D). apply D in H2. apply linked_same in H2. destruct H2 as ((_ & E) & _).
    rewrite (proj1 (K c0 I0) E0) in E. congruence. }
  destruct (In_nth_error _ _ H1) as (j & Ej). exists j, cs. split; [exact Ej|]. split; [apply Cells; exact H1|].
  intros k ds Ek. apply (pg_once _ _ P k j i ds i cs c0 Ek Ej); [|exact H2]. apply (Cells ds (nth_error_In _ _ Ek)). split; auto.
Qed.

Theorem final_full : forall cc, labels_components cc -> forall t dem f (use_accum : bool) g,
  size_ok false dem -> dem32 dem -> dem_finite dem -> nrows dem * ncols dem <= 2 ^ 53 ->
  square_cells (gt1 t) (gt5 t) = true -> grid_dem g dem -> (0 < Qabs (b64_Q (gt5 t)) * Qabs (b64_Q (gt1 t)))%Q ->
  exists k, forall fuel, (fuel >= k)%nat -> forall mm zres, (0 < zres)%Q ->
  exists a, complete_all false cc fuel t dem f use_accum mm zres = Ok a /\
  forall nd e qs, In (nd, Some e) (co_final (ca_volumes a)) -> 1 <= n_id nd <= bo_nlabels (ca_bluespots a) -> (n_cap nd <= e_vol e)%Q ->
    polygonized (fo_labels (ca_finish a)) qs ->
    exists j cs, nth_error qs j = Some (n_id nd, cs) /\ (forall c, In c cs <-> has_label (bo_labeled (ca_bluespots a)) (n_id nd) c) /\
      forall k ds, nth_error qs k = Some (n_id nd, ds) -> k = j.
Proof.
  intros cc Hcc t dem f use_accum g SO H32 HF Big Sq GD Ar.
  destruct (complete_succeeds cc Hcc false t dem f use_accum SO H32 HF Big Sq) as (k1 & W).
  destruct (final_depths_bounds cc Hcc t dem f use_accum g SO H32 HF Big Sq GD Ar) as (k2 & B).
  exists (Nat.max k1 k2). intros fuel Hf mm zres Hz.
  destruct (W fuel ltac:(lia) mm zres Hz) as (a & E & _ & _ & _ & (S1 & S2) & _ & M).
  destruct (B fuel ltac:(lia) mm zres Hz) as (a' & E' & F). rewrite E in E'. injection E' as <-.
  exists a. split; [exact E|]. intros nd e qs He Hn Full Q. cbv zeta in M, F.
  unfold complete_all in E. apply bind_ok in E. destruct E as (dout & ED & E). apply bind_ok in E. destruct E as (out & EB & E).
  apply bind_ok in E. destruct E as (pps & _ & E). apply bind_ok in E. destruct E as ([nodes streams] & _ & E). cbv zeta in E.
  apply bind_ok in E. destruct E as (final & _ & E). apply bind_ok in E. destruct E as (fin & _ & E). injection E as <-.
  cbn [ca_bluespots ca_finish ca_dem ca_volumes] in *.
  destruct (depths_facts false fuel _ _ dem dout SO H32 HF ED) as ((D1 & D2) & Dp & _).
  assert (Hr : 1 <= nrows (do_depths dout)) by (cbn in SO; lia).
  assert (Hc : 1 <= ncols (do_depths dout)) by (cbn in SO; lia).
  destruct (process_filter cc Hcc false _ _ _ _ _ _ _ _ Hr Hc EB) as ((L1 & L2) & Nm & NZ & _).
  destruct (run_inv cc Hcc false _ _ _ _ _ _ _ _ Hr Hc EB) as (st & new & bst & wst & pix & _ & _ & E1 & E2 & _).
  pose proof (Hcc new) as CC. rewrite <- E1 in CC. pose proof (labels_linked _ _ _ CC) as Lk.
  assert (T1 : nrows dem = nrows (bo_labeled out)) by congruence. assert (T2 : ncols dem = ncols (bo_labeled out)) by congruence.
  apply (one_polygon (bo_labeled out) (fo_labels fin)); [split; congruence|lia| | | |exact Q].
  - intros c Ic. rewrite <- T1, <- T2 in Ic. destruct (M c Ic) as (M0 & M1). destruct (Z.eq_dec (at_ (bo_labeled out) c) 0) as [Z0|NZ0].
    + destruct (M0 Z0) as (-> & _). lia.
    + destruct (M1 NZ0) as (o & _ & _ & A1 & A2). split; intros X.
      * destruct (Qlt_le_dec (lf_z o) (b64_Q (at_ dem c))) as [Y|Y]; [|destruct (A2 Y); congruence]. exfalso.
        destruct (A1 Y) as (Y1 & _). destruct (F c Ic) as (_ & F2). destruct (F2 nd e He NZ0 ltac:(congruence)) as (F3 & _). specialize (F3 Full).
        rewrite Y1 in F3. destruct (grid_depths g fuel _ _ dem dout ltac:(cbn in SO; lia) ltac:(cbn in SO; lia) H32 HF GD ED c Ic) as (Fd & _).
        pose proof Ic as Ic'. rewrite D1, D2 in Ic'. apply (NZ c Ic') in NZ0. destruct NZ0 as (NZ0 & _). destruct c as [r q]. cbn in NZ0.
        assert (Eq : eq64 (at_ (do_depths dout) (r, q)) f64_zero) by (apply b64_Q_eq; [exact Fd|reflexivity|rewrite <- F3; reflexivity]).
        unfold eq64 in Eq. unfold at_ in Eq. cbn [fst snd] in Eq. rewrite Eq in NZ0. discriminate NZ0.
      * destruct (Qlt_le_dec (lf_z o) (b64_Q (at_ dem c))) as [Y|Y]; [destruct (A1 Y); lia|destruct (A2 Y); congruence].
  - intros c d Ic Id Ec Ed. apply Lk; auto; lia.
  - destruct Nm as (_ & _ & U). apply U. exact Hn.
Qed.
