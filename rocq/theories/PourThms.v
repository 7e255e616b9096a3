(** * The two pour point rules compared *)

From Flocq Require Import IEEE754.BinarySingleNaN.
From Verif Require Import Base BaseProofs Num Float64 Float64Proofs FillModel FillSpec FillProofs FillThms FlowModel FlowSpec FlowProofs
  DemModel DemProofs FlowThms LabelModel LabelSpec LabelProofs LabelFloat CompSpec CompProofs VectorModel BluespotModel
  BluespotSpec BluespotProofs LevelProofs BluespotThms StepModel StepSpec StepThms.
Local Open Scope Z_scope.

Lemma assemble_inv : forall (t : geotransform b64) pix ix bst wst i p,
  nth_error (assemble_from F64Ops ix t pix bst wst) i = Some p ->
  exists r s w, nth_error pix i = Some r /\ nth_error bst i = Some s /\ nth_error wst i = Some w.
Proof.
  induction pix as [|r pix IH]; intros ix [|s bst] [|w wst] [|i] p H; try discriminate.
  - exists r, s, w. auto.
  - cbn in H. destruct (IH _ _ _ _ _ H) as (r' & s' & w' & ?). exists r', s', w'. auto.
Qed.

Lemma assemble_same : forall (t : geotransform b64) pix pix' bst wst i p p',
  nth_error (assemble_pourpoints F64Ops t pix bst wst) i = Some p ->
  nth_error (assemble_pourpoints F64Ops t pix' bst wst) i = Some p' ->
  pp_row p = pp_row p' -> pp_col p = pp_col p' -> p = p'.
Proof.
  intros t pix pix' bst wst i p p' H H' R C. unfold assemble_pourpoints in *.
  destruct (assemble_inv _ _ _ _ _ _ _ H) as (r & s & w & E1 & E2 & E3).
  destruct (assemble_inv _ _ _ _ _ _ _ H') as (r' & s' & w' & E1' & E2' & E3').
  rewrite E2 in E2'. injection E2' as <-. rewrite E3 in E3'. injection E3' as <-.
  rewrite (assemble_nth t pix 0 bst wst i r s w E1 E2 E3) in H.
  rewrite (assemble_nth t pix' 0 bst wst i r' s w E1' E2 E3) in H'.
  injection H as <-. injection H' as <-. cbn [pp_row pp_col] in R, C. rewrite R, C. reflexivity.
Qed.

Theorem single_outlet : forall cc (sp : bool) fuel fuel' t1 t5 dem dout t depths f out out',
  labels_components cc ->
  size_ok sp dem -> dem32 dem -> dem_finite dem -> nrows dem * ncols dem <= 2 ^ 53 ->
  dem_process sp fuel t1 t5 dem = Ok dout -> same_shape dem depths ->
  bluespot_process sp cc fuel' t depths (do_flowdir dout) (Some f) None (Some dem) = Ok out ->
  bluespot_process sp cc fuel' t depths (do_flowdir dout) (Some f) (Some (accum64 (do_accum dout))) (Some dem) = Ok out' ->
  bo_labeled out = bo_labeled out' /\ bo_watersheds out = bo_watersheds out' /\
  forall l c, 0 <= l <= bo_nlabels out ->
  (forall d, pour_ok (do_flowdir dout) (bo_labeled out) l d <-> d = c) ->
  exists p, pp_row p = fst c /\ pp_col p = snd c /\
    nth_error (bo_pourpoints out) (Z.to_nat l) = Some p /\ nth_error (bo_pourpoints out') (Z.to_nat l) = Some p.
Proof.
  intros cc sp fuel fuel' t1 t5 dem dout t depths f out out' Hcc S H32 HF Big H Sd HB HB'.
  pose proof (size_pos _ _ S) as [Hr Hc].
  assert (Hr' : 1 <= nrows depths) by (destruct Sd; lia). assert (Hc' : 1 <= ncols depths) by (destruct Sd; lia).
  destruct (run_inv cc Hcc sp _ _ _ _ _ _ _ _ Hr' Hc' HB) as (st & new & bst & wst & pix & A1 & A2 & A3 & A4 & A5 & A6 & A7 & _ & A9).
  destruct (run_inv cc Hcc sp _ _ _ _ _ _ _ _ Hr' Hc' HB') as (st' & new' & bst' & wst' & pix' & B1 & B2 & B3 & B4 & B5 & B6 & B7 & _ & B9).
  rewrite A1 in B1. injection B1 as <-. rewrite A2 in B2. injection B2 as <-.
  assert (EL : bo_labeled out = bo_labeled out') by congruence. assert (EN : bo_nlabels out = bo_nlabels out') by congruence.
  rewrite <- EL in *. rewrite A5 in B5. injection B5 as <-. rewrite A6 in B6. injection B6 as EW.
  rewrite <- EW in *. rewrite A7 in B7. injection B7 as <-.
  split; [auto|]. split; [auto|]. intros l c Hl U.
  assert (Ex : exists x, has_label (bo_labeled out) l x). { exists c. apply (proj2 (U c) eq_refl). }
  destruct (chain_pour_ok cc sp _ _ _ _ _ _ _ _ _ _ _ Hcc S H32 HF Big H Sd (or_introl eq_refl) HB) as (_ & X).
  destruct (X l Hl Ex) as (p & P1 & P2 & P3). apply U in P3.
  destruct (chain_pour_ok cc sp _ _ _ _ _ _ _ _ _ _ _ Hcc S H32 HF Big H Sd (or_intror eq_refl) HB') as (_ & X').
  rewrite <- EL, <- EN in X'. destruct (X' l Hl Ex) as (p' & P1' & P2' & P3'). apply U in P3'.
  exists p. subst c. cbn [fst snd]. split; [auto|]. split; [auto|]. split; [auto|].
  injection P3' as Q1 Q2. rewrite P1'. f_equal. symmetry.
  rewrite A9 in P1. rewrite B9 in P1'. apply (assemble_same _ _ _ _ _ _ _ _ P1 P1'); auto.
Qed.

(** One cell to spill over, (3,4), next to (2,3) and (3,3). *)
Definition fork_dem : raster b64 := zrows [[9;9;9;9;9];[9;9;0;0;9];[9;9;9;0;9];[9;9;9;0;3];[9;9;9;9;9]].

Definition thresholdb (dem filled : raster b64) (lab : raster Z) (l : Z) (c : cell) : bool :=
  negb (at_ lab c =? l) &&
  existsb (fun d => (at_ lab d =? l) && adjacentb c d && Beqb (at_ dem c) (at_ filled d)) (rcells lab).

Lemma thresholdb_ok : forall dem filled lab l c, same_shape dem lab -> inside (nrows dem) (ncols dem) c ->
  (threshold dem filled lab l c <-> thresholdb dem filled lab l c = true).
Proof.
  intros dem filled lab l c [Er Ec] Hi. unfold threshold, thresholdb. rewrite andb_true_iff, negb_true_iff, Z.eqb_neq, existsb_exists. split.
  - intros (_ & N & d & [Hd Ed] & A & E). split; auto. exists d. split; [apply in_cells_of; auto|].
    rewrite !andb_true_iff. rewrite Z.eqb_eq. split; [split; [auto|apply adjacentb_spec; auto]|auto].
  - intros (N & d & Hd & X). apply in_cells_of in Hd. rewrite !andb_true_iff, Z.eqb_eq in X. destruct X as [[X1 X2] X3].
    split; [auto|]. split; [auto|]. exists d. split; [split; auto|]. split; [apply adjacentb_spec; auto|auto].
Qed.

Definition fork_check (dout : dem_out) : bool :=
  let run a := bluespot_process false cc_memo 40 ex_gt (do_depths dout) (do_flowdir dout) (Some (fun _ => true)) a (Some fork_dem) in
  match run None, run (Some (accum64 (do_accum dout))) with
  | Ok o, Ok o' =>
      zz_eqb (to_rows (bo_labeled o)) [[0;0;0;0;0];[0;0;1;1;0];[0;0;0;1;0];[0;0;0;1;0];[0;0;0;0;0]] &&
      forallb (fun c => Bool.eqb (thresholdb fork_dem (do_filled dout) (bo_labeled o) 1 c) (cell_eqb c (3, 4))) (rcells fork_dem) &&
      cells_eqb (map (fun p => (pp_row p, pp_col p)) (bo_pourpoints o)) [(3, 4); (3, 3)] &&
      cells_eqb (map (fun p => (pp_row p, pp_col p)) (bo_pourpoints o')) [(3, 4); (2, 3)]
  | _, _ => false
  end.

Theorem fork_refuted : exists dem dout out out',
  size_ok false dem /\ dem32 dem /\ dem_finite dem /\
  dem_process false 40 (gt1 ex_gt) (gt5 ex_gt) dem = Ok dout /\
  bluespot_process false cc_memo 40 ex_gt (do_depths dout) (do_flowdir dout) (Some (fun _ => true)) None (Some dem) = Ok out /\
  bluespot_process false cc_memo 40 ex_gt (do_depths dout) (do_flowdir dout) (Some (fun _ => true))
    (Some (accum64 (do_accum dout))) (Some dem) = Ok out' /\
  to_rows (bo_labeled out) = [[0;0;0;0;0];[0;0;1;1;0];[0;0;0;1;0];[0;0;0;1;0];[0;0;0;0;0]] /\
  (forall c, threshold dem (do_filled dout) (bo_labeled out) 1 c <-> c = (3, 4)) /\
  map (fun p => (pp_row p, pp_col p)) (bo_pourpoints out) = [(3, 4); (3, 3)] /\
  map (fun p => (pp_row p, pp_col p)) (bo_pourpoints out') = [(3, 4); (2, 3)].
Proof.
  assert (A : on_ok fork_check (dem_process false 40 (gt1 ex_gt) (gt5 ex_gt) fork_dem) = true) by (vm_compute; reflexivity).
  apply on_ok_ex in A. destruct A as (dout & E & A). unfold fork_check in A. cbv beta zeta in A.
  destruct (bluespot_process false cc_memo 40 ex_gt (do_depths dout) (do_flowdir dout) (Some (fun _ => true)) None (Some fork_dem)) as [o| |] eqn:B;
    [|discriminate A|discriminate A].
  destruct (bluespot_process false cc_memo 40 ex_gt (do_depths dout) (do_flowdir dout) (Some (fun _ => true))
    (Some (accum64 (do_accum dout))) (Some fork_dem)) as [o'| |] eqn:B'; [|discriminate A|discriminate A].
  rewrite !andb_true_iff in A. destruct A as [[[A1 A2] A3] A4].
  assert (D : dem32 fork_dem /\ dem_finite fork_dem) by (apply dem_ok; vm_compute; reflexivity). destruct D as [D1 D2].
  assert (S : size_ok false fork_dem) by (cbn; lia).
  exists fork_dem, dout, o, o'. split; [exact S|]. split; [exact D1|]. split; [exact D2|]. split; [exact E|]. split; [exact B|]. split; [exact B'|].
  split; [apply zz_eq; exact A1|]. split; [|split; apply cells_eq; [exact A3|exact A4]].
  destruct (depths_facts _ _ _ _ _ _ S D1 D2 E) as (Sd & _).
  assert (Sl : same_shape fork_dem (bo_labeled o)).
  {
    destruct Sd as [Q1 Q2]. assert (1 <= nrows (do_depths dout)) by (rewrite <- Q1; cbn; lia).
    assert (1 <= ncols (do_depths dout)) by (rewrite <- Q2; cbn; lia).
    destruct (process_filter cc_memo cc_memo_ok false 40 ex_gt (do_depths dout) (do_flowdir dout) (fun _ => true) None (Some fork_dem) o) as ([R1 R2] & _); [assumption|assumption|exact B|].
    split; congruence. }
  rewrite forallb_forall in A2. intros c. split.
  - intros T. pose proof (proj1 T) as Hi. specialize (A2 c (proj2 (in_cells_of _ _ _) Hi)).
    apply Bool.eqb_prop in A2. rewrite (thresholdb_ok _ _ _ _ _ Sl Hi) in T. rewrite T in A2.
    destruct (cell_eqb_spec c (3, 4)); [assumption|discriminate A2].
  - intros ->. assert (Hi : inside (nrows fork_dem) (ncols fork_dem) (3, 4)) by (split; cbn; lia).
    apply (thresholdb_ok _ _ _ _ _ Sl Hi). specialize (A2 _ (proj2 (in_cells_of _ _ _) Hi)). apply Bool.eqb_prop in A2. rewrite A2. reflexivity.
Qed.

(** A bluespot of two cells with one outlet. *)
Definition lane_dem : raster b64 := zrows [[5;5;5;5];[5;0;0;3];[5;5;5;5]].

Definition lane_check (dout : dem_out) : bool :=
  let run a := bluespot_process false cc_memo 40 ex_gt (do_depths dout) (do_flowdir dout) (Some (fun _ => true)) a (Some lane_dem) in
  match run None, run (Some (accum64 (do_accum dout))) with
  | Ok o, Ok o' =>
      zz_eqb (to_rows (bo_labeled o)) [[0;0;0;0];[0;1;1;0];[0;0;0;0]] && (bo_nlabels o =? 1) &&
      forallb (fun c => Bool.eqb (at_ (bo_labeled o) c =? 1) (cell_eqb c (1, 1) || cell_eqb c (1, 2))) (rcells lane_dem) &&
      match target (do_flowdir dout) (1, 1) with Some d => cell_eqb d (1, 2) | None => false end
  | _, _ => false
  end.

Theorem lane_outlet : exists dout out out',
  size_ok false lane_dem /\ dem32 lane_dem /\ dem_finite lane_dem /\ same_shape lane_dem (do_depths dout) /\
  dem_process false 40 (gt1 ex_gt) (gt5 ex_gt) lane_dem = Ok dout /\
  bluespot_process false cc_memo 40 ex_gt (do_depths dout) (do_flowdir dout) (Some (fun _ => true)) None (Some lane_dem) = Ok out /\
  bluespot_process false cc_memo 40 ex_gt (do_depths dout) (do_flowdir dout) (Some (fun _ => true))
    (Some (accum64 (do_accum dout))) (Some lane_dem) = Ok out' /\
  bo_nlabels out = 1 /\ to_rows (bo_labeled out) = [[0;0;0;0];[0;1;1;0];[0;0;0;0]] /\
  (forall d, pour_ok (do_flowdir dout) (bo_labeled out) 1 d <-> d = (1, 2)).
Proof.
  assert (A : on_ok lane_check (dem_process false 40 (gt1 ex_gt) (gt5 ex_gt) lane_dem) = true) by (vm_compute; reflexivity).
  apply on_ok_ex in A. destruct A as (dout & E & A). unfold lane_check in A. cbv beta zeta in A.
  destruct (bluespot_process false cc_memo 40 ex_gt (do_depths dout) (do_flowdir dout) (Some (fun _ => true)) None (Some lane_dem)) as [o| |] eqn:B;
    [|discriminate A|discriminate A].
  destruct (bluespot_process false cc_memo 40 ex_gt (do_depths dout) (do_flowdir dout) (Some (fun _ => true))
    (Some (accum64 (do_accum dout))) (Some lane_dem)) as [o'| |] eqn:B'; [|discriminate A|discriminate A].
  rewrite !andb_true_iff in A. destruct A as [[[A1 A2] A3] A4]. apply Z.eqb_eq in A2.
  assert (D : dem32 lane_dem /\ dem_finite lane_dem) by (apply dem_ok; vm_compute; reflexivity). destruct D as [D1 D2].
  assert (S : size_ok false lane_dem) by (cbn; lia).
  destruct (depths_facts _ _ _ _ _ _ S D1 D2 E) as (Sd & _).
  destruct (dem_flow _ _ _ _ _ _ S D1 D2 E) as (Sf & _).
  exists dout, o, o'. split; [exact S|]. split; [exact D1|]. split; [exact D2|]. split; [exact Sd|]. split; [exact E|].
  split; [exact B|]. split; [exact B'|]. split; [exact A2|]. split; [apply zz_eq; exact A1|].
  assert (Sl : same_shape lane_dem (bo_labeled o)).
  { destruct Sd as [Q1 Q2]. assert (1 <= nrows (do_depths dout)) by (rewrite <- Q1; cbn; lia).
    assert (1 <= ncols (do_depths dout)) by (rewrite <- Q2; cbn; lia).
    destruct (process_filter cc_memo cc_memo_ok false 40 ex_gt (do_depths dout) (do_flowdir dout) (fun _ => true) None (Some lane_dem) o) as ([R1 R2] & _); [assumption|assumption|exact B|].
    split; congruence. }
  rewrite forallb_forall in A3.
  assert (Lab : forall c, has_label (bo_labeled o) 1 c <-> c = (1, 1) \/ c = (1, 2)).
  { intros c. split.
    - intros [Hi L]. destruct Sl as [Q1 Q2]. rewrite <- Q1, <- Q2 in Hi. specialize (A3 c (proj2 (in_cells_of _ _ _) Hi)).
      apply Bool.eqb_prop in A3. rewrite L in A3. cbn [Z.eqb] in A3. symmetry in A3. apply orb_true_iff in A3.
      destruct A3 as [A3|A3]; [left; destruct (cell_eqb_spec c (1, 1)); [assumption|discriminate A3] |
        right; destruct (cell_eqb_spec c (1, 2)); [assumption|discriminate A3]].
    - intros Hc. assert (Hi : inside (nrows lane_dem) (ncols lane_dem) c) by (destruct Hc; subst c; split; cbn; lia).
      specialize (A3 c (proj2 (in_cells_of _ _ _) Hi)). apply Bool.eqb_prop in A3. destruct Sl as [Q1 Q2].
      split; [rewrite <- Q1, <- Q2; assumption|]. apply Z.eqb_eq. rewrite A3. destruct Hc; subst c; reflexivity. }
  assert (No : ~ pour_ok (do_flowdir dout) (bo_labeled o) 1 (1, 1)).
  { intros [_ P]. destruct (target (do_flowdir dout) (1, 1)) as [d|] eqn:T; [|discriminate A4].
    destruct (cell_eqb_spec d (1, 2)); [subst d|discriminate A4].
    destruct Sf as [Q1 Q2]. assert (I1 : inside (nrows (do_flowdir dout)) (ncols (do_flowdir dout)) (1, 1)) by (rewrite <- Q1, <- Q2; split; cbn; lia).
    assert (I2 : inside (nrows (do_flowdir dout)) (ncols (do_flowdir dout)) (1, 2)) by (rewrite <- Q1, <- Q2; split; cbn; lia).
    assert (X : (1, 2) = (1, 1) :> cell). { apply P; [apply pa_step with (1, 2); [split; [exact I1|split; [exact I2|exact T]]|apply pa_here; exact I2]|].
      apply (proj2 (Lab (1, 2))). right; reflexivity. }
    discriminate X. }
  destruct (chain_pour_ok cc_memo false _ _ _ _ _ _ _ _ _ _ _ cc_memo_ok S D1 D2 ltac:(cbn; lia) E Sd (or_introl eq_refl) B) as (_ & X).
  destruct (X 1) as (p & _ & _ & P). { rewrite A2. lia. } { exists (1, 1). apply Lab. left; reflexivity. }
  assert (Pc : (pp_row p, pp_col p) = (1, 2)). { destruct (proj1 (Lab _) (proj1 P)) as [Y|Y]; [rewrite Y in P; contradiction|exact Y]. }
  rewrite Pc in P. intros d. split.
  - intros Q. destruct (proj1 (Lab _) (proj1 Q)) as [->|Y]; [contradiction|exact Y].
  - intros ->. exact P.
Qed.
