(** * Water tables of bluespots; where water leaves them *)

From Coq Require Import Reals Lra.
From Flocq Require Import IEEE754.BinarySingleNaN.
From Verif Require Import Base BaseProofs Num Float64 Float64Proofs Float32Proofs FillModel FillSpec FillProofs NoFlatsProofs
  FillThms FlowModel FlowSpec FlowProofs AccumProofs DemModel DemProofs LabelModel LabelSpec LabelProofs LabelFloat CompSpec
  VectorModel BluespotModel BluespotSpec BluespotProofs.
Local Open Scope Z_scope.

Lemma rank_le_abs : forall x : b64, is_finite x = true -> rank x <= rank (Babs x).
Proof.
  intros x F. apply rank_le_R; auto; [rewrite is_finite_Babs; auto|]. rewrite B2R_Babs. apply RRle_abs.
Qed.

(** Water at a level above everything escapes. *)
Lemma escapes_high : forall rows cols (t : cell -> b64) L,
  (forall c, inside rows cols c -> le64 (t c) L) -> forall c, inside rows cols c ->
  escapes le64 rows cols t L c.
Proof.
  intros rows cols t L H [r k] Hc. destruct Hc as [Hr Hk]. cbn in Hr, Hk.
  remember (Z.to_nat r) as n eqn:E. revert r Hr E. induction n as [|n IH]; intros r Hr E.
  - apply esc_edge; [|apply H; split; cbn; lia]. unfold on_edge, inside. cbn. lia.
  - apply esc_step with (r - 1, k).
    + unfold inside. cbn. lia.
    + apply H. unfold inside. cbn. lia.
    + unfold adjacent. cbn. split; [intros Q; inversion Q; lia|lia].
    + apply IH; lia.
Qed.

Lemma fill64_finite : forall dem, 2 <= nrows dem -> 2 <= ncols dem -> dem32 dem -> dem_finite dem ->
  forall fuel f, fill64 fuel dem = Ok f -> dem_finite f.
Proof.
  intros dem Hr Hc H32 HF fuel f H. destruct (fill64_basic dem Hr Hc H32 _ _ H) as (Er & Ec & F32 & Ge & _).
  intros c Hi. pose proof Hi as Hi'. rewrite Er, Ec in Hi'.
  destruct f64_1_1000 as [F1 _].
  assert (le64 (at_ f c) (f64 1 1000)).
  { apply (fill64_level dem Hr Hc H32 fuel f H c (f64 1 1000) Hi'); [apply finite_not_nan; auto|].
    apply escapes_high; auto. intros d Hd. destruct (H32 d Hd) as [Nd Sd].
    pose proof (f32_small _ Sd (HF d Hd)) as A. specialize (HF d Hd). pose proof (rank_le_abs _ HF).
    apply le64_rank in A; [|apply finite_not_nan; rewrite is_finite_Babs; auto| apply finite_not_nan; auto].
    apply le64_rank; auto; [apply finite_not_nan; auto|lia]. }
  destruct (F32 c Hi) as [Nc _]. specialize (HF c Hi'). specialize (Ge c Hi').
  apply le64_rank in H0; auto; [|apply finite_not_nan; auto]. apply le64_rank in Ge; auto; [|apply finite_not_nan; auto].
  pose proof (rank_finite_bound _ HF). pose proof (rank_finite_bound _ F1). apply rank_finite; auto. lia.
Qed.

(** Neighbours that are both under water stand at one level. *)
Lemma neighbours_level : forall dem, 2 <= nrows dem -> 2 <= ncols dem -> dem32 dem ->
  forall fuel f, fill64 fuel dem = Ok f ->
  forall c d, inside (nrows dem) (ncols dem) c -> inside (nrows dem) (ncols dem) d -> adjacent d c ->
  lt64 (at_ dem d) (at_ f d) -> le64 (at_ f d) (at_ f c).
Proof.
  intros dem Hr Hc H32 fuel f H c d Hic Hid A Wet.
  destruct (fill64_basic dem Hr Hc H32 _ _ H) as (Er & Ec & F32 & Ge & _).
  assert (Nfd : not_nan (at_ f d)) by (apply F32; rewrite Er, Ec; auto).
  assert (Nfc : not_nan (at_ f c)) by (apply F32; rewrite Er, Ec; auto).
  assert (Nd : not_nan (at_ dem d)) by (apply H32; auto).
  apply lt64_rank in Wet; auto. apply le64_rank; auto.
  destruct (Z_le_gt_dec (rank (at_ f d)) (rank (at_ f c))) as [|G]; auto. exfalso.
  set (L := if Bleb (at_ dem d) (at_ f c) then at_ f c else at_ dem d).
  assert (NL : not_nan L /\ rank (at_ dem d) <= rank L /\ rank (at_ f c) <= rank L /\ rank L < rank (at_ f d)).
  { unfold L. rewrite Bleb_rank by auto. destruct (Z.leb_spec (rank (at_ dem d)) (rank (at_ f c))); auto.
    - split; [auto|]. lia.
    - split; [auto|]. lia. }
  destruct NL as (NL & L1 & L2 & L3).
  assert (le64 (at_ f d) L).
  { apply (fill64_level dem Hr Hc H32 fuel f H d L Hid NL). apply esc_step with c; auto.
    - apply le64_rank; auto.
    - apply (fill64_level dem Hr Hc H32 fuel f H c L Hic NL). apply le64_rank; auto. }
  apply le64_rank in H0; auto. lia.
Qed.

(** Depths: filled minus terrain, in float32. *)
Section Depths.
Variables dem f : raster b64.
Hypothesis Er : nrows f = nrows dem.
Hypothesis Ec : ncols f = ncols dem.
Hypothesis D32 : dem32 dem.
Hypothesis DF : dem_finite dem.
Hypothesis F32 : dem32 f.
Hypothesis FF : dem_finite f.
Hypothesis Ge : forall c, inside (nrows dem) (ncols dem) c -> le64 (at_ dem c) (at_ f c).
Hypothesis Edge : forall c, on_edge (nrows dem) (ncols dem) c -> at_ f c = at_ dem c.
Let dp := raster_sub32 f dem.

Lemma dp_at : forall c, at_ dp c = f32_sub (at_ f c) (at_ dem c).
Proof. reflexivity. Qed.

Lemma in_f : forall c, inside (nrows dem) (ncols dem) c -> inside (nrows f) (ncols f) c.
Proof. intros. rewrite Er, Ec. auto. Qed.

Lemma dp_not_nan : forall c, inside (nrows dem) (ncols dem) c -> not_nan (at_ dp c).
Proof.
  intros c Hi. pose proof (in_f c Hi) as Hf. rewrite dp_at.
  apply sub32_not_nan; [apply F32|apply D32|apply FF|apply DF]; auto.
Qed.

Lemma dp_pos : forall c, inside (nrows dem) (ncols dem) c ->
  (lt64 f64_zero (at_ dp c) <-> lt64 (at_ dem c) (at_ f c)).
Proof.
  intros c Hi. pose proof (in_f c Hi) as Hf. pose proof (dp_not_nan c Hi) as N.
  destruct (F32 c Hf) as [N1 S1], (D32 c Hi) as [N2 S2].
  rewrite lt64_rank, lt64_rank; auto; [|reflexivity]. rewrite rank0, dp_at.
  apply (sub32_sign (at_ f c) (at_ dem c) S1 S2 (FF c Hf) (DF c Hi)).
Qed.

Lemma dp_nonneg : forall c, inside (nrows dem) (ncols dem) c -> le64 f64_zero (at_ dp c).
Proof.
  intros c Hi. pose proof (in_f c Hi) as Hf. pose proof (dp_not_nan c Hi) as N.
  destruct (F32 c Hf) as [N1 S1], (D32 c Hi) as [N2 S2].
  apply le64_rank; auto; [reflexivity|]. rewrite rank0, dp_at.
  destruct (sub32_sign (at_ f c) (at_ dem c) S1 S2 (FF c Hf) (DF c Hi)) as [P Q].
  specialize (Ge c Hi). apply le64_rank in Ge; auto. lia.
Qed.

Lemma dp_edge : forall c, on_edge (nrows dem) (ncols dem) c -> eq64 (at_ dp c) f64_zero.
Proof.
  intros c He. pose proof (proj1 He) as Hi. pose proof (in_f c Hi) as Hf. pose proof (dp_not_nan c Hi) as N.
  destruct (F32 c Hf) as [N1 S1], (D32 c Hi) as [N2 S2].
  apply eq64_rank; auto; [reflexivity|]. rewrite rank0, dp_at.
  destruct (sub32_sign (at_ f c) (at_ dem c) S1 S2 (FF c Hf) (DF c Hi)) as [P Q].
  apply Q. rewrite (Edge c He). auto.
Qed.

Lemma dp_anti : forall c d, inside (nrows dem) (ncols dem) c -> inside (nrows dem) (ncols dem) d ->
  eq64 (at_ f c) (at_ f d) -> le64 (at_ dem c) (at_ dem d) -> le64 (at_ dp d) (at_ dp c).
Proof.
  intros c d Hc Hd E L. pose proof (in_f c Hc) as Hfc. pose proof (in_f d Hd) as Hfd.
  destruct (F32 c Hfc) as [N1 S1], (D32 c Hc) as [N2 S2], (F32 d Hfd) as [N3 S3], (D32 d Hd) as [N4 S4].
  pose proof (Ge d Hd) as G. apply le64_rank in G; auto. apply eq64_rank in E; auto. apply le64_rank in L; auto.
  apply le64_rank; try (apply dp_not_nan; auto; fail). rewrite !dp_at.
  apply sub32_anti; auto; try (apply FF; auto; fail); try (apply DF; auto; fail); lia.
Qed.

Lemma dp_wet : forall c, inside (nrows dem) (ncols dem) c ->
  at_ (nonzero dp) c = true -> lt64 (at_ dem c) (at_ f c).
Proof.
  intros c Hi Z. apply dp_pos; auto. pose proof (dp_not_nan c Hi) as N.
  unfold at_, nonzero in Z. cbn [rget] in Z. change (rget dp (fst c) (snd c)) with (at_ dp c) in Z.
  apply Bool.negb_true_iff in Z.
  rewrite Beqb_rank in Z by (auto; reflexivity). apply Z.eqb_neq in Z. rewrite rank0 in Z.
  pose proof (dp_nonneg c Hi) as G. apply le64_rank in G; auto; [|reflexivity].
  apply lt64_rank; auto; [reflexivity|]. rewrite rank0 in *. lia.
Qed.
End Depths.

(** ** C26 *)
Lemma filled_facts : forall (sp : bool) fuel t1 t5 dem out, size_ok sp dem -> dem32 dem -> dem_finite dem ->
  dem_process sp fuel t1 t5 dem = Ok out ->
  nrows (do_filled out) = nrows dem /\ ncols (do_filled out) = ncols dem /\
  dem32 (do_filled out) /\ dem_finite (do_filled out) /\
  (forall c, inside (nrows dem) (ncols dem) c -> le64 (at_ dem c) (at_ (do_filled out) c)) /\
  (forall c, on_edge (nrows dem) (ncols dem) c -> at_ (do_filled out) c = at_ dem c) /\
  do_depths out = raster_sub32 (do_filled out) dem.
Proof.
  intros sp fuel t1 t5 dem out S H32 HF H.
  destruct (dem_process_parts _ _ _ _ _ _ H) as (_ & E & ED & _).
  destruct sp; cbn in S.
  - destruct (cy_safe dem) with (fuel := fuel) (g := do_filled out) as (A & B & C & D & F & G & _); auto; try lia.
    repeat (split; [auto; fail|]). split; [|auto]. intros c Hi. apply F; auto.
  - destruct (fill64_basic dem) with (fuel := fuel) (f := do_filled out) as (A & B & C & D & F); auto; try lia.
    pose proof (fill64_finite dem ltac:(lia) ltac:(lia) H32 HF _ _ E). repeat (split; [auto; fail|]). auto.
Qed.

Theorem depths_facts : forall (sp : bool) fuel t1 t5 dem out, size_ok sp dem -> dem32 dem -> dem_finite dem ->
  dem_process sp fuel t1 t5 dem = Ok out ->
  same_shape dem (do_depths out) /\
  (forall c, inside (nrows dem) (ncols dem) c ->
     le64 f64_zero (at_ (do_depths out) c) /\
     (lt64 f64_zero (at_ (do_depths out) c) <-> lt64 (at_ dem c) (at_ (do_filled out) c))) /\
  (forall c, on_edge (nrows dem) (ncols dem) c -> eq64 (at_ (do_depths out) c) f64_zero).
Proof.
  intros sp fuel t1 t5 dem out S H32 HF H.
  destruct (filled_facts sp fuel t1 t5 dem out S H32 HF H) as (A & B & C & D & E & F & ->).
  split; [split; cbn; auto|]. split.
  - intros c Hi. split; [apply dp_nonneg; auto | apply dp_pos; auto].
  - intros c Hi. apply dp_edge; auto.
Qed.

Theorem level_water : forall fuel t1 t5 dem out, 2 <= nrows dem -> 2 <= ncols dem <= 2 ^ 50 -> dem32 dem -> dem_finite dem ->
  dem_process false fuel t1 t5 dem = Ok out ->
  forall c d, bluespot (do_depths out) c d ->
  eq64 (at_ (do_filled out) c) (at_ (do_filled out) d) /\
  (le64 (at_ dem c) (at_ dem d) -> le64 (at_ (do_depths out) d) (at_ (do_depths out) c)).
Proof.
  intros fuel t1 t5 dem out Hr Hc H32 HF H c d B.
  destruct (filled_facts false fuel t1 t5 dem out (conj Hr Hc) H32 HF H) as (Er & Ec & F32 & FF & Ge & Ed & ED).
  destruct (dem_process_parts _ _ _ _ _ _ H) as (_ & E & _).
  assert (Hc' : 2 <= ncols dem) by lia. set (f := do_filled out) in *. rewrite ED in *. clear ED.
  assert (Q : inside (nrows dem) (ncols dem) c /\ inside (nrows dem) (ncols dem) d /\ eq64 (at_ f c) (at_ f d) /\
             at_ (nonzero (raster_sub32 f dem)) d = true).
  { unfold bluespot in B. induction B as [x Hx W|x y z B IH A Hz W].
    - cbn [nonzero raster_sub32 nrows ncols] in Hx. pose proof Hx as Hx'. rewrite Er, Ec in Hx'. split; auto. split; auto. split; auto.
      apply eq64_rank; auto; apply F32; auto.
    - destruct IH as (I1 & I2 & I3 & I4). cbn [nonzero raster_sub32 nrows ncols] in Hz.
      pose proof Hz as Hz'. rewrite Er, Ec in Hz'. split; auto. split; auto. split; auto.
      assert (Fx : inside (nrows f) (ncols f) x) by (rewrite Er, Ec; auto).
      assert (Fy : inside (nrows f) (ncols f) y) by (rewrite Er, Ec; auto).
      assert (N : forall q, inside (nrows f) (ncols f) q -> not_nan (at_ f q)) by (intros; apply F32; auto).
      assert (Wy : lt64 (at_ dem y) (at_ f y)).
      { apply (dp_wet dem f Er Ec H32 HF F32 FF Ge); auto. }
      assert (Wz : lt64 (at_ dem z) (at_ f z)).
      { apply (dp_wet dem f Er Ec H32 HF F32 FF Ge); auto. }
      assert (A' : adjacent z y). { unfold adjacent in *. destruct A as (A1 & A2 & A3). repeat split; [congruence|lia|lia]. }
      pose proof (neighbours_level dem Hr Hc' H32 fuel f E z y Hz' I2 A Wy) as L1.
      pose proof (neighbours_level dem Hr Hc' H32 fuel f E y z I2 Hz' A' Wz) as L2.
      apply le64_rank in L1; auto. apply le64_rank in L2; auto. apply eq64_rank in I3; auto.
      apply eq64_rank; auto. lia. }
  destruct Q as (Q1 & Q2 & Q3 & _). split; auto. intros L.
  apply (dp_anti dem f Er Ec H32 HF F32 FF Ge); auto.
Qed.

(** ** C27 *)

Lemma passes_inside : forall f a b, passes f a b -> inside (nrows f) (ncols f) a /\ inside (nrows f) (ncols f) b.
Proof. induction 1; auto. destruct H as (H1 & _). intuition. Qed.

Lemma passes_down : forall (f : raster Z) (h : raster b64), (forall c, inside (nrows f) (ncols f) c -> not_nan (at_ h c)) ->
  (forall c d, flows f c d -> lt64 (at_ h d) (at_ h c)) ->
  forall a b, passes f a b -> a = b \/ lt64 (at_ h b) (at_ h a).
Proof.
  intros f h N D a b P. induction P as [|x y z F P IH]; auto. right.
  pose proof (D _ _ F) as L. destruct F as (I1 & I2 & _). pose proof (proj2 (passes_inside _ _ _ P)) as I3.
  destruct IH as [<-|IH]; auto. apply lt64_rank in L; auto. apply lt64_rank in IH; auto. apply lt64_rank; auto. lia.
Qed.

Lemma passes_up : forall (f : raster Z) (a : raster Z),
  (forall c d, flows f c d -> at_ a c < at_ a d) ->
  forall x y, passes f x y -> x = y \/ at_ a x < at_ a y.
Proof.
  intros f a D x y P. induction P as [|x y z F P IH]; auto. right. pose proof (D _ _ F).
  destruct IH as [<-|IH]; lia.
Qed.

(** Integers up to 2^53 are kept apart by the conversion to float64. *)
Lemma ofZ_exact : forall z, 0 <= z <= 2 ^ 53 -> is_finite (f64_ofZ z) = true /\ B2R (f64_ofZ z) = IZR z.
Proof.
  intros z Hz. unfold f64_ofZ, f64.
  pose proof (binary_normalize_correct 53 1024 _ _ mode_NE z 0 false) as H. cbn zeta in H.
  assert (E : Defs.F2R (beta := Zaux.radix2) {| Defs.Fnum := z; Defs.Fexp := 0 |} = IZR z).
  { unfold Defs.F2R. cbn [Defs.Fnum Defs.Fexp]. change (Raux.bpow Zaux.radix2 0) with 1%R. lra. }
  rewrite E in H.
  assert (B : (0 <= IZR z <= Raux.bpow Zaux.radix2 53)%R).
  { split; [apply IZR_le; lia|]. change (Raux.bpow Zaux.radix2 53) with (IZR (2 ^ 53)). apply IZR_le. lia. }
  assert (G : Generic_fmt.generic_format Zaux.radix2 (SpecFloat.fexp 53 1024) (IZR z)).
  { destruct (Z.eq_dec z (2 ^ 53)) as [->|NE].
    - change (IZR (2 ^ 53)) with (Raux.bpow Zaux.radix2 53). apply fmt_bpow. lia.
    - rewrite <- E. apply FLT.generic_format_FLT with (emin := -1074) (prec := 53).
      apply FLT.FLT_spec with (Defs.Float Zaux.radix2 z 0); [auto | assert (A : Z.abs z < 2 ^ 53) by lia; exact A | cbn; lia]. }
  rewrite Generic_fmt.round_generic in H by auto with typeclass_instances.
  rewrite Raux.Rlt_bool_true in H.
  - destruct H as (H1 & H2 & _). rewrite H1. auto.
  - rewrite Rabs_pos_eq by lra. apply Rle_lt_trans with (Raux.bpow Zaux.radix2 53); [lra|]. apply Raux.bpow_lt. lia.
Qed.

Lemma ofZ_lt : forall x y, 0 <= x <= 2 ^ 53 -> 0 <= y <= 2 ^ 53 ->
  (x < y <-> rank (f64_ofZ x) < rank (f64_ofZ y)).
Proof.
  intros x y Hx Hy. destruct (ofZ_exact x Hx) as [F1 E1], (ofZ_exact y Hy) as [F2 E2].
  split; intros H.
  - apply rank_lt_R; auto. rewrite E1, E2. apply IZR_lt. auto.
  - apply rank_lt_R in H; auto. rewrite E1, E2 in H. apply lt_IZR. auto.
Qed.

Lemma accum_either : forall (sp : bool) f fuel a, fully_draining f ->
  (if sp then accumulated_flow_cy else accumulated_flow) fuel f = Ok a ->
  same_shape f a /\ (forall c d, flows f c d -> at_ a c < at_ a d) /\
  (forall c, inside (nrows f) (ncols f) c -> 1 <= at_ a c <= nrows f * ncols f).
Proof.
  intros sp f fuel a D H.
  assert (C : same_shape f a /\ forall c, inside (nrows f) (ncols f) c -> counts (fun d => passes f d c) (at_ a c)).
  { destruct sp; [apply (accum_cy_counts f fuel a D H) | apply (accum_counts f fuel a D H)]. }
  destruct C as [S C]. split; auto.
  assert (B : forall c, inside (nrows f) (ncols f) c -> 1 <= at_ a c <= nrows f * ncols f).
  { intros c Hi. destruct (C c Hi) as (l & ND & Hl & ->). split.
    - assert (In c l) by (apply Hl; apply pa_here; auto). destruct l; [destruct H0|cbn; lia].
    - assert (incl l (cells_of (nrows f) (ncols f))).
      { intros x Hx. apply Hl in Hx. apply in_cells_of. apply (passes_inside f x c); auto. }
      pose proof (NoDup_incl_length ND H0) as L. rewrite length_cells_of in L. destruct Hi. lia. }
  split; auto. intros c d F. pose proof (cnt_increases f c d D F) as L. destruct F as (I1 & I2 & T).
  destruct sp; [destruct (accum_cy_cnt f fuel a D H) as [_ V] | destruct (accum_cnt f fuel a D H) as [_ V]];
    rewrite !V by auto; auto.
Qed.

(** Something that decreases along the flow. *)
Definition potential (f : raster Z) (h : cell -> Z) : Prop := forall c d, flows f c d -> h d < h c.

(** c has the least potential in the area labelled l. *)
Definition lowest_in (h : cell -> Z) (lab : raster Z) (l : Z) (c : cell) : Prop :=
  has_label lab l c /\ forall d, has_label lab l d -> h c <= h d.

Lemma potential_passes : forall f h, potential f h -> forall a b, passes f a b -> a = b \/ h b < h a.
Proof.
  intros f h P a b H. induction H as [|x y z F H IH]; auto. right. specialize (P _ _ F). destruct IH as [<-|]; lia.
Qed.

Lemma lowest_pour : forall f lab h l c, same_shape f lab -> potential f h -> lowest_in h lab l c -> pour_ok f lab l c.
Proof.
  intros f lab h l c [Er Ec] P [H M]. split; auto. intros d Hp E.
  destruct (potential_passes f h P c d Hp) as [|L]; auto. exfalso.
  assert (h c <= h d); [|lia]. apply M. split; auto. rewrite <- Er, <- Ec. apply (passes_inside f c d); auto.
Qed.

(** The two rules. *)
Lemma min_index_lowest : forall (h : raster b64) lab nl n, dem_finite h ->
  same_shape h lab -> nlabels_is lab nl n -> labels_in lab n -> 1 <= nrows lab -> 1 <= ncols lab ->
  exists st, label_min_index64 h lab nl = Ok st /\ label_min_index64_cy h lab nl = Ok st /\
  Z.of_nat (length st) = n + 1 /\
  forall l, 0 <= l <= n -> (exists c, has_label lab l c) ->
  exists r, nth_error st (Z.to_nat l) = Some r /\ lowest_in (fun c => rank (at_ h c)) lab l (i_row r, i_col r).
Proof.
  intros h lab nl n F S NL L Hr Hc.
  destruct (label_min_index_spec h lab nl n S NL L Hr Hc) as (st & E1 & E2 & E3 & E4).
  exists st. repeat (split; [auto; fail|]). intros l Hl (c & Hcl). destruct (E4 l Hl) as (r & Er & D).
  exists r. split; auto.
  assert (N : forall d, has_label lab l d -> is_finite (at_ h d) = true).
  { intros d [Hd _]. apply F. destruct S as [-> ->]. auto. }
  destruct D as [[(D1 & D2 & D3 & _) _]|[_ D]].
  - split; auto. intros d Hd. specialize (D3 d Hd (finite_not_nan _ (N d Hd))).
    rewrite D2 in D3. apply le64_rank in D3; auto; apply finite_not_nan; auto.
  - exfalso. apply (D c Hcl). specialize (N c Hcl). apply lt64_rank; [apply finite_not_nan; auto|reflexivity|].
    unfold f64_inf. rewrite rank_pinf. apply rank_finite_bound; auto.
Qed.

Lemma max_index_highest : forall (a : raster Z) lab nl n,
  (forall c, inside (nrows a) (ncols a) c -> 0 <= at_ a c <= 2 ^ 53) ->
  same_shape a lab -> nlabels_is lab nl n -> labels_in lab n -> 1 <= nrows lab -> 1 <= ncols lab ->
  exists st, label_max_index64 (accum64 a) lab nl = Ok st /\
  Z.of_nat (length st) = n + 1 /\
  forall l, 0 <= l <= n -> (exists c, has_label lab l c) ->
  exists r, nth_error st (Z.to_nat l) = Some r /\ lowest_in (fun c => - at_ a c) lab l (i_row r, i_col r).
Proof.
  intros a lab nl n B S NL L Hr Hc.
  destruct (label_max_index_spec (accum64 a) lab nl n S NL L Hr Hc) as (st & E1 & E3 & E4).
  exists st. repeat (split; [auto; fail|]). intros l Hl (c & Hcl). destruct (E4 l Hl) as (r & Er & D).
  exists r. split; auto.
  assert (I : forall d, has_label lab l d -> 0 <= at_ a d <= 2 ^ 53).
  { intros d [Hd _]. apply B. destruct S as [-> ->]. auto. }
  assert (V : forall d, at_ (accum64 a) d = f64_ofZ (at_ a d)) by reflexivity.
  assert (N : forall d, has_label lab l d -> is_finite (at_ (accum64 a) d) = true).
  { intros d Hd. rewrite V. apply ofZ_exact; auto. }
  destruct D as [[(D1 & D2 & D3 & _) _]|[_ D]].
  - split; auto. intros d Hd. specialize (D3 d Hd (finite_not_nan _ (N d Hd))). cbv beta in D3.
    rewrite D2 in D3. apply le64_rank in D3; try (apply finite_not_nan; auto; fail).
    rewrite !V in D3. destruct (Z_lt_ge_dec (at_ a (i_row r, i_col r)) (at_ a d)) as [G|]; [|lia].
    apply ofZ_lt in G; auto. lia.
  - exfalso. apply (D c Hcl). specialize (N c Hcl). apply lt64_rank; [reflexivity|apply finite_not_nan; auto|].
    unfold f64_ninf. rewrite rank_ninf. apply rank_finite_bound; auto.
Qed.

(** Pour points of the tool chain: DEM tool, then bluespot tool on its rasters. *)
Section Chain.
Variable cc : raster bool -> raster Z * Z.
Hypothesis Hcc : labels_components cc.
Variable sp : bool.

Theorem chain_pour : forall fuel fuel' t1 t5 dem dout t depths f accum out,
  size_ok sp dem -> dem32 dem -> dem_finite dem -> nrows dem * ncols dem <= 2 ^ 53 ->
  dem_process sp fuel t1 t5 dem = Ok dout ->
  same_shape dem depths ->
  accum = None \/ accum = Some (accum64 (do_accum dout)) ->
  bluespot_process sp cc fuel' t depths (do_flowdir dout) (Some f) accum (Some dem) = Ok out ->
  exists h, potential (do_flowdir dout) h /\
  Z.of_nat (length (bo_pourpoints out)) = bo_nlabels out + 1 /\
  forall l, 0 <= l <= bo_nlabels out -> (exists c, has_label (bo_labeled out) l c) ->
  exists p, nth_error (bo_pourpoints out) (Z.to_nat l) = Some p /\ pp_id p = l /\
    lowest_in h (bo_labeled out) l (pp_row p, pp_col p).
Proof.
  intros fuel fuel' t1 t5 dem dout t depths f accum out S H32 HF Big H Sd HA HB.
  destruct (dem_flow sp fuel t1 t5 dem dout S H32 HF H) as (Sf & D & short & diag & nf & fuel2 & E1 & E2 & Sn & Fn & E3 & Mn & E4).
  assert (Hr : 1 <= nrows depths) by (destruct Sd as [<- _]; destruct sp; cbn in S; lia).
  assert (Hc : 1 <= ncols depths) by (destruct Sd as [_ <-]; destruct sp; cbn in S; lia).
  assert (Sdf : same_shape depths (do_flowdir dout)) by (destruct Sd, Sf; split; congruence).
  destruct (process_filter cc Hcc sp _ _ _ _ _ _ _ _ Hr Hc HB) as (Sh & Nm & _).
  destruct (process_pourpoints cc Hcc sp _ _ _ _ _ _ _ _ Hr Hc Sdf D HB) as (pix & EP & Lp0 & L1 & _ & _ & Q).
  set (lab := bo_labeled out) in *. set (n := bo_nlabels out) in *.
  assert (Hr2 : 1 <= nrows lab) by (destruct Sh; lia). assert (Hc2 : 1 <= ncols lab) by (destruct Sh; lia).
  assert (NL : nlabels_is lab (Some n) n).
  { destruct (Z.eq_dec n 0) as [E0|]; [|left; auto]. rewrite E0 in *. right. split; auto. apply numbered_largest; auto. }
  assert (X : exists h, potential (do_flowdir dout) h /\ Z.of_nat (length pix) = n + 1 /\
    forall l, 0 <= l <= n -> (exists c, has_label lab l c) ->
    exists r, nth_error pix (Z.to_nat l) = Some r /\ lowest_in h lab l (i_row r, i_col r)).
  { destruct HA as [->| ->]; cbn [pour_cells] in EP.
    - rewrite E1 in EP. cbn [bind] in EP. apply bind_ok in EP. destruct EP as (nf' & E5 & EP).
      assert (nf' = nf).
      { destruct (Nat.le_ge_cases fuel' fuel2) as [L|L].
        - apply (fuel_agree sp short diag dem fuel' fuel2); auto.
        - symmetry. apply (fuel_agree sp short diag dem fuel2 fuel'); auto. }
      subst nf'. exists (fun c => rank (at_ nf c)).
      split.
      { intros c d Fl. pose proof (Mn c d Fl) as L. destruct Fl as (I1 & I2 & _).
        apply lt64_rank in L; auto; apply finite_not_nan; apply Fn; destruct Sn as [<- <-], Sf as [-> ->]; auto. }
      destruct (min_index_lowest nf lab (Some n) n Fn) as (st & M1 & M2 & M3 & M4); auto.
      { destruct Sn, Sd, Sh; split; congruence. } { apply Nm. }
      assert (Est : st = pix) by (destruct sp; congruence). rewrite Est in *. auto.
    - destruct (accum_either sp (do_flowdir dout) fuel2 (do_accum dout) D E4) as (Sa & Ia & Ba).
      exists (fun c => - at_ (do_accum dout) c). split.
      { intros c d Fl. specialize (Ia c d Fl). lia. }
      destruct (max_index_highest (do_accum dout) lab (Some n) n) as (st & M1 & M3 & M4); auto.
      { intros c Hi. destruct Sa as [Q1 Q2]. rewrite <- Q1, <- Q2 in Hi. specialize (Ba c Hi).
        destruct Sf as [Q3 Q4]. rewrite <- Q3, <- Q4 in Ba. lia. }
      { destruct Sa, Sdf, Sh; split; congruence. } { apply Nm. }
      assert (Est : st = pix) by congruence. rewrite Est in *. auto. }
  destruct X as (h & P & Lp & X). exists h. split; auto. split; auto.
  intros l Hl Ex. destruct (X l Hl Ex) as (r & Er & Lw). destruct (Q l Hl) as (p & r' & cs & ws & E5 & E6 & _ & _ & E7 & E8 & E9 & _).
  exists p. split; auto. split; auto. assert (r' = r) by congruence. subst r'. rewrite E8, E9. auto.
Qed.

Theorem chain_total : forall (use_accum : bool) t dem f,
  size_ok sp dem -> dem32 dem -> dem_finite dem -> square_cells (gt1 t) (gt5 t) = true ->
  exists k, forall fuel, (fuel >= k)%nat -> exists dout out,
    dem_process sp fuel (gt1 t) (gt5 t) dem = Ok dout /\
    bluespot_process sp cc fuel t (do_depths dout) (do_flowdir dout) (Some f)
      (if use_accum then Some (accum64 (do_accum dout)) else None) (Some dem) = Ok out.
Proof.
  intros use_accum t dem f S H32 HF SQ.
  destruct (dem_total sp (gt1 t) (gt5 t) dem SQ S H32 HF) as (dout0 & k1 & T1).
  destruct (nf_either sp dem S H32 HF) as (short & diag & nf & k2 & E1 & E2 & Er & Ec & Fn & _).
  exists (Nat.max (Z.to_nat (nrows dem * ncols dem)) (Nat.max k1 k2)). intros fuel Fu.
  destruct (T1 fuel ltac:(lia)) as (acc & ED & _). eexists.
  assert (Hr : 1 <= nrows dem) by (destruct sp; cbn in S; lia).
  assert (Hc : 1 <= ncols dem) by (destruct sp; cbn in S; lia).
  set (dout := mkDemOut (do_filled dout0) (do_depths dout0) (do_flowdir dout0) acc) in *.
  destruct (dem_flow sp fuel (gt1 t) (gt5 t) dem dout S H32 HF ED) as (Sf & D & s' & d' & nf' & fuel2 & _ & _ & _ & _ & _ & _ & E4).
  destruct (depths_facts sp fuel (gt1 t) (gt5 t) dem dout S H32 HF ED) as ([Q1 Q2] & _).
  destruct (accum_either sp (do_flowdir dout) fuel2 (do_accum dout) D E4) as (Sa & _).
  assert (X : exists out, bluespot_process sp cc fuel t (do_depths dout) (do_flowdir dout) (Some f)
      (if use_accum then Some (accum64 (do_accum dout)) else None) (Some dem) = Ok out).
  { apply process_total_by; auto; try lia.
    - destruct Sf; split; congruence.
    - right. discriminate.
    - intros lab n Sl Nm.
      assert (1 <= nrows lab) by (destruct Sl; lia). assert (1 <= ncols lab) by (destruct Sl; lia).
      assert (NL : nlabels_is lab (Some n) n).
      { destruct (Z.eq_dec n 0) as [->|]; [right; split; auto; apply numbered_largest; auto | left; auto]. }
      destruct use_accum; cbn [pour_cells].
      + destruct (label_max_index_spec (accum64 (do_accum dout)) lab (Some n) n) as (pix & E6 & _); auto; [|apply Nm|eauto].
        destruct Sa, Sl, Sf; split; [change (nrows (do_accum dout) = nrows lab)|change (ncols (do_accum dout) = ncols lab)]; congruence.
      + rewrite E1. cbn [bind]. rewrite E2 by lia. cbn [bind].
        destruct (label_min_index_spec nf lab (Some n) n) as (pix & E6 & E7 & _); auto; [|apply Nm|destruct sp; eauto].
        destruct Sl; split; congruence. }
  destruct X as (out & X). exists out. split; [exact ED | exact X].
Qed.
End Chain.
