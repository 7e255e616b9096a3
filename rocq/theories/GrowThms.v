(** * A stricter filter only enlarges the watersheds it keeps *)

From Coq Require Import QArith.
From Flocq Require Import IEEE754.BinarySingleNaN.
From Verif Require Import Base BaseProofs Num Float64 DemModel FlowThms FillModel FillThms FlowModel FlowSpec FlowProofs LabelModel LabelSpec LabelProofs VectorModel BluespotModel BluespotSpec
  BluespotProofs BluespotThms CompSpec CompProofs WatershedProofs FillSpec DemProofs NetworkModel NetworkSpec NetworkThms RainModel RainThms PipelineModel LocalSpec CutSpec.
Local Open Scope Z_scope.

Lemma extreme_ext : forall le top (P Q : cell -> Prop) data m, (forall x, P x <-> Q x) -> extreme le top P data m -> extreme le top Q data m.
Proof.
  intros le top P Q data m E ([(c & X & Y & Z)|(X & Y)] & A); split.
  - left. exists c. split; [apply E; exact X|]. split; assumption.
  - intros d D. apply A, E, D.
  - right. split; [exact X|]. intros d D. apply Y, E, D.
  - intros d D. apply A, E, D.
Qed.

Section Grow.
Variable cc : raster bool -> raster Z * Z.
Hypothesis Hcc : labels_components cc.
Variables (sp sp' : bool) (fuel fuel' : nat) (t : geotransform b64) (depths : raster b64) (flowdir : raster Z).
Variables (f f' : @unit_stats b64 -> bool) (accum accum' dem dem' : option (raster b64)) (out out' : bluespot_out).
Hypothesis Stricter : forall s, f' s = true -> f s = true.
Hypothesis Hr : 1 <= nrows depths.
Hypothesis Hc : 1 <= ncols depths.
Hypothesis Sf : same_shape depths flowdir.
Hypothesis Dr : fully_draining flowdir.
Hypothesis H : bluespot_process sp cc fuel t depths flowdir (Some f) accum dem = Ok out.
Hypothesis H' : bluespot_process sp' cc fuel' t depths flowdir (Some f') accum' dem' = Ok out'.

Notation ins := (inside (nrows depths) (ncols depths)).

Lemma grow_kept : forall c, ins c -> at_ (bo_labeled out') c <> 0 -> at_ (bo_labeled out) c <> 0.
Proof.
  intros c I N. destruct (process_filter cc Hcc sp _ _ _ _ _ _ _ _ Hr Hc H) as (_ & _ & K & _).
  destruct (process_filter cc Hcc sp' _ _ _ _ _ _ _ _ Hr Hc H') as (_ & _ & K' & _).
  apply (K' c I) in N. destruct N as (N & s & D & X). apply (K c I). split; [exact N|]. exists s. split; [exact D|]. apply Stricter. exact X.
Qed.

(** The cells of a kept bluespot are labelled alike in both runs. *)
Lemma grow_same : forall c d, ins c -> ins d -> at_ (bo_labeled out') d <> 0 ->
  (at_ (bo_labeled out) c = at_ (bo_labeled out) d <-> at_ (bo_labeled out') c = at_ (bo_labeled out') d).
Proof.
  intros c d I J N. pose proof (grow_kept d J N) as M.
  destruct (process_filter cc Hcc sp _ _ _ _ _ _ _ _ Hr Hc H) as (_ & _ & K & E).
  destruct (process_filter cc Hcc sp' _ _ _ _ _ _ _ _ Hr Hc H') as (_ & _ & K' & E'). split; intros Q.
  - assert (B : bluespot depths c d) by (apply (E c d); auto; congruence).
    assert (N' : at_ (bo_labeled out') c <> 0).
    { apply (K' c I). apply (K' d J) in N. destruct N as (_ & s & D & X). split.
      - apply (K c I). congruence.
      - exists s. split; [|exact X]. destruct D as (cs & (L1 & L2) & D1 & D2 & D3 & D4 & D5).
        assert (P : forall x, bluespot depths c x <-> bluespot depths d x).
        { intros x. unfold bluespot in *. split; intros Y.
          - apply (connected_trans _ d c); auto. apply connected_sym; auto.
          - apply (connected_trans _ c d); auto. }
        exists cs. split; [split; [exact L1|]; intros x; rewrite L2; symmetry; apply P|]. split; [exact D1|]. split; [exact D2|].
        split; [|split; [|exact D5]].
        + apply (extreme_ext _ _ (bluespot depths d)); [intros x; symmetry; apply P|exact D3].
        + apply (extreme_ext _ _ (bluespot depths d)); [intros x; symmetry; apply P|exact D4]. }
    apply (E' c d); auto.
  - assert (N' : at_ (bo_labeled out') c <> 0) by congruence. apply (E c d); auto. apply grow_kept; auto. apply (E' c d); auto.
Qed.

Lemma grow_first : forall c l, first_label flowdir (bo_labeled out) 0 c l ->
  forall d, ins d -> at_ (bo_labeled out') d <> 0 -> l = at_ (bo_labeled out) d -> first_label flowdir (bo_labeled out') 0 c (at_ (bo_labeled out') d).
Proof.
  assert (IF : forall c, inside (nrows flowdir) (ncols flowdir) c -> ins c) by (destruct Sf as (-> & ->); auto).
  intros c l F. induction F as [c I N|c c1 l E F L IH|c E F]; intros d J M Q.
  - assert (X : at_ (bo_labeled out') c = at_ (bo_labeled out') d) by (apply grow_same; auto).
    rewrite <- X. apply fl_here; [exact I|congruence].
  - apply (fl_step _ _ _ c c1); [|exact F|apply IH; auto].
    destruct (Z.eq_dec (at_ (bo_labeled out') c) 0) as [Z|Z]; [exact Z|]. exfalso. apply (grow_kept c) in Z; [congruence|]. apply IF. apply F.
  - exfalso. apply (grow_kept d J M). congruence.
Qed.

Lemma grow_none : forall c l, first_label flowdir (bo_labeled out) 0 c l -> l = 0 -> first_label flowdir (bo_labeled out') 0 c 0.
Proof.
  assert (IF : forall c, inside (nrows flowdir) (ncols flowdir) c -> ins c) by (destruct Sf as (-> & ->); auto).
  assert (Z0 : forall c, ins c -> at_ (bo_labeled out) c = 0 -> at_ (bo_labeled out') c = 0).
  { intros c I Z. destruct (Z.eq_dec (at_ (bo_labeled out') c) 0) as [Y|Y]; [exact Y|]. exfalso. apply (grow_kept c) in Y; auto. }
  intros c l F. induction F as [c I N|c c1 l E F L IH|c E F]; intros Q.
  - contradiction.
  - apply (fl_step _ _ _ c c1); [apply Z0; [apply IF, F|exact E]|exact F|auto].
  - apply fl_off; [apply Z0; [apply IF, F|exact E]|exact F].
Qed.

Theorem watersheds_grow :
  (forall c d, ins c -> ins d -> at_ (bo_labeled out') d <> 0 ->
     at_ (bo_watersheds out) c = at_ (bo_labeled out) d -> at_ (bo_watersheds out') c = at_ (bo_labeled out') d) /\
  (forall c, ins c -> at_ (bo_watersheds out) c = 0 -> at_ (bo_watersheds out') c = 0) /\
  (forall d, ins d -> at_ (bo_labeled out') d <> 0 -> exists p p' ws ws',
     nth_error (bo_pourpoints out) (Z.to_nat (at_ (bo_labeled out) d)) = Some p /\
     nth_error (bo_pourpoints out') (Z.to_nat (at_ (bo_labeled out') d)) = Some p' /\
     pp_area p = pp_area p' /\ pp_vol p = pp_vol p' /\
     lists_cells (has_label (bo_watersheds out) (at_ (bo_labeled out) d)) ws /\
     lists_cells (has_label (bo_watersheds out') (at_ (bo_labeled out') d)) ws' /\
     incl ws ws' /\ (length ws <= length ws')%nat /\
     pp_wshed p = f64_mul (f64_ofZ (Z.of_nat (length ws))) (cell_area F64Ops t) /\
     pp_wshed p' = f64_mul (f64_ofZ (Z.of_nat (length ws'))) (cell_area F64Ops t)).
Proof.
  destruct (process_pourpoints cc Hcc sp _ _ _ _ _ _ _ _ Hr Hc Sf Dr H) as (pix & _ & _ & _ & Sw & FL & PP).
  destruct (process_pourpoints cc Hcc sp' _ _ _ _ _ _ _ _ Hr Hc Sf Dr H') as (pix' & _ & _ & _ & Sw' & FL' & PP').
  destruct (process_filter cc Hcc sp _ _ _ _ _ _ _ _ Hr Hc H) as (Sl & Nm & _).
  destruct (process_filter cc Hcc sp' _ _ _ _ _ _ _ _ Hr Hc H') as (Sl' & Nm' & _).
  assert (G : forall c d, ins c -> ins d -> at_ (bo_labeled out') d <> 0 ->
     at_ (bo_watersheds out) c = at_ (bo_labeled out) d -> at_ (bo_watersheds out') c = at_ (bo_labeled out') d).
  { intros c d I J N Q. apply (first_label_unique flowdir (bo_labeled out') 0 c); [apply FL'; exact I|].
    apply (grow_first c (at_ (bo_watersheds out) c)); auto. }
  split; [exact G|]. split.
  - intros c I Q. apply (first_label_unique flowdir (bo_labeled out') 0 c); [apply FL'; exact I|].
    apply (grow_none c (at_ (bo_watersheds out) c)); auto.
  - intros d J N. pose proof (grow_kept d J N) as M.
    assert (B : 0 <= at_ (bo_labeled out) d <= bo_nlabels out) by (destruct Nm as (X & _); apply X; destruct Sl as (<- & <-); exact J).
    assert (B' : 0 <= at_ (bo_labeled out') d <= bo_nlabels out') by (destruct Nm' as (X & _); apply X; destruct Sl' as (<- & <-); exact J).
    destruct (PP _ B) as (p & r & cs & ws & P1 & _ & L & W & _ & _ & _ & _ & A & V & S & _).
    destruct (PP' _ B') as (p' & r' & cs' & ws' & P1' & _ & L' & W' & _ & _ & _ & _ & A' & V' & S' & _).
    assert (EC : cs = cs').
    { apply (lists_unique (has_label (bo_labeled out) (at_ (bo_labeled out) d))); [exact L|]. destruct L' as (L1 & L2). split; [exact L1|].
      intros x. rewrite L2. unfold has_label. destruct Sl as (<- & <-), Sl' as (<- & <-).
      split; intros (I & E); (split; [exact I|]); apply (grow_same x d I J N); exact E. }
    assert (I : incl ws ws').
    { intros x X. destruct W as (_ & W2), W' as (_ & W2'). apply W2'. apply W2 in X. destruct X as (X & E). unfold has_label.
      destruct Sw as (Q1 & Q2), Sw' as (Q1' & Q2'). rewrite <- Q1, <- Q2 in X. rewrite <- Q1', <- Q2'. split; [exact X|]. apply (G x d); auto. }
    exists p, p', ws, ws'. rewrite A, A', V, V', S, S', EC. repeat (split; [solve [auto]|]). split; [|auto].
    apply NoDup_incl_length; [|exact I]. apply SS_nodup, W.
Qed.
End Grow.

(** ** A bluespot with an outlet on either side, between two small ones *)
Definition grow_dem : raster b64 := zrows [[9;9;9;9;9;9;9;9]; [4;2;5;3;3;5;2;4]; [9;9;9;9;9;9;9;9]].
Definition grow_depths : raster b64 := zrows [[0;0;0;0;0;0;0;0]; [0;2;0;2;2;0;2;0]; [0;0;0;0;0;0;0;0]].
Definition grow_flow : raster Z := of_rows 0 [[7;0;0;0;0;0;0;1]; [6;6;6;6;2;2;2;2]; [5;4;4;4;4;4;4;3]].
(** Keep everything; keep single cells of 4 square metres. *)
Definition keep_all (_ : @unit_stats b64) : bool := true.
Definition keep_small (s : @unit_stats b64) : bool := Bleb (u_area s) (f64_ofZ 4).
Definition grow_run (f : @unit_stats b64 -> bool) : res bluespot_out :=
  bluespot_process false cc_memo 40 ex_gt grow_depths grow_flow (Some f) None (Some grow_dem).
Definition grow_is (lab shed : list Z) (o : bluespot_out) : bool :=
  forallb (fun p => Z.eqb (fst p) (snd p)) (combine (map (fun c => at_ (bo_labeled o) (1, c)) (zseq 0 8)) lab) &&
  forallb (fun p => Z.eqb (fst p) (snd p)) (combine (map (fun c => at_ (bo_watersheds o) (1, c)) (zseq 0 8)) shed).
(** The rasters are the ones the DEM tool makes of the terrain. *)
Definition grow_rasters : bool :=
  on_ok (fun o => forallb (fun c => Beqb (at_ (do_depths o) c) (at_ grow_depths c) && (at_ (do_flowdir o) c =? at_ grow_flow c)) (rcells grow_dem))
    (dem_process false 40 (f64_ofZ 2) (f64_ofZ (-2)) grow_dem).

Lemma grow_ok : labels_components cc_memo /\ fully_draining grow_flow /\ same_shape grow_depths grow_flow /\ (forall s, keep_small s = true -> keep_all s = true) /\
  grow_rasters = true /\
  on_ok (grow_is [0;1;0;2;2;0;3;0] [0;1;1;2;2;3;3;0]) (grow_run keep_all) = true /\
  on_ok (grow_is [0;1;0;0;0;0;2;0] [0;1;1;1;2;2;2;0]) (grow_run keep_small) = true.
Proof.
  split; [apply cc_memo_ok|]. split; [apply check_draining_ok; vm_compute; reflexivity|]. split; [split; reflexivity|]. split; [reflexivity|].
  split; [vm_compute; reflexivity|]. split; vm_compute; reflexivity.
Qed.

(** The watershed of a dropped bluespot need not go to one of the others as a whole. *)
Definition at2 (p : Z -> Z -> bool) (o : bluespot_out) : bool := p (at_ (bo_watersheds o) (1, 3)) (at_ (bo_watersheds o) (1, 4)).
Theorem dropped_refuted : exists cc t depths flowdir f f' dem out out' c d,
  labels_components cc /\ (forall s, f' s = true -> f s = true) /\ same_shape depths flowdir /\ fully_draining flowdir /\
  bluespot_process false cc 40 t depths flowdir (Some f) None (Some dem) = Ok out /\
  bluespot_process false cc 40 t depths flowdir (Some f') None (Some dem) = Ok out' /\
  inside (nrows depths) (ncols depths) c /\ inside (nrows depths) (ncols depths) d /\
  at_ (bo_watersheds out) c = at_ (bo_watersheds out) d /\ at_ (bo_watersheds out) c <> 0 /\
  at_ (bo_watersheds out') c <> at_ (bo_watersheds out') d /\ at_ (bo_watersheds out') c <> 0 /\ at_ (bo_watersheds out') d <> 0.
Proof.
  assert (A : on_ok (at2 (fun x y => (x =? 2) && (y =? 2))) (grow_run keep_all) = true) by (vm_compute; reflexivity).
  assert (B : on_ok (at2 (fun x y => (x =? 1) && (y =? 2))) (grow_run keep_small) = true) by (vm_compute; reflexivity).
  apply on_ok_ex in A. destruct A as (o & E & A). apply on_ok_ex in B. destruct B as (o' & E' & B). unfold at2 in A, B.
  apply andb_prop in A. apply andb_prop in B. destruct A as (A1 & A2), B as (B1 & B2). apply Z.eqb_eq in A1, A2, B1, B2.
  destruct grow_ok as (G1 & G2 & G3 & G4 & _).
  exists cc_memo, ex_gt, grow_depths, grow_flow, keep_all, keep_small, grow_dem, o, o', (1, 3), (1, 4).
  split; [exact G1|]. split; [exact G4|]. split; [exact G3|]. split; [exact G2|]. split; [exact E|]. split; [exact E'|].
  split; [unfold inside; cbn; lia|]. split; [unfold inside; cbn; lia|]. rewrite A1, A2, B1, B2. repeat split; discriminate.
Qed.

(** ** Fewer bluespots, less runoff *)
Definition runoff_dem : raster b64 := zrows [[99;99;99;99;99;99;99;99]; [4;2;5;4;4;5;0;4]; [99;99;99;99;99;99;99;99]].
Definition runoff (o : complete_out) : Q := Qsum (map out_spill (filter (fun p => is_root (fst p)) (co_final o))).
Lemma runoff_dem_ok : size_ok false runoff_dem /\ dem32 runoff_dem /\ dem_finite runoff_dem.
Proof. assert (D : dem32 runoff_dem /\ dem_finite runoff_dem) by (apply dem_ok; vm_compute; reflexivity). split; [cbn; lia|]. exact D. Qed.
Theorem less_runoff : exists cc t dem f f' mm o o',
  labels_components cc /\ (forall s, f' s = true -> f s = true) /\
  size_ok false dem /\ dem32 dem /\ dem_finite dem /\ square_cells (gt1 t) (gt5 t) = true /\
  complete false cc 40 t dem f true mm = Ok o /\ complete false cc 40 t dem f' true mm = Ok o' /\
  (length (co_final o') < length (co_final o))%nat /\
  (Qsum (map out_spill (filter (fun p => is_root (fst p)) (co_final o'))) < Qsum (map out_spill (filter (fun p => is_root (fst p)) (co_final o))))%Q.
Proof.
  assert (A : on_ok (fun o => Qeq_bool (runoff o) 116 && Nat.eqb (length (co_final o)) 4)
    (complete false cc_memo 40 ex_gt runoff_dem keep_all true 1500%Q) = true) by (vm_compute; reflexivity).
  assert (B : on_ok (fun o => Qeq_bool (runoff o) 112 && Nat.eqb (length (co_final o)) 3)
    (complete false cc_memo 40 ex_gt runoff_dem keep_small true 1500%Q) = true) by (vm_compute; reflexivity).
  apply on_ok_ex in A. destruct A as (o & E & A). apply on_ok_ex in B. destruct B as (o' & E' & B).
  apply andb_prop in A. apply andb_prop in B. destruct A as (A1 & A2), B as (B1 & B2).
  apply Qeq_bool_iff in A1, B1. apply PeanoNat.Nat.eqb_eq in A2, B2. unfold runoff in A1, B1.
  exists cc_memo, ex_gt, runoff_dem, keep_all, keep_small, 1500%Q, o, o'.
  split; [apply cc_memo_ok|]. split; [reflexivity|]. destruct runoff_dem_ok as (R1 & R2 & R3). split; [exact R1|]. split; [exact R2|]. split; [exact R3|].
  split; [vm_compute; reflexivity|]. split; [exact E|]. split; [exact E'|]. split; [rewrite A2, B2; lia|]. rewrite A1, B1. reflexivity.
Qed.
