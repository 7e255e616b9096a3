From Coq Require Import FunctionalExtensionality.
From Flocq Require Import IEEE754.BinarySingleNaN.
From Verif Require Import Base BaseProofs Num Float64 FillSpec FillModel FlowModel DemModel LabelModel LabelSpec LabelProofs
  LabelFloat CompSpec CompProofs VectorModel BluespotModel BluespotSpec BluespotProofs IoModel StepModel StepSpec
  Float64Proofs FillProofs FillThms DemProofs LevelProofs GridProofs.
Local Open Scope Z_scope.

Lemma insideb_inside : forall rows cols i j, insideb rows cols i j = true <-> inside rows cols (i, j).
Proof.
  intros. unfold insideb, inside. cbn. rewrite !andb_true_iff, !Z.leb_le, !Z.ltb_lt. tauto.
Qed.

Lemma raster_eq : forall {T} (a b : raster T), nrows a = nrows b -> ncols a = ncols b ->
  (forall i j, rget a i j = rget b i j) -> a = b.
Proof.
  intros T [r c g] [r' c' g'] E1 E2 E. cbn in *. subst. f_equal.
  apply functional_extensionality. intros i. apply functional_extensionality. intros j. auto.
Qed.

Lemma load_same : forall s f,
  (forall c, inside (nrows (rf_data f)) (ncols (rf_data f)) c -> at_ (load s f) c = at_ (rf_data f) c) ->
  load s f = rf_data f.
Proof.
  intros s f H. apply raster_eq; try reflexivity. intros i j.
  destruct (insideb (nrows (rf_data f)) (ncols (rf_data f)) i j) eqn:E.
  - apply (H (i, j)). apply insideb_inside. auto.
  - unfold load. cbn [rget]. rewrite E. reflexivity.
Qed.

Lemma load_none : forall f, load None f = rf_data f.
Proof.
  intros f. apply load_same. intros [i j] H. unfold load, at_. cbn [rget fst snd].
  destruct (insideb _ _ _ _); auto. unfold reader_read. destruct (rf_nodata f); reflexivity.
Qed.

Lemma load_filled : forall a, unmistakable a -> load (Some NODATASUBST) (mkFile a (Some NODATASUBST)) = a.
Proof.
  intros a H. change a with (rf_data (mkFile a (Some NODATASUBST))) at 2. apply load_same. cbn [rf_data rf_nodata].
  intros [i j] Hi. specialize (H (i, j) Hi). unfold load, at_ in *. cbn [rget fst snd rf_data rf_nodata] in *.
  destruct (insideb _ _ _ _); auto. unfold reader_read.
  replace (Beqb NODATASUBST f64_zero) with false by (vm_compute; reflexivity).
  replace (is_nan NODATASUBST) with false by (vm_compute; reflexivity). cbn [rget].
  change NODATASUBST with (f64_ofZ (-999)).
  destruct (isclose (rget a i j) (f64_ofZ (-999))); auto. rewrite H by auto. apply B2SF_inj. vm_compute. reflexivity.
Qed.

(** Whether the number of labels is passed on makes no difference. *)
Lemma nlabels_none : forall lab n, numbered lab n -> 1 <= nrows lab -> 1 <= ncols lab ->
  resolve_nlabels lab (Some n) = resolve_nlabels lab None.
Proof.
  intros lab n H Hr Hc. pose proof (numbered_largest lab n H Hr Hc) as L.
  rewrite (resolve_spec lab None n) by (right; auto).
  destruct (Z.eq_dec n 0) as [->|].
  - apply resolve_spec. right. auto.
  - apply resolve_spec. left. auto.
Qed.

Lemma label_index_none : forall {T} step (st : T) data lab n, numbered lab n -> 1 <= nrows lab -> 1 <= ncols lab ->
  label_index step st data lab (Some n) = label_index step st data lab None.
Proof. intros. unfold label_index. rewrite (nlabels_none lab n) by auto. reflexivity. Qed.

Lemma pour_cells_none : forall sp fuel accum dem lab n, numbered lab n -> 1 <= nrows lab -> 1 <= ncols lab ->
  pour_cells sp fuel accum dem lab n =
  match accum, dem with
  | Some accum, _ => label_max_index64 accum lab None
  | None, Some dem =>
      '(short, diag) <- minimum_safe_short_and_diag dem ;;
      f <- (if sp then fill_nf64_cy else fill_nf64) short diag fuel dem ;;
      (if sp then label_min_index64_cy else label_min_index64) f lab None
  | None, None => Exc PlainException
  end.
Proof.
  intros sp fuel accum dem lab n H Hr Hc. unfold pour_cells.
  destruct accum as [a|]; [apply label_index_none; auto|]. destruct dem as [d|]; auto.
  destruct (minimum_safe_short_and_diag d) as [[s g]| |]; auto. cbn [bind].
  destruct ((if sp then _ else _) s g fuel d) as [f| |]; auto. cbn [bind].
  destruct sp; [|apply label_index_none; auto].
  unfold label_min_index64_cy, label_min_index_cy. rewrite ?(label_index_none _ _ _ _ n) by auto.
  rewrite ?(nlabels_none lab n) by auto. reflexivity.
Qed.

Lemma size_pos : forall sp dem, size_ok sp dem -> 1 <= nrows dem /\ 1 <= ncols dem.
Proof. intros [] dem S; cbn in S; lia. Qed.

Lemma eq64_eq : forall x y, not_nan x -> not_nan y -> Beqb x f64_zero = false -> rank x = rank y -> x = y.
Proof.
  intros x y Nx Ny Zx Rk.
  destruct (not_nan_cases x Nx) as [Fx|Ix].
  - destruct (not_nan_cases y Ny) as [Fy|Iy].
    + apply B2R_inj.
      * rewrite Beqb_rank in Zx by (auto; reflexivity). apply Z.eqb_neq in Zx.
        destruct x as [sx| | |sx mx ex Bx]; try discriminate; auto.
      * rewrite Beqb_rank in Zx by (auto; reflexivity). apply Z.eqb_neq in Zx.
        destruct y as [sy| | |sy my ey By]; try discriminate; auto.
      * rewrite !B2R_rank by auto. rewrite Rk. auto.
    + pose proof (rank_finite_bound x Fx). destruct Iy as [-> | ->];
        rewrite ?rank_pinf, ?rank_ninf in Rk; lia.
  - pose proof RINF_pos. destruct Ix as [-> | ->].
    + symmetry. apply rank_is_inf; auto.
    + symmetry. apply rank_is_ninf; auto.
Qed.

Section Steps.
Variable cc : raster bool -> raster Z * Z.
Hypothesis Hcc : labels_components cc.
Variable sp : bool.

(** The commands from the depths on. *)
Definition rest fuel t depths flowdir f accum dem : res (raster Z * raster Z * list (@pourpoint b64)) :=
  bspots <- cmd_bspots sp cc t depths (Some f) ;;
  wsheds <- cmd_wsheds sp fuel bspots flowdir ;;
  pourpts <- cmd_pourpts sp fuel t bspots depths wsheds dem accum ;;
  Ok (bspots, wsheds, pourpts).

Lemma rest_same : forall fuel t depths flowdir f accum dem demf o,
  1 <= nrows (rf_data depths) -> 1 <= ncols (rf_data depths) -> square_cells (gt1 t) (gt5 t) = true ->
  match accum with Some _ => True | None => exists nd, demf = Some (mkFile dem nd) end ->
  (rest fuel t depths flowdir f accum demf = Ok o <->
   exists b, bluespot_process sp cc fuel t (rf_data depths) flowdir (Some f) (option_map accum64 accum) (Some dem) = Ok b /\
     o = (bo_labeled b, bo_watersheds b, bo_pourpoints b)).
Proof.
  intros fuel t depths flowdir f accum dem demf o Hr Hc Sq A.
  unfold rest, bluespot_process, cmd_bspots, cmd_wsheds, cmd_pourpts. rewrite Sq. cbn [negb].
  replace (match option_map accum64 accum with Some _ => false | None => false end) with false
    by (destruct (option_map accum64 accum); reflexivity).
  rewrite load_none. set (d := rf_data depths) in *.
  destruct ((if sp then label_stats64_cy else label_stats64) d (fst (cc (nonzero d))) None) as [st| |] eqn:E1;
    cbn [bind]; try (split; [discriminate|intros (b & X & _); discriminate]).
  destruct (keep_labels (fst (cc (nonzero d))) (filterbluespots F64Ops f (cell_area F64Ops t) st) 0) as [new| |] eqn:E2;
    cbn [bind]; try (split; [discriminate|intros (b & X & _); discriminate]).
  destruct (raw_facts cc Hcc d Hr Hc) as (Sh & L & NL & Hn & Hr' & Hc').
  assert (E1' : label_stats64 d (fst (cc (nonzero d))) None = Ok st).
  { rewrite <- E1. symmetry. apply (stats_either sp d _ _ Sh NL L Hr' Hc'). }
  pose proof (filter_stage cc Hcc d (cell_area F64Ops t) f st new Hr Hc E1' E2) as F. cbn zeta in F.
  destruct (cc new) as [lab n]. cbn [fst snd] in *. destruct F as (Sh2 & Nm & _).
  assert (1 <= nrows lab) by (destruct Sh2; lia). assert (1 <= ncols lab) by (destruct Sh2; lia).
  rewrite (pour_cells_none sp fuel (option_map accum64 accum) (Some dem) lab n) by auto.
  set (S := (if sp then label_stats64_cy else label_stats64) d lab None).
  set (W := (if sp then watersheds_from_labels_cy else watersheds_from_labels) fuel flowdir lab 0).
  destruct accum as [a|]; cbn [option_map].
  - destruct demf; (destruct S as [bs| |]; cbn [bind];
      [|split; [destruct W; discriminate|intros (b & X & _); discriminate]..]);
      (destruct W as [w| |]; cbn [bind]; [|split; [discriminate|intros (b & X & _); discriminate]..]);
      (destruct (label_max_index64 (accum64 a) lab None) as [pix| |]; cbn [bind];
        [|split; [discriminate|intros (b & X & _); destruct (label_count w); discriminate]..]);
      (destruct (label_count w) as [ws| |]; cbn [bind]; [|split; [discriminate|intros (b & X & _); discriminate]..]);
      (split; [intros X; injection X as <-; eexists; split; reflexivity|intros (b & X & ->); injection X as <-; reflexivity]).
  - destruct A as (nd & ->). rewrite load_none. cbn [rf_data].
    destruct S as [bs| |]; cbn [bind]; [|split; [destruct W; discriminate|intros (b & X & _); discriminate]..].
    destruct W as [w| |]; cbn [bind]; [|split; [discriminate|intros (b & X & _); discriminate]..].
    set (P := bind (minimum_safe_short_and_diag dem) _).
    destruct P as [pix| |]; cbn [bind]; [|split; [discriminate|intros (b & X & _); destruct (label_count w); discriminate]..].
    destruct (label_count w) as [ws| |]; cbn [bind]; [|split; [discriminate|intros (b & X & _); discriminate]..].
    split; [intros X; injection X as <-; eexists; split; reflexivity|intros (b & X & ->); injection X as <-; reflexivity].
Qed.

Lemma fill_shape : forall fuel dem f, size_ok sp dem -> dem32 dem -> dem_finite dem ->
  (if sp then fill64_cy else fill64) fuel dem = Ok f -> nrows f = nrows dem /\ ncols f = ncols dem.
Proof.
  intros fuel dem f S H32 HF E. destruct sp; cbn in S.
  - destruct (cy_safe dem) with (fuel := fuel) (g := f) as (A & B & _); auto; lia.
  - destruct (fill64_basic dem) with (fuel := fuel) (f := f) as (A & B & _); auto; lia.
Qed.

Theorem steps_same : forall fuel t demf f (use_accum : bool),
  let dem := load (Some NODATASUBST) demf in
  size_ok sp dem -> dem32 dem -> dem_finite dem -> square_cells (gt1 t) (gt5 t) = true ->
  (forall a, (if sp then fill64_cy else fill64) fuel dem = Ok a -> unmistakable a) ->
  (use_accum = true \/ no_nodata demf) ->
  (forall o, at_once sp cc fuel t demf f use_accum = Ok o ->
     exists o', steps sp cc fuel t demf (Some f) use_accum = Ok o' /\ same_values o o') /\
  (forall o', steps sp cc fuel t demf (Some f) use_accum = Ok o' ->
     exists o, at_once sp cc fuel t demf f use_accum = Ok o /\ same_values o o').
Proof.
  intros fuel t demf f ua dem S H32 HF Sq U A.
  pose proof (size_pos _ _ S) as R.
  unfold at_once, steps, dem_process, cmd_filled, cmd_depths, cmd_flowdir, cmd_accum. fold dem. rewrite Sq. cbn [negb].
  destruct ((if sp then fill64_cy else fill64) fuel dem) as [fl| |] eqn:EF; cbn [bind]; try (split; discriminate).
  pose proof (fill_shape fuel dem fl S H32 HF EF) as [Er Ec]. rewrite (load_filled fl) by auto.
  destruct (minimum_safe_short_and_diag dem) as [[sh dg]| |]; cbn [bind]; try (split; discriminate).
  destruct ((if sp then fill_nf64_cy else fill_nf64) sh dg fuel dem) as [nf| |]; cbn [bind]; try (split; discriminate).
  destruct ((if sp then flowdir64_cy else flowdir64) nf true) as [fd| |]; cbn [bind]; try (split; discriminate).
  destruct ((if sp then accumulated_flow_cy else accumulated_flow) fuel fd) as [ac| |]; cbn [bind]; try (split; discriminate).
  cbn [do_filled do_depths do_flowdir do_accum].
  set (dp := mkFile (raster_sub32 fl dem) (Some NODATASUBST)).
  assert (K : forall o, rest fuel t dp fd f (if ua then Some ac else None) (if ua then None else Some demf) = Ok o <->
     exists b, bluespot_process sp cc fuel t (raster_sub32 fl dem) fd (Some f)
       (if ua then Some (accum64 ac) else None) (Some dem) = Ok b /\ o = (bo_labeled b, bo_watersheds b, bo_pourpoints b)).
  { intros o. rewrite (rest_same fuel t dp fd f (if ua then Some ac else None) dem (if ua then None else Some demf) o);
      auto; try (cbn; lia).
    - destruct ua; reflexivity.
    - destruct ua; auto. destruct A as [A|A]; [discriminate|]. exists (rf_nodata demf).
      replace dem with (rf_data demf); [destruct demf; reflexivity|]. symmetry. apply load_same. apply A. }
  unfold rest in K. split.
  - intros o H. apply bind_ok in H. destruct H as (b & Eb & H). injection H as <-.
    pose proof (proj2 (K _) (ex_intro _ b (conj Eb eq_refl))) as X.
    apply bind_ok in X. destruct X as (bs & -> & X). cbn [bind]. apply bind_ok in X. destruct X as (ws & -> & X). cbn [bind].
    apply bind_ok in X. destruct X as (pp & -> & X). cbn [bind]. injection X as -> -> ->.
    eexists. split; [reflexivity|]. repeat split.
  - intros o H. apply bind_ok in H. destruct H as (bs & E1 & H). apply bind_ok in H. destruct H as (ws & E2 & H).
    apply bind_ok in H. destruct H as (pp & E3 & H). injection H as <-.
    destruct (proj1 (K (bs, ws, pp))) as (b & -> & X). { rewrite E1. cbn [bind]. rewrite E2. cbn [bind]. rewrite E3. reflexivity. }
    cbn [bind]. injection X as -> -> ->. eexists. split; [reflexivity|]. repeat split.
Qed.

(** With enough fuel both succeed. *)
Theorem steps_total : forall t demf f (use_accum : bool),
  let dem := load (Some NODATASUBST) demf in
  size_ok sp dem -> dem32 dem -> dem_finite dem -> square_cells (gt1 t) (gt5 t) = true ->
  (forall fuel a, (if sp then fill64_cy else fill64) fuel dem = Ok a -> unmistakable a) ->
  (use_accum = true \/ no_nodata demf) ->
  exists k, forall fuel, (fuel >= k)%nat -> exists o o',
    at_once sp cc fuel t demf f use_accum = Ok o /\ steps sp cc fuel t demf (Some f) use_accum = Ok o' /\ same_values o o'.
Proof.
  intros t demf f ua dem S H32 HF Sq U A.
  destruct (chain_total cc Hcc sp ua t dem f S H32 HF Sq) as (k & K). exists k. intros fuel Hk.
  destruct (K fuel Hk) as (d & b & E1 & E2).
  assert (O : exists o, at_once sp cc fuel t demf f ua = Ok o).
  { unfold at_once. fold dem. rewrite E1. cbn [bind]. rewrite E2. cbn [bind]. eauto. }
  destruct O as (o & O). destruct (steps_same fuel t demf f ua S H32 HF Sq (U fuel) A) as [X _].
  destruct (X o O) as (o' & ? & ?). exists o, o'. auto.
Qed.

(** Without filter every bluespot is kept. *)
Theorem no_filter : forall t depths, cc_ext cc -> 1 <= nrows (rf_data depths) -> 1 <= ncols (rf_data depths) ->
  cmd_bspots sp cc t depths None = cmd_bspots sp cc t depths (Some (fun _ => true)).
Proof.
  intros t depths X Hr Hc. unfold cmd_bspots. rewrite load_none. set (d := rf_data depths) in *.
  destruct (raw_facts cc Hcc d Hr Hc) as (Sh & L & NL & Hn & Hr' & Hc').
  rewrite (stats_either sp d _ _ Sh NL L Hr' Hc').
  destruct (label_stats64_spec d _ None _ Sh NL L Hr' Hc') as (st & E & _ & Ln & _). rewrite E. cbn [bind].
  set (keep := filterbluespots F64Ops (fun _ => true) (cell_area F64Ops t) st).
  assert (LK : Z.of_nat (length keep) = snd (cc (nonzero d)) + 1).
  { unfold keep, filterbluespots. rewrite map_length. auto. }
  destruct (keep_labels_total _ _ keep L LK Hn) as (new & En). rewrite En. cbn [bind]. f_equal. f_equal.
  destruct (keep_labels_spec _ _ keep new L LK En) as [Shn Kp].
  apply X.
  - destruct Sh, Shn. split; cbn; congruence.
  - intros c Hi. pose proof (contract_zero _ _ _ c (Hcc (nonzero d)) Hi) as Z. cbn [nonzero nrows ncols] in Hi.
    assert (Hi' : inside (nrows (fst (cc (nonzero d)))) (ncols (fst (cc (nonzero d)))) c) by (destruct Sh as [S1 S2]; rewrite <- S1, <- S2; auto).
    specialize (Kp c Hi'). destruct (at_ (nonzero d) c) eqn:D.
    + symmetry. apply Kp. split; [intros Q; apply Z in Q; discriminate|].
      specialize (L c Hi'). destruct (nth_error keep (Z.to_nat (at_ (fst (cc (nonzero d))) c))) as [b|] eqn:N.
      * unfold keep, filterbluespots in N. rewrite nth_error_map in N.
        destruct (nth_error st _); cbn in N; congruence.
      * apply nth_error_None in N. lia.
    + destruct (at_ new c) eqn:Q; auto. destruct (proj1 Kp eq_refl) as [Q' _]. exfalso. apply Q'. apply Z. auto.
Qed.
End Steps.

(** The filled levels are elevations. *)
Theorem python_levels : forall dem, 2 <= nrows dem -> 2 <= ncols dem -> dem32 dem -> unmistakable dem ->
  forall fuel f, fill64 fuel dem = Ok f -> unmistakable f.
Proof.
  intros dem Hr Hc H32 U fuel f E c Hi Cl.
  destruct (fill64_basic dem Hr Hc H32 fuel f E) as (Er & Ec & F32 & _). rewrite Er, Ec in Hi.
  destruct (filled_is_elevation dem Hr Hc H32 fuel f E c Hi) as (d & Id & Eq).
  assert (N1 : not_nan (at_ f c)) by (apply F32; rewrite Er, Ec; auto).
  assert (N2 : not_nan (at_ dem d)) by (apply H32; auto).
  apply eq64_rank in Eq; auto. destruct (Beqb (at_ f c) f64_zero) eqn:Z.
  - exfalso. assert (X : exists s, at_ f c = B754_zero s).
    { clear - Z. destruct (at_ f c) as [s|s| |s m e B]; [exists s; reflexivity| |discriminate Z|]; destruct s; discriminate Z. }
    destruct X as (s & X). rewrite X in Cl. clear - Cl. destruct s; vm_compute in Cl; discriminate Cl.
  - pose proof (eq64_eq _ _ N1 N2 Z Eq) as E'. rewrite E' in *. apply U; auto.
Qed.

Lemma cc_memo_ext : cc_ext cc_memo.
Proof.
  intros a b [Er Ec] H. unfold cc_memo. replace (memo false a) with (memo false b); auto.
  unfold memo. rewrite Er, Ec. f_equal.
  replace (to_rows b) with (to_rows a); auto.
  unfold to_rows. rewrite Er, Ec. apply map_ext_in. intros i Hi. apply map_ext_in. intros j Hj.
  apply in_pyrange_up in Hi. apply in_pyrange_up in Hj. apply (H (i, j)); split; cbn; lia.
Qed.

From Verif Require Import BluespotThms.

(** ** Where they differ *)

(** Elevations 5 mm below -999 around a pit. *)
Definition near : b64 := store32 (f64_div (f64_ofZ (-999005)) (f64_ofZ 1000)).
Definition near_dem : raster_file :=
  mkFile (mkRaster 3 3 (fun i j => if (i =? 1) && (j =? 1) then f64_ofZ (-1000) else near)) None.

Definition labs (o : step_out) : list (list Z) := to_rows (so_bspots o).
Definition cells (o : step_out) : list (Z * Z) := map (fun p => (pp_row p, pp_col p)) (so_pourpts o).
Definition zz_eqb (a b : list (list Z)) : bool := if list_eq_dec (list_eq_dec Z.eq_dec) a b then true else false.
Definition cells_eqb (a b : list (Z * Z)) : bool := zz_eqb (map (fun p => [fst p; snd p]) a) (map (fun p => [fst p; snd p]) b).

Lemma zz_eq : forall a b, zz_eqb a b = true -> a = b.
Proof. intros a b. unfold zz_eqb. destruct (list_eq_dec _ a b); auto. discriminate. Qed.
Lemma cells_eq : forall a b, cells_eqb a b = true -> a = b.
Proof.
  intros a b H. apply zz_eq in H. revert b H. induction a as [|[x y] a IH]; intros [|[u v] b] H; try discriminate; auto.
  cbn in H. injection H as -> -> H. f_equal. auto.
Qed.

Theorem near_refuted : exists demf o o',
  rf_nodata demf = None /\ no_nodata demf /\ size_ok false (rf_data demf) /\ dem32 (rf_data demf) /\ dem_finite (rf_data demf) /\
  at_once false cc_memo 20 ex_gt demf (fun _ => true) true = Ok o /\
  steps false cc_memo 20 ex_gt demf (Some (fun _ => true)) true = Ok o' /\
  to_rows (so_bspots o) = [[0;0;0];[0;1;0];[0;0;0]] /\ to_rows (so_bspots o') = [[1;1;1];[1;1;1];[1;1;1]].
Proof.
  assert (A : on_ok (fun o => zz_eqb (labs o) [[0;0;0];[0;1;0];[0;0;0]])
    (at_once false cc_memo 20 ex_gt near_dem (fun _ => true) true) = true) by (vm_compute; reflexivity).
  assert (B : on_ok (fun o => zz_eqb (labs o) [[1;1;1];[1;1;1];[1;1;1]])
    (steps false cc_memo 20 ex_gt near_dem (Some (fun _ => true)) true) = true) by (vm_compute; reflexivity).
  apply on_ok_ex in A. destruct A as (o & A & A'). apply on_ok_ex in B. destruct B as (o' & B & B').
  assert (D : dem32 (rf_data near_dem) /\ dem_finite (rf_data near_dem)) by (apply dem_ok; vm_compute; reflexivity).
  exists near_dem, o, o'. split; [reflexivity|]. split.
  { intros [i j] _. unfold load, at_. cbn [rget fst snd rf_nodata near_dem reader_read]. destruct (insideb _ _ _ _); reflexivity. }
  split; [cbn; lia|]. split; [apply D|]. split; [apply D|]. split; [exact A|]. split; [exact B|].
  split; apply zz_eq; auto.
Qed.

(** One corner without data; the bluespot (1,2), (1,3) spills at (1,4). *)
Definition lowest : b64 := store32 (f64_mul (f64_ofZ (-34028235)) (f64_ofZ (10 ^ 31))).
Definition nd_dem : raster_file :=
  let d := zrows [[0;5;5;5;5];[5;5;0;0;3];[5;5;5;5;5]] in
  mkFile (mkRaster 3 5 (fun i j => if (i =? 0) && (j =? 0) then lowest else rget d i j)) (Some lowest).

Theorem nodata_refuted : exists demf o o',
  let dem := load (Some (f64_ofZ (-999))) demf in
  size_ok false dem /\ dem32 dem /\ dem_finite dem /\ unmistakable dem /\
  at_once false cc_memo 20 ex_gt demf (fun _ => true) false = Ok o /\
  steps false cc_memo 20 ex_gt demf (Some (fun _ => true)) false = Ok o' /\
  to_rows (so_bspots o) = [[0;0;0;0;0];[0;0;1;1;0];[0;0;0;0;0]] /\
  to_rows (so_bspots o') = to_rows (so_bspots o) /\
  map (fun p => (pp_row p, pp_col p)) (so_pourpts o) = [(0, 0); (1, 3)] /\
  map (fun p => (pp_row p, pp_col p)) (so_pourpts o') = [(0, 0); (1, 2)].
Proof.
  assert (A : on_ok (fun o => zz_eqb (labs o) [[0;0;0;0;0];[0;0;1;1;0];[0;0;0;0;0]] && cells_eqb (cells o) [(0, 0); (1, 3)])
    (at_once false cc_memo 20 ex_gt nd_dem (fun _ => true) false) = true) by (vm_compute; reflexivity).
  assert (B : on_ok (fun o => zz_eqb (labs o) [[0;0;0;0;0];[0;0;1;1;0];[0;0;0;0;0]] && cells_eqb (cells o) [(0, 0); (1, 2)])
    (steps false cc_memo 20 ex_gt nd_dem (Some (fun _ => true)) false) = true) by (vm_compute; reflexivity).
  apply on_ok_ex in A. destruct A as (o & A & A'). apply on_ok_ex in B. destruct B as (o' & B & B').
  apply andb_true_iff in A', B'. destruct A' as [A1 A2], B' as [B1 B2].
  apply zz_eq in A1, B1. apply cells_eq in A2, B2. unfold labs, cells in *.
  assert (D : dem32 (load (Some (f64_ofZ (-999))) nd_dem) /\ dem_finite (load (Some (f64_ofZ (-999))) nd_dem))
    by (apply dem_ok; vm_compute; reflexivity).
  exists nd_dem, o, o'. split; [cbn; lia|]. split; [apply D|]. split; [apply D|]. split.
  { assert (C : forallb (fun c => negb (isclose (at_ (load (Some (f64_ofZ (-999))) nd_dem) c) (f64_ofZ (-999))) ||
       cell_eqb c (0, 0)) (rcells (load (Some (f64_ofZ (-999))) nd_dem)) = true) by (vm_compute; reflexivity).
    intros c Hi Cl. rewrite forallb_forall in C. specialize (C c (proj2 (in_cells_of _ _ _) Hi)). rewrite Cl in C. cbn [negb orb] in C.
    destruct (cell_eqb_spec c (0, 0)); [subst c|discriminate]. apply B2SF_inj. vm_compute. reflexivity. }
  split; [exact A|]. split; [exact B|]. split; [exact A1|]. split; [congruence|]. auto.
Qed.

Theorem not_square_refuted : exists t demf o,
  size_ok false (rf_data demf) /\ dem32 (rf_data demf) /\ dem_finite (rf_data demf) /\ no_nodata demf /\ unmistakable (rf_data demf) /\
  at_once false cc_memo 20 t demf (fun _ => true) true = Exc AssertionError /\
  steps false cc_memo 20 t demf (Some (fun _ => true)) true = Ok o /\
  to_rows (so_bspots o) = [[0;0;0];[0;1;0];[0;0;0]].
Proof.
  set (t := mkGT (f64_ofZ 100) (f64_ofZ 2) f64_zero (f64_ofZ 200) f64_zero (f64_ofZ (-3))).
  set (d := mkFile (zrows [[5;5;5];[5;1;5];[5;5;5]]) None).
  assert (B : on_ok (fun o => zz_eqb (labs o) [[0;0;0];[0;1;0];[0;0;0]])
    (steps false cc_memo 20 t d (Some (fun _ => true)) true) = true) by (vm_compute; reflexivity).
  apply on_ok_ex in B. destruct B as (o & B & B').
  assert (D : dem32 (rf_data d) /\ dem_finite (rf_data d)) by (apply dem_ok; vm_compute; reflexivity).
  exists t, d, o. split; [cbn; lia|]. split; [apply D|]. split; [apply D|]. split.
  { intros [i j] _. unfold load, at_, d. cbn [rget fst snd rf_nodata reader_read]. destruct (insideb _ _ _ _); reflexivity. }
  split.
  { assert (C : forallb (fun c => negb (isclose (at_ (rf_data d) c) (f64_ofZ (-999)))) (rcells (rf_data d)) = true)
      by (vm_compute; reflexivity).
    intros c Hi Cl. rewrite forallb_forall in C. specialize (C c (proj2 (in_cells_of _ _ _) Hi)). rewrite Cl in C. discriminate. }
  split; [vm_compute; reflexivity|]. split; [exact B|]. apply zz_eq. auto.
Qed.

(** ** Example: the two pits of bs_dem in a DEM with nodata value -9999 *)
Definition bs_file : raster_file := mkFile bs_dem (Some (f64_ofZ (-9999))).
Lemma bs_file_ok : no_nodata bs_file /\ unmistakable bs_dem.
Proof.
  assert (C : forallb (fun c => negb (isclose (at_ bs_dem c) (f64_ofZ (-999))) && negb (isclose (at_ bs_dem c) (f64_ofZ (-9999))))
    (rcells bs_dem) = true) by (vm_compute; reflexivity).
  rewrite forallb_forall in C. split; intros c Hi.
  - specialize (C c (proj2 (in_cells_of _ _ _) Hi)). apply andb_true_iff in C. destruct C as [_ C].
    unfold load, at_ in *. cbn [rget fst snd rf_data rf_nodata bs_file] in *. destruct (insideb _ _ _ _); auto.
    unfold reader_read. replace (Beqb (f64_ofZ (-9999)) f64_zero) with false by (vm_compute; reflexivity).
    replace (is_nan (f64_ofZ (-9999))) with false by (vm_compute; reflexivity). cbn [rget].
    apply negb_true_iff in C. rewrite C. reflexivity.
  - intros Cl. specialize (C c (proj2 (in_cells_of _ _ _) Hi)). rewrite Cl in C. discriminate.
Qed.
