From Flocq Require Import IEEE754.BinarySingleNaN.
From Verif Require Import Base BaseProofs Num Float64 Float64Proofs FillSpec FillProofs FillModel FlowModel LabelModel
  LabelSpec LabelProofs LabelFloat CompSpec CompProofs VectorModel DemModel BluespotModel BluespotSpec.

Lemma numbered_largest : forall lab n, numbered lab n -> 1 <= nrows lab -> 1 <= ncols lab -> largest_label lab n.
Proof.
  intros lab n (L & Hn & U) Hr Hc. split.
  - destruct (Z.eq_dec n 0) as [->|].
    + exists (0, 0). split; [split; cbn; lia|]. specialize (L (0, 0) ltac:(split; cbn; lia)). lia.
    + apply U. lia.
  - intros c Hi. apply L; auto.
Qed.

Lemma contract_numbered : forall data lab n, cc_contract data lab n -> numbered lab n.
Proof.
  intros data lab n H. destruct (cc_shape _ _ _ H) as [Er Ec].
  split; [|split; [apply (cc_count _ _ _ H)|]].
  - intros c Hi. rewrite <- Er, <- Ec in Hi. destruct (at_ data c) eqn:E.
    + pose proof (cc_range _ _ _ H c Hi E). lia.
    + rewrite (cc_background _ _ _ H c Hi E). pose proof (cc_count _ _ _ H). lia.
  - intros l Hl. destruct (cc_used _ _ _ H l Hl) as (c & Hi & El). exists c. split; auto. rewrite <- Er, <- Ec. auto.
Qed.

Lemma contract_zero : forall data lab n c, cc_contract data lab n -> inside (nrows data) (ncols data) c ->
  (at_ lab c = 0 <-> at_ data c = false).
Proof.
  intros data lab n c H Hi. split; intros E.
  - destruct (at_ data c) eqn:D; auto. pose proof (cc_range _ _ _ H c Hi D). lia.
  - apply (cc_background _ _ _ H); auto.
Qed.

Lemma mmap_ok : forall {A B} (f : A -> res B) l, (forall x, In x l -> exists y, f x = Ok y) ->
  exists ys, mmap f l = Ok ys.
Proof.
  induction l as [|x l IH]; intros H; cbn; [eauto|].
  destruct (H x) as (y & E); [left; auto|]. rewrite E. cbn.
  destruct IH as (ys & E'); [intros; apply H; right; auto|]. rewrite E'. cbn. eauto.
Qed.

Lemma mmap_inv : forall {A B} (f : A -> res B) l ys, mmap f l = Ok ys ->
  forall x, In x l -> exists y, f x = Ok y.
Proof.
  induction l as [|a l IH]; intros ys H x Hx; [destruct Hx|]. cbn in H.
  apply bind_ok in H. destruct H as (y & E & H). apply bind_ok in H. destruct H as (ys' & E' & _).
  destruct Hx as [<-|Hx]; eauto.
Qed.

(** keep_labels: a cell is kept when its label is not the background and passes. *)
Lemma keep_labels_spec : forall lab n keep new, labels_in lab n -> Z.of_nat (length keep) = n + 1 ->
  keep_labels lab keep 0 = Ok new ->
  same_shape lab new /\
  forall c, inside (nrows lab) (ncols lab) c ->
    (at_ new c = true <-> at_ lab c <> 0 /\ nth_error keep (Z.to_nat (at_ lab c)) = Some true).
Proof.
  intros lab n keep new L Hl H. unfold keep_labels in H.
  apply bind_ok in H. destruct H as (ka & E & H). apply bind_ok in H. destruct H as (vals & _ & H).
  inversion H; subst; clear H. split; [split; reflexivity|].
  intros c Hi. specialize (L c Hi).
  rewrite list_wr_in in E by lia. inversion E; subst; clear E. cbn [Z.to_nat].
  unfold at_ at 1. cbn [rget]. fold (at_ lab c).
  destruct (nth_error (list_upd keep 0 false) (Z.to_nat (at_ lab c))) as [b|] eqn:N.
  2:{ apply nth_error_None in N. rewrite list_upd_length in N. lia. }
  rewrite (list_rd_in _ _ b) by (auto; lia).
  destruct (Z.eq_dec (at_ lab c) 0) as [E0|E0].
  - rewrite E0 in N. cbn [Z.to_nat] in N. destruct keep; [cbn in Hl; lia|]. cbn in N. inversion N; subst.
    split; [discriminate | intros [? _]; contradiction].
  - rewrite nth_error_list_upd_other in N by lia. rewrite N. split; intros X.
    + subst. auto.
    + destruct X as [_ X]. congruence.
Qed.

Lemma keep_labels_total : forall lab n keep, labels_in lab n -> Z.of_nat (length keep) = n + 1 -> 0 <= n ->
  exists new, keep_labels lab keep 0 = Ok new.
Proof.
  intros lab n keep L Hl Hn. unfold keep_labels. rewrite list_wr_in by lia. cbn [bind].
  destruct (mmap_ok (list_rd (list_upd keep (Z.to_nat 0) false)) (ravel lab)) as (ys & E).
  - intros x Hx. apply in_map_iff in Hx. destruct Hx as (c & <- & Hc). apply in_cells_of in Hc. specialize (L c Hc).
    destruct (nth_error (list_upd keep (Z.to_nat 0) false) (Z.to_nat (at_ lab c))) as [b|] eqn:N.
    + exists b. apply list_rd_in; auto. lia.
    + apply nth_error_None in N. rewrite list_upd_length in N. lia.
  - rewrite E. cbn. eauto.
Qed.

(** Dropping whole components does not change how the remaining cells hang together. *)
Lemma connected_kept : forall data new,
  same_shape data new ->
  (forall c, inside (nrows data) (ncols data) c -> at_ new c = true -> at_ data c = true) ->
  (forall c d, connected data c d -> at_ new c = true -> at_ new d = true) ->
  forall c d, inside (nrows data) (ncols data) c -> at_ new c = true ->
  (connected new c d <-> connected data c d).
Proof.
  intros data new [Er Ec] Sub Cl c d Hi Hc. split; intros H.
  - induction H as [c0 H1 H2|a b d H IH Ha H1 H2].
    + apply co_here; auto.
    + apply co_step with b; auto; rewrite ?Er, ?Ec in *; auto.
  - induction H as [c0 H1 H2|a b d H IH Ha H1 H2].
    + apply co_here; auto; rewrite <- ?Er, <- ?Ec; auto.
    + assert (D : at_ new d = true). { apply (Cl a d); auto. apply co_step with b; auto. }
      apply co_step with b; auto; rewrite <- ?Er, <- ?Ec; auto.
Qed.

Section Process.
Variable cc : raster bool -> raster Z * Z.
Hypothesis Hcc : labels_components cc.

Lemma raw_facts : forall depths, 1 <= nrows depths -> 1 <= ncols depths ->
  let raw := fst (cc (nonzero depths)) in let n := snd (cc (nonzero depths)) in
  same_shape depths raw /\ labels_in raw n /\ nlabels_is raw None n /\ 0 <= n /\ 1 <= nrows raw /\ 1 <= ncols raw.
Proof.
  intros depths Hr Hc raw n. pose proof (Hcc (nonzero depths)) as C. fold raw n in C.
  destruct (cc_shape _ _ _ C) as [Er Ec]. cbn in Er, Ec.
  pose proof (contract_numbered _ _ _ C) as N. assert (1 <= nrows raw) by lia. assert (1 <= ncols raw) by lia.
  split; [split; auto|]. split; [apply N|]. split.
  - right. split; auto. apply numbered_largest; auto.
  - split; [apply N|auto].
Qed.

(** The filter stage, for both versions of label_stats. *)
Lemma filter_stage : forall depths area f raw_stats new,
  1 <= nrows depths -> 1 <= ncols depths ->
  label_stats64 depths (fst (cc (nonzero depths))) None = Ok raw_stats ->
  keep_labels (fst (cc (nonzero depths))) (filterbluespots F64Ops f area raw_stats) 0 = Ok new ->
  let lab := fst (cc new) in let n := snd (cc new) in
  same_shape depths lab /\ numbered lab n /\
  (forall c, inside (nrows depths) (ncols depths) c ->
     (at_ lab c <> 0 <-> at_ (nonzero depths) c = true /\
        exists s, describes depths (bluespot depths c) area s /\ f s = true)) /\
  (forall c d, inside (nrows depths) (ncols depths) c -> inside (nrows depths) (ncols depths) d ->
     at_ lab c <> 0 -> at_ lab d <> 0 -> (at_ lab c = at_ lab d <-> bluespot depths c d)).
Proof.
  intros depths area f st new Hr Hc Hst Hk lab n.
  destruct (raw_facts depths Hr Hc) as (Sh & L & NL & Hn & Hr' & Hc').
  set (raw := fst (cc (nonzero depths))) in *. set (rn := snd (cc (nonzero depths))) in *.
  pose proof (Hcc (nonzero depths)) as C. fold raw rn in C.
  destruct (label_stats64_spec depths raw None rn Sh NL L Hr' Hc') as (st' & E & _ & Ln & Sp).
  rewrite Hst in E. inversion E; subst st'; clear E.
  destruct (keep_labels_spec raw rn (filterbluespots F64Ops f area st) new L) as [Shn Kp]; auto.
  { unfold filterbluespots. rewrite map_length. auto. }
  pose proof (Hcc new) as C'. fold lab n in C'.
  destruct Sh as [Er Ec], Shn as [Er' Ec'], (cc_shape _ _ _ C') as [Er2 Ec2].
  assert (In_raw : forall c, inside (nrows depths) (ncols depths) c -> inside (nrows raw) (ncols raw) c).
  { intros c. rewrite Er, Ec. auto. }
  assert (In_new : forall c, inside (nrows depths) (ncols depths) c -> inside (nrows new) (ncols new) c).
  { intros c. rewrite <- Er', <- Ec', <- Er, <- Ec. auto. }
  (* the kept cells *)
  assert (Kept : forall c, inside (nrows depths) (ncols depths) c ->
     (at_ new c = true <-> at_ (nonzero depths) c = true /\
        exists s, describes depths (bluespot depths c) area s /\ f s = true)).
  { intros c Hi. rewrite (Kp c (In_raw c Hi)).
    destruct (at_ (nonzero depths) c) eqn:D.
    2:{ split; [|intros [? _]; discriminate]. intros [N0 _]. exfalso. apply N0.
        apply (cc_background _ _ _ C); auto. }
    pose proof (cc_range _ _ _ C c Hi D) as Rg.
    destruct (Sp (at_ raw c)) as (s & cs & Es & Lc & Cn & Sm & Mn & Mx); [lia|].
    assert (Eq : forall d, has_label raw (at_ raw c) d <-> bluespot depths c d).
    { intros d. unfold bluespot, has_label. split.
      - intros [Hd Ed]. rewrite <- Er, <- Ec in Hd.
        assert (Dd : at_ (nonzero depths) d = true).
        { destruct (at_ (nonzero depths) d) eqn:X; auto.
          pose proof (cc_background _ _ _ C d Hd X). lia. }
        apply (cc_same _ _ _ C); auto.
      - intros Hcd. destruct (connected_r _ _ _ Hcd) as [Hd Dd]. split; [apply In_raw; auto|].
        symmetry. apply (cc_same _ _ _ C); auto. }
    assert (Ds : describes depths (bluespot depths c) area (with_units F64Ops area s)).
    { exists cs. split; [split; [apply Lc|intros d; rewrite <- Eq; apply Lc]|]. cbn.
      split; auto. split; auto. split; [apply (extreme_iff _ _ _ _ _ _ Eq); auto|].
      split; [apply (extreme_iff _ _ _ _ _ _ Eq); auto|]. split; auto. }
    unfold filterbluespots. rewrite nth_error_map, Es. cbn [option_map]. split.
    - intros [_ X]. split; auto. exists (with_units F64Ops area s). split; auto. congruence.
    - intros [_ (s' & Ds' & Fs')]. split; [lia|]. f_equal.
      replace (with_units F64Ops area s) with s'; auto.
      (* the description determines the statistics *)
      destruct Ds as (cs1 & L1 & A1 & A2 & A3 & A4 & A5 & A6), Ds' as (cs2 & L2 & B1 & B2 & B3 & B4 & B5 & B6).
      pose proof (lists_unique _ _ _ L1 L2); subst cs2.
      assert (NZ : forall d, bluespot depths c d -> Beqb (at_ depths d) f64_zero = false).
      { intros d Hd. destruct (connected_r _ _ _ Hd) as [_ Dd]. unfold nonzero, at_ in Dd. cbn in Dd.
        apply negb_true_iff in Dd. auto. }
      assert (U : forall x y, not_nan x -> not_nan y -> Beqb x f64_zero = false -> rank x = rank y -> x = y).
      { intros x y Nx Ny Zx Rk.
        destruct (not_nan_cases x Nx) as [Fx|Ix].
        - destruct (not_nan_cases y Ny) as [Fy|Iy].
          + apply B2R_inj.
            * rewrite Beqb_rank in Zx by (auto; reflexivity). apply Z.eqb_neq in Zx.
              destruct x as [sx| | |sx mx ex Bx]; try discriminate; auto.
            * rewrite Beqb_rank in Zx by (auto; reflexivity). apply Z.eqb_neq in Zx.
              destruct y as [sy| | |sy my ey By]; try discriminate; auto.
            * rewrite !B2R_rank by auto. rewrite Rk. auto.
          + pose proof (rank_finite_bound x Fx). destruct Iy as [-> | ->];
              rewrite ?rank_pinf, ?rank_ninf in Rk; lia.
        - pose proof RINF_pos. destruct Ix as [-> | ->].
          + symmetry. apply rank_is_inf; auto.
          + symmetry. apply rank_is_ninf; auto. }
      assert (Ex : forall (le : b64 -> b64 -> Prop) top m m', (forall x y, le x y -> le y x -> not_nan x -> not_nan y -> rank x = rank y) ->
         extreme le top (bluespot depths c) depths m -> extreme le top (bluespot depths c) depths m' -> m = m').
      { intros le top m m' An [[(d & Hd & Nd & ->)|[-> H1]] H2] [[(d' & Hd' & Nd' & ->)|[-> H3]] H4]; auto.
        - exfalso. apply (H3 d); auto.
        - exfalso. apply (H1 d'); auto. }
      assert (Mi : u_min s' = u_min (with_units F64Ops area s)).
      { apply (Ex le64 f64_inf); auto. intros x y H1 H2 Nx Ny. apply le64_rank in H1, H2; auto. lia. }
      assert (Ma : u_max s' = u_max (with_units F64Ops area s)).
      { apply (Ex (fun a b => le64 b a) f64_ninf); auto. intros x y H1 H2 Nx Ny. apply le64_rank in H1, H2; auto. lia. }
      destruct s' as [a1 a2 a3 a4 a5 a6]. unfold with_units in *. cbn [u_min u_max u_sum u_count u_volume u_area] in *.
      assert (a3 = s_sum s) by congruence. assert (a4 = s_count s) by congruence.
      rewrite B5, B6, H, H0, Mi, Ma. reflexivity. }
  assert (Sub : forall c, inside (nrows depths) (ncols depths) c -> at_ new c = true -> at_ (nonzero depths) c = true).
  { intros c Hi X. apply Kept in X; auto. tauto. }
  assert (Cl : forall c d, connected (nonzero depths) c d -> at_ new c = true -> at_ new d = true).
  { intros c d Hcd X. destruct (connected_l _ _ _ Hcd) as [Hi Dc]. destruct (connected_r _ _ _ Hcd) as [Hj Dd].
    apply Kp in X; auto. apply Kp; auto. rewrite (proj2 (cc_same _ _ _ C d c Hj Hi Dd Dc)); auto.
    apply connected_sym; auto. }
  split; [split; congruence|]. split; [apply (contract_numbered _ _ _ C')|]. split.
  - intros c Hi. rewrite <- Kept by auto.
    pose proof (contract_zero _ _ _ c C' (In_new c Hi)) as Z. destruct (at_ new c); split; intros; auto; try discriminate.
    + intros X. apply Z in X. discriminate.
    + exfalso. apply H. apply Z. auto.
  - intros c d Hi Hj Lc Ld.
    assert (Nc : at_ new c = true). { destruct (at_ new c) eqn:X; auto. exfalso. apply Lc. apply (cc_background _ _ _ C'); auto. }
    assert (Nd : at_ new d = true). { destruct (at_ new d) eqn:X; auto. exfalso. apply Ld. apply (cc_background _ _ _ C'); auto. }
    rewrite (cc_same _ _ _ C') by auto.
    apply (connected_kept (nonzero depths) new); auto. split; cbn; congruence.
Qed.
End Process.

From Verif Require Import FlowSpec FlowProofs WatershedProofs.

Section Tool.
Variable cc : raster bool -> raster Z * Z.
Hypothesis Hcc : labels_components cc.
Variable sp : bool.

Lemma stats_either : forall data lab n, same_shape data lab -> nlabels_is lab None n -> labels_in lab n ->
  1 <= nrows lab -> 1 <= ncols lab ->
  (if sp then label_stats64_cy else label_stats64) data lab None = label_stats64 data lab None.
Proof.
  intros data lab n S NL L Hr Hc.
  destruct (label_stats64_spec data lab None n S NL L Hr Hc) as (st & E1 & E2 & _).
  destruct sp; congruence.
Qed.

(** What a finished run has computed. *)
Definition run_parts (fuel : nat) (t : geotransform b64) (depths : raster b64) (flowdir : raster Z)
    (f : @unit_stats b64 -> bool) (accum dem : option (raster b64)) (out : bluespot_out) : Prop :=
  exists st new bst wst pix,
    label_stats64 depths (fst (cc (nonzero depths))) None = Ok st /\
    keep_labels (fst (cc (nonzero depths))) (filterbluespots F64Ops f (cell_area F64Ops t) st) 0 = Ok new /\
    bo_labeled out = fst (cc new) /\ bo_nlabels out = snd (cc new) /\
    label_stats64 depths (bo_labeled out) None = Ok bst /\
    (if sp then watersheds_from_labels_cy else watersheds_from_labels) fuel flowdir (bo_labeled out) 0
      = Ok (bo_watersheds out) /\
    label_count (bo_watersheds out) = Ok wst /\
    pour_cells sp fuel accum dem (bo_labeled out) (bo_nlabels out) = Ok pix /\
    bo_pourpoints out = assemble_pourpoints F64Ops t pix bst wst.

Lemma run_inv : forall fuel t depths flowdir f accum dem out, 1 <= nrows depths -> 1 <= ncols depths ->
  bluespot_process sp cc fuel t depths flowdir (Some f) accum dem = Ok out ->
  run_parts fuel t depths flowdir f accum dem out.
Proof.
  intros fuel t depths flowdir f accum dem out Hr Hc H. unfold bluespot_process in H.
  destruct (match accum with Some _ => _ | None => _ end); [discriminate|].
  destruct (negb (square_cells _ _)); [discriminate|].
  destruct (raw_facts cc Hcc depths Hr Hc) as (Sh & L & NL & Hn & Hr' & Hc').
  rewrite (stats_either _ _ _ Sh NL L Hr' Hc') in H.
  apply bind_ok in H. destruct H as (st & E1 & H). apply bind_ok in H. destruct H as (new & E2 & H).
  pose proof (filter_stage cc Hcc depths (cell_area F64Ops t) f st new Hr Hc E1 E2) as F. cbn zeta in F.
  destruct (cc new) as [lab n] eqn:EC. cbn [fst snd] in F. destruct F as (Sh2 & Nm & _).
  assert (1 <= nrows lab) by (destruct Sh2; lia). assert (1 <= ncols lab) by (destruct Sh2; lia).
  assert (NL2 : nlabels_is lab None n). { right. split; auto. apply numbered_largest; auto. }
  rewrite (stats_either _ lab n Sh2 NL2 (proj1 Nm)) in H by auto.
  apply bind_ok in H. destruct H as (bst & E3 & H). apply bind_ok in H. destruct H as (w & E4 & H).
  apply bind_ok in H. destruct H as (wst & E5 & H). apply bind_ok in H. destruct H as (pix & E6 & H).
  inversion H; subst; clear H. exists st, new, bst, wst, pix. rewrite EC. cbn.
  repeat (split; [auto; fail|]). auto.
Qed.

Theorem process_filter : forall fuel t depths flowdir f accum dem out, 1 <= nrows depths -> 1 <= ncols depths ->
  bluespot_process sp cc fuel t depths flowdir (Some f) accum dem = Ok out ->
  same_shape depths (bo_labeled out) /\ numbered (bo_labeled out) (bo_nlabels out) /\
  (forall c, inside (nrows depths) (ncols depths) c ->
     (at_ (bo_labeled out) c <> 0 <-> at_ (nonzero depths) c = true /\
        exists s, describes depths (bluespot depths c) (cell_area F64Ops t) s /\ f s = true)) /\
  (forall c d, inside (nrows depths) (ncols depths) c -> inside (nrows depths) (ncols depths) d ->
     at_ (bo_labeled out) c <> 0 -> at_ (bo_labeled out) d <> 0 ->
     (at_ (bo_labeled out) c = at_ (bo_labeled out) d <-> bluespot depths c d)).
Proof.
  intros fuel t depths flowdir f accum dem out Hr Hc H.
  destruct (run_inv _ _ _ _ _ _ _ _ Hr Hc H) as (st & new & bst & wst & pix & E1 & E2 & EL & EN & _).
  rewrite EL, EN. apply (filter_stage cc Hcc depths (cell_area F64Ops t) f st new); auto.
Qed.

(** Watershed labels: the same numbers. *)
Lemma first_label_value : forall (f lab : raster Z) u c l, first_label f lab u c l ->
  l = u \/ exists d, inside (nrows f) (ncols f) d /\ at_ lab d = l.
Proof. induction 1; auto. right. eauto. Qed.

Lemma watersheds_numbered : forall fuel (f lab w : raster Z) n, fully_draining f -> same_shape f lab ->
  1 <= nrows f -> 1 <= ncols f -> numbered lab n -> watersheds_from_labels fuel f lab 0 = Ok w ->
  same_shape f w /\ numbered w n.
Proof.
  intros fuel f lab w n D S Hr Hc (L & Hn & U) H.
  destruct (watersheds_first_label f lab 0 fuel w D S Hr Hc H) as (Sw & K & F).
  split; auto. destruct S as [Er Ec], Sw as [Er' Ec']. split; [|split; auto].
  - intros c Hi. rewrite <- Er', <- Ec' in Hi. destruct (first_label_value _ _ _ _ _ (F c Hi)) as [E|(d & Hd & E)].
    + rewrite E. lia.
    + rewrite <- E. apply L. rewrite <- Er, <- Ec. auto.
  - intros l Hl. destruct (U l Hl) as (c & [Hi E]). exists c. rewrite <- Er, <- Ec in Hi. split.
    + rewrite <- Er', <- Ec'. auto.
    + rewrite K; auto. lia.
Qed.

Lemma watersheds_either : forall fuel (f lab : raster Z), fully_draining f -> same_shape f lab ->
  1 <= nrows f -> 1 <= ncols f ->
  (if sp then watersheds_from_labels_cy else watersheds_from_labels) fuel f lab 0 =
  watersheds_from_labels fuel f lab 0.
Proof. intros. destruct sp; auto. apply watersheds_cy_same; auto. Qed.

(** Assembling. *)
Lemma assemble_nth : forall (t : geotransform b64) pix ix bst wst i p s w,
  nth_error pix i = Some p -> nth_error bst i = Some s -> nth_error wst i = Some w ->
  nth_error (assemble_from F64Ops ix t pix bst wst) i =
  Some (mkPP (ix + Z.of_nat i) (i_row p) (i_col p) (s_max s)
     (f64_mul (f64_ofZ (s_count s)) (cell_area F64Ops t))
     (f64_mul (s_sum s) (cell_area F64Ops t))
     (f64_mul (f64_ofZ w) (cell_area F64Ops t))
     (f64_div (f64_mul (f64_ofZ 1000) (f64_mul (s_sum s) (cell_area F64Ops t))) (f64_mul (f64_ofZ w) (cell_area F64Ops t)))
     (transform_cell_to_world F64Ops (i_row p, i_col p) t)).
Proof.
  induction pix as [|p' pix IH]; intros ix bst wst [|i] p s w Hp Hs Hw; try discriminate;
    destruct bst as [|s' bst]; try discriminate; destruct wst as [|w' wst]; try discriminate.
  - cbn in Hp, Hs, Hw. inversion Hp; inversion Hs; inversion Hw; subst. cbn [assemble_from nth_error].
    rewrite Z.add_0_r. reflexivity.
  - cbn [assemble_from nth_error]. cbn in Hp, Hs, Hw. rewrite (IH (ix + 1) bst wst i p s w) by auto.
    replace (ix + 1 + Z.of_nat i) with (ix + Z.of_nat (S i)) by lia. reflexivity.
Qed.

Lemma assemble_length : forall (t : geotransform b64) pix ix bst wst n,
  length pix = n -> length bst = n -> length wst = n -> length (assemble_from F64Ops ix t pix bst wst) = n.
Proof.
  induction pix as [|p pix IH]; intros ix [|s bst] [|w wst] n H1 H2 H3; cbn in *; try lia.
  destruct n; [lia|]. f_equal. apply IH; lia.
Qed.

Lemma mfold_keeps : forall {A B} (f : A -> B -> res A) (P : A -> Prop) l a a',
  (forall a x a', P a -> f a x = Ok a' -> P a') -> P a -> mfold f l a = Ok a' -> P a'.
Proof.
  induction l as [|x l IH]; intros a a' K Ha H; cbn in H; [inversion H; subst; auto|].
  apply bind_ok in H. destruct H as (b & E & H). apply (IH b a' K); eauto.
Qed.

(** There is one pour point cell record per label, whatever the rasters. *)
Lemma list_wr_length : forall {A} (l : list A) i v l', list_wr l i v = Ok l' -> length l' = length l.
Proof.
  intros A l i v l' H. unfold list_wr in H. destruct (pyidx _ _); [|discriminate]. inversion H. apply list_upd_length.
Qed.

Lemma c_wr_length : forall {A} (l : list A) i v l', c_wr l i v = Ok l' -> length l' = length l.
Proof.
  intros A l i v l' H. unfold c_wr in H. destruct (list_wr l i v) eqn:E; try discriminate. inversion H; subst.
  eapply list_wr_length; eauto.
Qed.

Lemma np_full_length : forall {A} n (v : A) l, np_full n v = Ok l -> Z.of_nat (length l) = n.
Proof.
  intros A n v l H. unfold np_full in H. destruct (Z.ltb_spec n 0); [discriminate|]. inversion H. rewrite repeat_length. lia.
Qed.

Lemma label_index_length : forall step (start : b64) data lab n nl l, nlabels_is lab nl n ->
  label_index step start data lab nl = Ok l -> Z.of_nat (length l) = n + 1.
Proof.
  intros step start data lab n nl l NL H. unfold label_index in H. rewrite (resolve_spec _ _ _ NL) in H. cbn [bind] in H.
  apply bind_ok in H. destruct H as (l0 & E & H). apply np_full_length in E.
  rewrite <- E. f_equal.
  revert H. apply (mfold_keeps _ (fun x => length x = length l0)); auto.
  intros a c a' Ha Hs. apply bind_ok in Hs. destruct Hs as (x & _ & Hs). apply bind_ok in Hs. destruct Hs as (y & _ & Hs).
  apply bind_ok in Hs. destruct Hs as (z & _ & Hs). apply list_wr_length in Hs. congruence.
Qed.

Lemma label_min_index_cy_length : forall data lab n nl l, nlabels_is lab nl n ->
  label_min_index64_cy data lab nl = Ok l -> Z.of_nat (length l) = n + 1.
Proof.
  intros data lab n nl l NL H. unfold label_min_index64_cy, label_min_index_cy in H. rewrite (resolve_spec _ _ _ NL) in H. cbn [bind] in H.
  apply bind_ok in H. destruct H as (l0 & E & H). apply np_full_length in E.
  rewrite <- E. f_equal.
  revert H. apply (mfold_keeps _ (fun x => length x = length l0)); auto.
  intros a c a' Ha Hs. apply bind_ok in Hs. destruct Hs as (x & _ & Hs). apply bind_ok in Hs. destruct Hs as (y & _ & Hs).
  apply bind_ok in Hs. destruct Hs as (z & _ & Hs). apply c_wr_length in Hs. congruence.
Qed.

Lemma pour_cells_length : forall fuel accum dem lab n pix, nlabels_is lab (Some n) n ->
  pour_cells sp fuel accum dem lab n = Ok pix -> Z.of_nat (length pix) = n + 1.
Proof.
  intros fuel accum dem lab n pix NL H. destruct accum as [a|]; cbn [pour_cells] in H.
  - unfold label_max_index64, label_max_index in H. eapply label_index_length; eauto.
  - destruct dem as [d|]; [|discriminate]. apply bind_ok in H. destruct H as ((short & diag) & _ & H).
    apply bind_ok in H. destruct H as (nf & _ & H). destruct sp.
    + eapply label_min_index_cy_length; eauto.
    + unfold label_min_index64, label_min_index in H. eapply label_index_length; eauto.
Qed.

(** Everything recorded at the pour point of each label. *)
Theorem process_pourpoints : forall fuel t depths flowdir f accum dem out,
  1 <= nrows depths -> 1 <= ncols depths -> same_shape depths flowdir -> fully_draining flowdir ->
  bluespot_process sp cc fuel t depths flowdir (Some f) accum dem = Ok out ->
  exists pix, pour_cells sp fuel accum dem (bo_labeled out) (bo_nlabels out) = Ok pix /\
  Z.of_nat (length pix) = bo_nlabels out + 1 /\
  Z.of_nat (length (bo_pourpoints out)) = bo_nlabels out + 1 /\
  same_shape depths (bo_watersheds out) /\
  (forall c, inside (nrows depths) (ncols depths) c ->
     first_label flowdir (bo_labeled out) 0 c (at_ (bo_watersheds out) c)) /\
  forall l, 0 <= l <= bo_nlabels out -> exists p r cs ws,
    nth_error (bo_pourpoints out) (Z.to_nat l) = Some p /\ nth_error pix (Z.to_nat l) = Some r /\
    lists_cells (has_label (bo_labeled out) l) cs /\
    lists_cells (has_label (bo_watersheds out) l) ws /\
    pp_id p = l /\ pp_row p = i_row r /\ pp_col p = i_col r /\
    extreme (fun a b => le64 b a) f64_ninf (has_label (bo_labeled out) l) depths (pp_dmax p) /\
    pp_area p = f64_mul (f64_ofZ (Z.of_nat (length cs))) (cell_area F64Ops t) /\
    pp_vol p = f64_mul (fold_left f64_add (map (at_ depths) cs) (f64_ofZ 0)) (cell_area F64Ops t) /\
    pp_wshed p = f64_mul (f64_ofZ (Z.of_nat (length ws))) (cell_area F64Ops t) /\
    pp_coord p = transform_cell_to_world F64Ops (i_row r, i_col r) t.
Proof.
  intros fuel t depths flowdir f accum dem out Hr Hc Sf D H.
  destruct (process_filter _ _ _ _ _ _ _ _ Hr Hc H) as (Sh & Nm & _).
  destruct (run_inv _ _ _ _ _ _ _ _ Hr Hc H) as (st & new & bst & wst & pix & _ & _ & _ & _ & E3 & E4 & E5 & E6 & E7).
  set (lab := bo_labeled out) in *. set (n := bo_nlabels out) in *. set (w := bo_watersheds out) in *.
  assert (Hr2 : 1 <= nrows lab) by (destruct Sh; lia). assert (Hc2 : 1 <= ncols lab) by (destruct Sh; lia).
  assert (Sl : same_shape flowdir lab) by (destruct Sh, Sf; split; congruence).
  assert (Hr3 : 1 <= nrows flowdir) by (destruct Sf; lia). assert (Hc3 : 1 <= ncols flowdir) by (destruct Sf; lia).
  rewrite watersheds_either in E4 by auto.
  destruct (watersheds_numbered fuel flowdir lab w n D Sl Hr3 Hc3 Nm E4) as [Sw Nw].
  destruct (watersheds_first_label flowdir lab 0 fuel w D Sl Hr3 Hc3 E4) as (_ & _ & F).
  assert (NL : nlabels_is lab None n). { right. split; auto. apply numbered_largest; auto. }
  assert (NL' : nlabels_is lab (Some n) n).
  { destruct (Z.eq_dec n 0) as [E0|]; [|left; auto]. rewrite E0 in *. right. split; auto. apply numbered_largest; auto. }
  pose proof (pour_cells_length _ _ _ _ _ _ NL' E6) as Lp.
  exists pix. split; auto. split; auto.
  destruct (label_stats64_spec depths lab None n Sh NL (proj1 Nm) Hr2 Hc2) as (bst' & B1 & _ & B2 & B3).
  assert (bst' = bst) by congruence. subst bst'.
  destruct (label_count_spec w n) as (wst' & W1 & W2 & W3).
  { apply Nw. } { apply numbered_largest; auto; destruct Sw; lia. }
  assert (wst' = wst) by congruence. subst wst'.
  split.
  { rewrite E7. unfold assemble_pourpoints. rewrite (assemble_length t pix 0 bst wst (length pix)); auto; lia. }
  split; [destruct Sf, Sw; split; congruence|]. split.
  { intros c Hi. apply F. destruct Sf as [<- <-]. auto. }
  intros l Hl. destruct (B3 l Hl) as (s & cs & Es & Lc & Cn & Sm & _ & Mx).
  destruct (W3 l Hl) as (ws & Lw & Ew).
  destruct (nth_error pix (Z.to_nat l)) as [r|] eqn:Er.
  2:{ apply nth_error_None in Er. lia. }
  eexists. exists r, cs, ws. rewrite E7. unfold assemble_pourpoints.
  split; [apply assemble_nth; eauto|]. split; auto. split; auto. split; auto.
  cbn [pp_id pp_row pp_col pp_dmax pp_area pp_vol pp_wshed pp_coord].
  rewrite Z2Nat.id by lia. rewrite Cn, Sm. repeat (split; [auto; fail|]). auto.
Qed.

(** With a filter, depths and a draining flow raster of one shape, and a rule that finds
    pour points for every labelling, the tool succeeds. *)
Theorem process_total_by : forall fuel t depths flowdir f accum dem,
  1 <= nrows depths -> 1 <= ncols depths -> same_shape depths flowdir -> fully_draining flowdir ->
  square_cells (gt1 t) (gt5 t) = true -> (Z.to_nat (nrows depths * ncols depths) <= fuel)%nat ->
  (accum <> None \/ dem <> None) ->
  (forall lab n, same_shape depths lab -> numbered lab n -> exists pix, pour_cells sp fuel accum dem lab n = Ok pix) ->
  exists out, bluespot_process sp cc fuel t depths flowdir (Some f) accum dem = Ok out.
Proof.
  intros fuel t depths flowdir f accum dem Hr Hc Sf D SQ Fu Som Rule.
  unfold bluespot_process.
  replace (match accum, dem with None, None => true | _, _ => false end) with false
    by (destruct accum, dem; auto; destruct Som; congruence). rewrite SQ. cbn [negb].
  destruct (raw_facts cc Hcc depths Hr Hc) as (Sh & L & NL & Hn & Hr' & Hc').
  rewrite (stats_either _ _ _ Sh NL L Hr' Hc').
  destruct (label_stats64_spec _ _ _ _ Sh NL L Hr' Hc') as (st & E1 & _ & Ln & _). rewrite E1. cbn [bind].
  destruct (keep_labels_total _ _ (filterbluespots F64Ops f (cell_area F64Ops t) st) L) as (new & E2); auto.
  { unfold filterbluespots. rewrite map_length. auto. }
  rewrite E2. cbn [bind].
  pose proof (filter_stage cc Hcc depths (cell_area F64Ops t) f st new Hr Hc E1 E2) as F. cbn zeta in F.
  destruct (cc new) as [lab n] eqn:EC. cbn [fst snd] in F. destruct F as (Sh2 & Nm & _).
  assert (1 <= nrows lab) by (destruct Sh2; lia). assert (1 <= ncols lab) by (destruct Sh2; lia).
  assert (NL2 : nlabels_is lab None n). { right. split; auto. apply numbered_largest; auto. }
  rewrite (stats_either _ lab n Sh2 NL2 (proj1 Nm)) by auto.
  destruct (label_stats64_spec _ _ _ _ Sh2 NL2 (proj1 Nm)) as (bst & E3 & _); auto. rewrite E3. cbn [bind].
  assert (Sl : same_shape flowdir lab) by (destruct Sh2, Sf; split; congruence).
  assert (Hr3 : 1 <= nrows flowdir) by (destruct Sf; lia). assert (Hc3 : 1 <= ncols flowdir) by (destruct Sf; lia).
  rewrite watersheds_either by auto.
  destruct (watersheds_terminate flowdir lab 0 D Sl Hr3 Hc3 fuel) as (w & E4).
  { destruct Sf as [<- <-]. auto. }
  rewrite E4. cbn [bind].
  destruct (watersheds_numbered fuel flowdir lab w n D Sl Hr3 Hc3 Nm E4) as [Sw Nw].
  destruct (label_count_spec w n) as (wst & E5 & _).
  { apply Nw. } { apply numbered_largest; auto; destruct Sw; lia. }
  rewrite E5. cbn [bind]. destruct (Rule lab n Sh2 Nm) as (pix & E6). rewrite E6. cbn [bind]. eauto.
Qed.

(** With accumulated flow given. *)
Theorem process_total : forall fuel t depths flowdir f accum dem,
  1 <= nrows depths -> 1 <= ncols depths -> same_shape depths flowdir -> fully_draining flowdir ->
  square_cells (gt1 t) (gt5 t) = true -> (Z.to_nat (nrows depths * ncols depths) <= fuel)%nat ->
  (exists a, accum = Some a /\ same_shape depths a) ->
  exists out, bluespot_process sp cc fuel t depths flowdir (Some f) accum dem = Ok out.
Proof.
  intros fuel t depths flowdir f accum dem Hr Hc Sf D SQ Fu (a & -> & Sa).
  apply process_total_by; auto; [left; discriminate|]. intros lab n Sh2 Nm. cbn [pour_cells].
  assert (S3 : same_shape a lab) by (destruct Sh2, Sa; split; congruence).
  assert (1 <= nrows lab) by (destruct Sh2; lia). assert (1 <= ncols lab) by (destruct Sh2; lia).
  assert (NL3 : nlabels_is lab (Some n) n).
  { destruct (Z.eq_dec n 0) as [->|]; [right; split; auto; apply numbered_largest; auto | left; auto]. }
  destruct (label_max_index_spec a lab (Some n) n S3 NL3 (proj1 Nm)) as (pix & E6 & _); auto.
  eauto.
Qed.

Theorem process_no_filter : forall fuel t depths flowdir accum dem out,
  bluespot_process sp cc fuel t depths flowdir None accum dem <> Ok out.
Proof.
  intros fuel t depths flowdir accum dem out H. unfold bluespot_process in H.
  destruct (match accum with Some _ => _ | None => _ end); [discriminate|].
  destruct (negb (square_cells _ _)); [discriminate|].
  apply bind_ok in H. destruct H as (st & _ & H). discriminate.
Qed.
End Tool.
