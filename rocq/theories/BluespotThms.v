(** * Bluespots: theorems assembled, counterexamples, examples *)

From Flocq Require Import IEEE754.BinarySingleNaN.
From Verif Require Import Base BaseProofs Num Float64 Float64Proofs FillModel FillSpec FillProofs FillThms FlowModel FlowSpec FlowProofs
  DemModel DemProofs FlowThms LabelModel LabelSpec LabelProofs LabelFloat CompSpec CompProofs VectorModel BluespotModel
  BluespotSpec BluespotProofs LevelProofs.

(** ** C27 *)
Theorem chain_pour_ok : forall cc (sp : bool) fuel fuel' t1 t5 dem dout t depths f accum out,
  labels_components cc ->
  size_ok sp dem -> dem32 dem -> dem_finite dem -> nrows dem * ncols dem <= 2 ^ 53 ->
  dem_process sp fuel t1 t5 dem = Ok dout ->
  same_shape dem depths ->
  accum = None \/ accum = Some (accum64 (do_accum dout)) ->
  bluespot_process sp cc fuel' t depths (do_flowdir dout) (Some f) accum (Some dem) = Ok out ->
  Z.of_nat (length (bo_pourpoints out)) = bo_nlabels out + 1 /\
  forall l, 0 <= l <= bo_nlabels out -> (exists c, has_label (bo_labeled out) l c) ->
  exists p, nth_error (bo_pourpoints out) (Z.to_nat l) = Some p /\ pp_id p = l /\
    pour_ok (do_flowdir dout) (bo_labeled out) l (pp_row p, pp_col p).
Proof.
  intros cc sp fuel fuel' t1 t5 dem dout t depths f accum out Hcc S H32 HF Big H Sd HA HB.
  destruct (chain_pour cc Hcc sp _ _ _ _ _ _ _ _ _ _ _ S H32 HF Big H Sd HA HB) as (h & P & L & X).
  split; auto. intros l Hl Ex. destruct (X l Hl Ex) as (p & E1 & E2 & E3). exists p. split; auto. split; auto.
  apply lowest_pour with h; auto.
  assert (Hr : 1 <= nrows depths) by (destruct Sd as [<- _]; destruct sp; cbn in S; lia).
  assert (Hc : 1 <= ncols depths) by (destruct Sd as [_ <-]; destruct sp; cbn in S; lia).
  destruct (process_filter cc Hcc sp _ _ _ _ _ _ _ _ Hr Hc HB) as (Sh & _).
  destruct (dem_flow sp fuel t1 t5 dem dout S H32 HF H) as (Sf & _).
  destruct Sd, Sf, Sh; split; congruence.
Qed.

(** Any labelling, both rules. *)
Theorem pour_min_rule : forall (f lab : raster Z) (h : raster b64) n,
  dem_finite h -> same_shape h f -> same_shape h lab -> 1 <= nrows h -> 1 <= ncols h ->
  (forall c d, flows f c d -> lt64 (at_ h d) (at_ h c)) -> numbered lab n ->
  exists st, label_min_index64 h lab (Some n) = Ok st /\ label_min_index64_cy h lab (Some n) = Ok st /\
  forall l, 0 <= l <= n -> (exists c, has_label lab l c) ->
  exists r, nth_error st (Z.to_nat l) = Some r /\ pour_ok f lab l (i_row r, i_col r).
Proof.
  intros f lab h n F Sf Sl Hr Hc M Nm.
  assert (NL : nlabels_is lab (Some n) n).
  { destruct (Z.eq_dec n 0) as [E0|]; [|left; auto]. rewrite E0 in *. right. split; auto.
    apply numbered_largest; auto; destruct Sl; lia. }
  destruct (min_index_lowest h lab (Some n) n F Sl NL (proj1 Nm)) as (st & E1 & E2 & _ & E4); try (destruct Sl; lia).
  exists st. split; auto. split; auto. intros l Hl Ex. destruct (E4 l Hl Ex) as (r & Er & Lw). exists r. split; auto.
  apply lowest_pour with (fun c => rank (at_ h c)); auto.
  - destruct Sf, Sl; split; congruence.
  - intros c d Fl. pose proof (M c d Fl) as L. destruct Fl as (I1 & I2 & _).
    destruct Sf as [Q1 Q2]. rewrite <- Q1, <- Q2 in *. apply lt64_rank in L; auto; apply finite_not_nan; apply F; auto.
Qed.

Theorem pour_max_rule : forall (sp : bool) fuel (f lab a : raster Z) n,
  fully_draining f -> 1 <= nrows f -> 1 <= ncols f -> nrows f * ncols f <= 2 ^ 53 ->
  (if sp then accumulated_flow_cy else accumulated_flow) fuel f = Ok a ->
  same_shape f lab -> numbered lab n ->
  exists st, label_max_index64 (accum64 a) lab (Some n) = Ok st /\
  forall l, 0 <= l <= n -> (exists c, has_label lab l c) ->
  exists r, nth_error st (Z.to_nat l) = Some r /\ pour_ok f lab l (i_row r, i_col r).
Proof.
  intros sp fuel f lab a n D Hr Hc Big HA Sl Nm.
  destruct (accum_either sp f fuel a D HA) as (Sa & Ia & Ba).
  assert (NL : nlabels_is lab (Some n) n).
  { destruct (Z.eq_dec n 0) as [E0|]; [|left; auto]. rewrite E0 in *. right. split; auto.
    apply numbered_largest; auto; destruct Sl; lia. }
  destruct (max_index_highest a lab (Some n) n) as (st & E1 & _ & E4); auto; try (destruct Sl; lia); try apply Nm.
  { intros c Hi. destruct Sa as [Q1 Q2]. rewrite <- Q1, <- Q2 in Hi. specialize (Ba c Hi). lia. }
  { destruct Sa, Sl; split; congruence. }
  exists st. split; auto. intros l Hl Ex. destruct (E4 l Hl Ex) as (r & Er & Lw). exists r. split; auto.
  apply lowest_pour with (fun c => - at_ a c); auto.
  intros c d Fl. specialize (Ia c d Fl). lia.
Qed.

(** ** The unit grid and the example DEM's chain *)
Definition ex_gt : geotransform b64 :=
  mkGT (f64_ofZ 100) (f64_ofZ 2) f64_zero (f64_ofZ 200) f64_zero (f64_ofZ (-2)).

(** Two pits in a 5x7 terrain: depths 2 and 1 (two cells). *)
Definition bs_dem : raster b64 := zrows
  [[9;9;9;9;9;9;9]; [9;3;9;9;6;6;9]; [9;9;5;9;9;9;9]; [9;9;9;5;9;7;7]; [9;9;9;4;9;9;9]].

Definition bs_out (sp : bool) : res dem_out := dem_process sp 40 (f64_ofZ 2) (f64_ofZ (-2)) bs_dem.

(** Keep bluespots of at least 8 square metres (two cells). *)
Definition bs_filter (s : @unit_stats b64) : bool := Bleb (f64_ofZ 8) (u_area s).

Definition chain (sp use_accum : bool) (f : option (@unit_stats b64 -> bool)) (dem : raster b64) : res bluespot_out :=
  dout <- dem_process sp 40 (f64_ofZ 2) (f64_ofZ (-2)) dem ;;
  bluespot_process sp cc_memo 40 ex_gt (memo f64_zero (do_depths dout)) (memo 0 (do_flowdir dout)) f
    (if use_accum then Some (memo f64_zero (accum64 (do_accum dout))) else None) (Some dem).

Lemma bs_dem_ok : dem32 bs_dem /\ dem_finite bs_dem.
Proof. apply dem_ok. vm_compute. reflexivity. Qed.

(** A check on the result of a run. *)
Definition on_ok {A} (p : A -> bool) (r : res A) : bool := match r with Ok a => p a | _ => false end.
Lemma on_ok_ex : forall {A} (p : A -> bool) (r : res A), on_ok p r = true -> exists a, r = Ok a /\ p a = true.
Proof. intros A p [a| |] H; try discriminate. eauto. Qed.

(** ** C25: capacity of rejected bluespots *)
Definition c25_depths : raster b64 := zrows [[0;0;0];[0;1;0];[0;0;0]].
Definition c25_flow : raster Z := of_rows 0 [[7;0;1];[6;0;2];[5;4;3]].
Definition c25_accum : raster b64 := zrows [[1;2;1];[1;1;1];[1;1;1]].
Definition c25_run : res bluespot_out :=
  bluespot_process false cc_memo 9 ex_gt c25_depths c25_flow (Some (fun _ => false)) (Some c25_accum) None.

Definition c25_check (o : bluespot_out) : bool :=
  (bo_nlabels o =? 0) &&
  match bo_pourpoints o with [p] => (pp_id p =? 0) && Beqb (pp_vol p) (f64_ofZ 4) | _ => false end.

Lemma c25_refuted : exists cc depths flowdir accum t f out p,
  labels_components cc /\ fully_draining flowdir /\
  bluespot_process false cc 9 t depths flowdir (Some f) (Some accum) None = Ok out /\
  (forall s, f s = false) /\ bo_nlabels out = 0 /\
  In p (bo_pourpoints out) /\ eq64 (pp_vol p) (f64_ofZ 4).
Proof.
  assert (C : on_ok c25_check c25_run = true) by (vm_compute; reflexivity).
  apply on_ok_ex in C. destruct C as (o & E & C). unfold c25_check in C.
  apply andb_prop in C. destruct C as [C1 C2]. destruct (bo_pourpoints o) as [|p [|]] eqn:EP; try discriminate C2.
  apply andb_prop in C2. destruct C2 as [_ C2]. apply Z.eqb_eq in C1.
  exists cc_memo, c25_depths, c25_flow, c25_accum, ex_gt, (fun _ => false), o, p.
  split; [apply cc_memo_ok|]. split.
  { apply check_draining_ok. vm_compute. reflexivity. }
  split; [exact E|]. split; auto. split; auto. split; [rewrite EP; left; auto|]. exact C2.
Qed.

(** ** C26 with speedups *)
Definition c26_dem : raster b64 := zrows [[10;10;10;3];[10;10;0;10];[10;0;0;10];[10;10;10;10]].
Definition c26_check (o : dem_out) : bool :=
  Beqb (at_ (do_filled o) (1, 2)) (f64_ofZ 3) && Beqb (at_ (do_filled o) (2, 2)) (f64_ofZ 10) &&
      at_ (nonzero (do_depths o)) (1, 2) && at_ (nonzero (do_depths o)) (2, 2) &&
      (nrows (do_depths o) =? 4) && (ncols (do_depths o) =? 4).

Lemma c26_refuted : exists fuel t1 t5 dem out c d,
  size_ok true dem /\ dem32 dem /\ dem_finite dem /\ dem_process true fuel t1 t5 dem = Ok out /\
  bluespot (do_depths out) c d /\
  eq64 (at_ (do_filled out) c) (f64_ofZ 3) /\ eq64 (at_ (do_filled out) d) (f64_ofZ 10).
Proof.
  assert (C : on_ok c26_check (dem_process true 20 (f64_ofZ 1) (f64_ofZ 1) c26_dem) = true) by (vm_compute; reflexivity).
  apply on_ok_ex in C. destruct C as (o & E & C). unfold c26_check in C.
  repeat (apply andb_prop in C; let C' := fresh "C" in destruct C as [C C']).
  apply Z.eqb_eq in C0, C1.
  exists 20%nat, (f64_ofZ 1), (f64_ofZ 1), c26_dem, o, (1, 2), (2, 2).
  assert (D : dem32 c26_dem /\ dem_finite c26_dem) by (apply dem_ok; vm_compute; reflexivity).
  split; [cbn; lia|]. split; [apply D|]. split; [apply D|]. split; [exact E|]. split; [|split; auto].
  unfold bluespot. apply co_step with (1, 2).
  - apply co_here; auto. unfold inside. cbn [nonzero nrows ncols fst snd]. rewrite C0, C1. lia.
  - unfold adjacent. cbn. split; [discriminate|lia].
  - unfold inside. cbn [nonzero nrows ncols fst snd]. rewrite C0, C1. lia.
  - auto.
Qed.

(** ** C54 *)
Theorem no_filter_raises : forall cc (sp : bool) fuel t depths flowdir accum dem,
  labels_components cc -> 1 <= nrows depths -> 1 <= ncols depths ->
  square_cells (gt1 t) (gt5 t) = true -> accum <> None \/ dem <> None ->
  bluespot_process sp cc fuel t depths flowdir None accum dem = Exc UnboundLocalError.
Proof.
  intros cc sp fuel t depths flowdir accum dem Hcc Hr Hc SQ Som. unfold bluespot_process.
  replace (match accum, dem with None, None => true | _, _ => false end) with false
    by (destruct accum, dem; auto; destruct Som; congruence).
  rewrite SQ. cbn [negb].
  destruct (raw_facts cc Hcc depths Hr Hc) as (Sh & L & NL & Hn & Hr' & Hc').
  rewrite (stats_either sp _ _ _ Sh NL L Hr' Hc').
  destruct (label_stats64_spec _ _ _ _ Sh NL L Hr' Hc') as (st & E1 & _). rewrite E1. reflexivity.
Qed.

(** ** Example runs *)
Definition labels_are (r : res bluespot_out) (rows : list (list Z)) (cells : list (Z * Z * Z)) : bool :=
  match r with
  | Ok o => forallb (fun p => Z.eqb (fst p) (snd p)) (combine (concat (to_rows (bo_labeled o))) (concat rows)) &&
      (Z.of_nat (length (bo_pourpoints o)) =? Z.of_nat (length cells)) &&
      forallb (fun p => let '(pp, (i, r, c)) := p in (pp_id pp =? i) && (pp_row pp =? r) && (pp_col pp =? c))
        (combine (bo_pourpoints o) cells)
  | _ => false
  end.

Lemma c27_runs : exists dout out,
  dem_process false 60 (gt1 ex_gt) (gt5 ex_gt) bs_dem = Ok dout /\
  bluespot_process false cc_memo 60 ex_gt (do_depths dout) (do_flowdir dout) (Some bs_filter)
    (Some (accum64 (do_accum dout))) (Some bs_dem) = Ok out.
Proof.
  assert (C : on_ok (fun _ => true) (dem_process false 60 (gt1 ex_gt) (gt5 ex_gt) bs_dem) = true) by (vm_compute; reflexivity).
  apply on_ok_ex in C. destruct C as (dout & E & _). exists dout.
  destruct bs_dem_ok as [D1 D2]. assert (S : size_ok false bs_dem) by (cbn; lia).
  destruct (dem_flow _ _ _ _ _ _ S D1 D2 E) as (Sf & D & s' & d' & nf' & fuel2 & _ & _ & _ & _ & _ & _ & E4).
  destruct (depths_facts _ _ _ _ _ _ S D1 D2 E) as (Sd & _).
  destruct (accum_either false (do_flowdir dout) fuel2 (do_accum dout) D E4) as (Sa & _).
  destruct (process_total cc_memo cc_memo_ok false 60 ex_gt (do_depths dout) (do_flowdir dout) bs_filter
    (Some (accum64 (do_accum dout))) (Some bs_dem)) as (out & X); auto.
  - destruct Sd as [<- _]. cbn. lia.
  - destruct Sd as [_ <-]. cbn. lia.
  - destruct Sd, Sf; split; congruence.
  - destruct Sd as [<- <-]. apply Nat.leb_le. vm_compute. reflexivity.
  - exists (accum64 (do_accum dout)). split; auto. destruct Sd, Sf, Sa. split; cbn [accum64 nrows ncols]; congruence.
  - exists out. auto.
Qed.
