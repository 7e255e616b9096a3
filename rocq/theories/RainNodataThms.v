From Coq Require Import QArith Qabs Sorting.Sorted Lqa.
From Flocq Require Import IEEE754.BinarySingleNaN.
From Verif Require Import Base BaseProofs Num Float64 FillSpec FillModel FillThms FlowModel DemModel LabelModel LabelSpec LabelProofs
  CompSpec CompProofs VectorModel BluespotModel BluespotSpec BluespotThms NetModel NetSpec NetThms NetworkModel NetworkSpec NetworkThms RainModel RainProofs RainThms
  PipelineModel IoModel StepModel StepSpec StepThms NodataThms RasterRainThms.
Local Open Scope Z_scope.

Definition nodatab (f : raster_file) (c : cell) : bool :=
  match rf_nodata f with
  | Some nd => if is_nan nd then is_nan (at_ (rf_data f) c) else isclose (at_ (rf_data f) c) nd
  | None => false
  end.

Lemma nodatab_spec : forall f c, inside (nrows (rf_data f)) (ncols (rf_data f)) c -> (nodatab f c = true <-> nodata_at f c).
Proof.
  intros f c Hi. unfold nodatab, nodata_at. split.
  - destruct (rf_nodata f) as [nd|]; [|discriminate]. intros H. split; [exact Hi|]. exists nd. split; [reflexivity|].
    destruct (is_nan nd); exact H.
  - intros (_ & nd & -> & H). destruct (is_nan nd); exact H.
Qed.

Lemma Qsum_split : forall (p : cell -> bool) (g : cell -> Q) l,
  (Qsum (map g l) == Qsum (map g (filter (fun c => negb (p c)) l)) + Qsum (map g (filter p l)))%Q.
Proof.
  induction l as [|a l IH]; cbn [map Qsum filter]; [ring|]. rewrite IH. destruct (p a); cbn [negb map Qsum]; ring.
Qed.

Lemma sorted_filter : forall (p : cell -> bool) l, StronglySorted before l -> StronglySorted before (filter p l).
Proof.
  induction 1 as [|a l S IH F]; cbn [filter]; [constructor|]. destruct (p a); [|exact IH]. constructor; [exact IH|].
  rewrite Forall_forall in *. intros x Hx. apply filter_In in Hx. apply F. apply Hx.
Qed.

Lemma lists_filter : forall (P Q : cell -> Prop) (p : cell -> bool) l, lists_cells P l ->
  (forall c, P c -> (p c = true <-> Q c)) -> lists_cells (fun c => P c /\ Q c) (filter p l).
Proof.
  intros P Q p l [S E] H. split; [apply sorted_filter; exact S|]. intros c. rewrite filter_In, E. split.
  - intros [A B]. split; [exact A|]. apply H; assumption.
  - intros [A B]. split; [exact A|]. apply H; assumption.
Qed.

(** ** C72 *)
Theorem pr_volumes : forall t (lab : raster Z) (pr : raster_file) u nodes n,
  same_shape lab (rf_data pr) -> labels_in lab n -> largest_label lab n -> 1 <= nrows lab -> 1 <= ncols lab ->
  (forall nd, In nd nodes -> 0 <= nf_id nd) -> ~ (Qabs (gt1 t) * Qabs (gt5 t) == 0)%Q ->
  exists rv, cmd_initvolumes_pr t lab pr u nodes = Ok rv /\ map fst rv = nodes /\
  forall nd v, In (nd, v) rv -> exists data holes,
    lists_cells (fun c => has_label lab (nf_id nd) c /\ ~ nodata_at pr c) data /\
    lists_cells (fun c => has_label lab (nf_id nd) c /\ nodata_at pr c) holes /\
    let mm c := b64_Q (at_ (rf_data pr) c) in
    let factor := match u with U_mm => Qabs (gt1 t) * Qabs (gt5 t) / 1000 | U_l => 1 # 1000 | U_m3 => 1 end%Q in
    (v == (Qsum (map mm data) + Qsum (map mm holes)) * factor)%Q /\
    ((v == Qsum (map mm data) * factor)%Q <-> (Qsum (map mm holes) == 0)%Q).
Proof.
  intros t lab pr u nodes n S LI LL Hr Hc Nn NZ. unfold cmd_initvolumes_pr. rewrite load_none.
  destruct (raster_volumes_spec t lab (raster_Q (rf_data pr)) u nodes n S LI LL Hr Hc Nn) as (rv & E & Ef & F).
  exists rv. split; [exact E|]. split; [exact Ef|]. intros nd v Hv. destruct (F nd v Hv) as (cs & Lc & Ev).
  assert (K : forall c, has_label lab (nf_id nd) c -> (nodatab pr c = true <-> nodata_at pr c)).
  { intros c [Hi _]. apply nodatab_spec. destruct S as [<- <-]. exact Hi. }
  exists (filter (fun c => negb (nodatab pr c)) cs), (filter (nodatab pr) cs). split; [|split].
  - apply lists_filter; [exact Lc|]. intros c Hl. rewrite <- (K c Hl), negb_true_iff. destruct (nodatab pr c); split; congruence.
  - apply lists_filter; [exact Lc|exact K].
  - cbv zeta. change (fun c => b64_Q (at_ (rf_data pr) c)) with (fun c => at_ (raster_Q (rf_data pr)) c).
    change (fun c => at_ (raster_Q (rf_data pr)) c) with (at_ (raster_Q (rf_data pr))).
    rewrite (Qsum_split (nodatab pr)) in Ev.
    set (A := Qsum (map (at_ (raster_Q (rf_data pr))) (filter (fun c => negb (nodatab pr c)) cs))) in *.
    set (B := Qsum (map (at_ (raster_Q (rf_data pr))) (filter (nodatab pr) cs))) in *.
    unfold unit_factor in Ev.
    assert (NF : ~ ((match u with U_mm => Qabs (gt1 t) * Qabs (gt5 t) / 1000 | U_l => 1 # 1000 | U_m3 => 1 end) == 0)%Q).
    { destruct u; [|discriminate|discriminate]. intros X. apply NZ.
      setoid_replace (Qabs (gt1 t) * Qabs (gt5 t))%Q with (Qabs (gt1 t) * Qabs (gt5 t) / 1000 * 1000)%Q by field.
      rewrite X. reflexivity. }
    set (k := match u with U_mm => (Qabs (gt1 t) * Qabs (gt5 t) / 1000)%Q | U_l => 1 # 1000 | U_m3 => 1%Q end) in *.
    split; [exact Ev|]. rewrite Ev. split.
    + intros X. apply (Qmult_inj_r B 0 k NF). lra.
    + intros X. rewrite X. ring.
Qed.

(** rain_dem with 10 mm of rain, but one cell of bluespot 1 is nodata. *)
Definition gap : raster_file :=
  mkFile (mkRaster 3 6 (fun i j => if (i =? 1) && (j =? 1) then f64_ofZ (-9999) else f64_ofZ 10)) (Some (f64_ofZ (-9999))).
Definition gap_run : res (list (@node_feature Q * Q)) :=
  dout <- dem_process false 20 (gt1 ex_gt) (gt5 ex_gt) rain_dem ;;
  out <- bluespot_process false cc_memo 20 ex_gt (do_depths dout) (do_flowdir dout) (Some all_pass) None (Some rain_dem) ;;
  pps <- exact_pourpoints ex_gt (do_depths dout) out ;;
  ns <- stream_process QOps 20 (gt_Q ex_gt) (do_flowdir dout) (bo_labeled out) pps true ;;
  cmd_initvolumes_pr (gt_Q ex_gt) (bo_watersheds out) gap U_mm (fst ns).

Definition gap_ok (r : list (@node_feature Q * Q)) : bool :=
  match map (fun p => (nf_id (fst p), Qred (snd p))) r with
  | [(0, a); (1, b); (2, c)] => Qeq_bool a (56 # 100) && Qeq_bool b (-39956 # 1000) && Qeq_bool c (8 # 100)
  | _ => false
  end.

Theorem pr_refuted : exists dout out pps nodes sts rv v,
  dem_process false 20 (gt1 ex_gt) (gt5 ex_gt) rain_dem = Ok dout /\
  bluespot_process false cc_memo 20 ex_gt (do_depths dout) (do_flowdir dout) (Some all_pass) None (Some rain_dem) = Ok out /\
  exact_pourpoints ex_gt (do_depths dout) out = Ok pps /\
  stream_process QOps 20 (gt_Q ex_gt) (do_flowdir dout) (bo_labeled out) pps true = Ok (nodes, sts) /\
  (forall c, inside 3 6 c -> ~ nodata_at gap c -> at_ (rf_data gap) c = f64_ofZ 10) /\
  cmd_initvolumes_pr (gt_Q ex_gt) (bo_watersheds out) gap U_mm nodes = Ok rv /\
  In v rv /\ (snd v == -39956 # 1000)%Q.
Proof.
  assert (C : on_ok gap_ok gap_run = true) by (vm_compute; reflexivity).
  apply on_ok_ex in C. destruct C as (rv & E & C). unfold gap_run in E.
  apply bind_ok in E. destruct E as (dout & E1 & E). apply bind_ok in E. destruct E as (out & E2 & E).
  apply bind_ok in E. destruct E as (pps & E3 & E). apply bind_ok in E. destruct E as ((ns & sts) & E4 & E). cbn [fst] in E.
  assert (V : exists v, In v rv /\ (snd v == -39956 # 1000)%Q).
  { clear - C. unfold gap_ok in C. destruct rv as [|a [|b [|c rv]]]; cbn [map] in C.
    - discriminate C.
    - destruct (nf_id (fst a)); discriminate C.
    - destruct (nf_id (fst a)), (nf_id (fst b)) as [|[]|]; discriminate C.
    - exists b. split; [right; left; reflexivity|].
      destruct (nf_id (fst a)); try discriminate C. destruct (nf_id (fst b)) as [|[| |]|]; try discriminate C.
      destruct (nf_id (fst c)) as [|[|[| |]|]|]; try discriminate C.
      destruct rv; [|discriminate C]. cbn [map] in C. apply andb_true_iff in C. destruct C as [C _].
      apply andb_true_iff in C. destruct C as [_ C]. apply Qeq_bool_iff in C. rewrite Qred_correct in C. exact C. }
  destruct V as (v & V1 & V2). exists dout, out, pps, ns, sts, rv, v.
  split; [exact E1|]. split; [exact E2|]. split; [exact E3|]. split; [exact E4|]. split; [|split; [exact E|split; [exact V1|exact V2]]].
  intros [i j] Hi N. unfold at_. cbn [rf_data gap rget fst snd]. destruct ((i =? 1) && (j =? 1)) eqn:X; [|reflexivity].
  exfalso. apply N. apply andb_true_iff in X. destruct X as [X1 X2]. apply Z.eqb_eq in X1, X2. subst.
  apply nodata_of; vm_compute; reflexivity.
Qed.

Lemma pr_example : exists lab nodes n, same_shape lab (rf_data gap) /\ labels_in lab n /\ largest_label lab n /\
  (forall nd : @node_feature Q, In nd nodes -> 0 <= nf_id nd) /\ ~ (Qabs (gt1 (gt_Q ex_gt)) * Qabs (gt5 (gt_Q ex_gt)) == 0)%Q /\
  nodes <> [] /\ has_label lab 1 (1, 1) /\ nodata_at gap (1, 1) /\ has_label lab 1 (1, 2) /\ ~ nodata_at gap (1, 2).
Proof.
  set (lab := mkRaster 3 6 (fun i j => if (i =? 1) && ((j =? 1) || (j =? 2)) then 1 else 0)).
  exists lab, [mkNF 1 None false 1 1 (Some 1) 0%Q 0%Q 0%Q (0%Q, 0%Q)], 1.
  assert (B : forall c, 0 <= at_ lab c <= 1).
  { intros c. unfold at_, lab. cbn [rget]. destruct (_ && _); lia. }
  split; [split; reflexivity|]. split; [intros c _; apply B|]. split.
  { split; [exists (1, 1); split; [unfold inside; cbn; lia|reflexivity]|intros c _; apply B]. }
  split; [intros nd [<-|[]]; cbn; lia|]. split; [vm_compute; discriminate|]. split; [discriminate|].
  split; [split; [unfold inside; cbn; lia|reflexivity]|]. split; [apply nodata_of; vm_compute; reflexivity|].
  split; [split; [unfold inside; cbn; lia|reflexivity]|].
  intros H. apply nodatab_spec in H; [|apply H]. vm_compute in H. discriminate H.
Qed.
