(** * Theorems about rain volumes *)

From Coq Require Import Permutation QArith Qabs Lqa.
From Flocq Require Import IEEE754.BinarySingleNaN.
From Verif Require Import Base BaseProofs Num Float64 FillModel FillSpec FillThms FlowModel FlowSpec FlowProofs AccumProofs
  LabelModel LabelSpec LabelProofs LabelThms CompSpec CompProofs VectorModel BluespotModel BluespotSpec BluespotProofs BluespotThms DemModel DemProofs
  LevelProofs NetModel NetSpec NetThms NetworkModel NetworkSpec NetworkThms RainModel PipelineModel RainProofs.
Local Open Scope Z_scope.
Local Arguments Qplus : simpl never.
Local Arguments Qmult : simpl never.
Local Arguments Qeq : simpl never.

(** m3 per cell value *)
Definition unit_factor (u : unit) (area : Q) : Q :=
  match u with U_mm => area / 1000 | U_l => 1 # 1000 | U_m3 => 1 end.

Lemma factor_Q : forall u t, (conversion_factor QOps u (cell_area QOps t) == unit_factor u (Qabs (gt1 t) * Qabs (gt5 t)))%Q.
Proof.
  intros u t. destruct u; cbn [conversion_factor unit_factor]; [|reflexivity|reflexivity].
  change (milli QOps * cell_area QOps t == Qabs (gt1 t) * Qabs (gt5 t) / 1000)%Q. rewrite cell_area_Q.
  setoid_replace (milli QOps) with (1 / 1000)%Q by reflexivity. field.
Qed.

Lemma mmap_in : forall {A B} (g : A -> res B) l r, mmap g l = Ok r -> forall y, In y r -> exists x, In x l /\ g x = Ok y.
Proof.
  induction l as [|x l IH]; intros r H y Hy; cbn [mmap] in H.
  - injection H as <-. destruct Hy.
  - apply bind_ok in H. destruct H as (b & E & H). apply bind_ok in H. destruct H as (bs & E2 & H). injection H as <-.
    destruct Hy as [<-|Hy]; [exists x; split; [left|]; auto|].
    destruct (IH bs E2 y Hy) as (x' & A1 & A2). exists x'. split; [right|]; auto.
Qed.

Lemma mmap_total : forall {A B} (g : A -> res B) l, (forall x, In x l -> exists y, g x = Ok y) -> exists r, mmap g l = Ok r.
Proof.
  induction l as [|x l IH]; intros H; cbn [mmap]; eauto. destruct (H x (or_introl eq_refl)) as (y & ->). cbn [bind].
  destruct IH as (r & ->); [intros; apply H; right; auto|]. cbn [bind]. eauto.
Qed.

Lemma mmap_fst : forall {A B} (g : A -> res (A * B)) l r, (forall x y, In x l -> g x = Ok y -> fst y = x) ->
  mmap g l = Ok r -> map fst r = l.
Proof.
  induction l as [|x l IH]; intros r H E; cbn [mmap] in E.
  - injection E as <-. reflexivity.
  - apply bind_ok in E. destruct E as (b & E & E'). apply bind_ok in E'. destruct E' as (bs & E2 & E'). injection E' as <-.
    cbn [map]. rewrite (H x b (or_introl eq_refl) E). f_equal. apply IH; auto. intros; apply (H x0); auto. right; auto.
Qed.

(** The raster tool gives each node the water on the cells carrying its id. *)
Theorem raster_volumes_spec : forall t (lab : raster Z) (water : raster Q) u nodes n,
  same_shape lab water -> labels_in lab n -> largest_label lab n -> 1 <= nrows lab -> 1 <= ncols lab ->
  (forall nd, In nd nodes -> 0 <= nf_id nd) ->
  exists rv, raster_volumes QOps 0%Q 0%Q t lab water u nodes = Ok rv /\ map fst rv = nodes /\
  forall nd v, In (nd, v) rv -> exists cs, lists_cells (has_label lab (nf_id nd)) cs /\
    (v == Qsum (map (at_ water) cs) * unit_factor u (Qabs (gt1 t) * Qabs (gt5 t)))%Q.
Proof.
  intros t lab water u nodes n [S1 S2] LI LL Hr Hc Nn. unfold raster_volumes. rewrite S1, S2, !Z.eqb_refl. cbn [andb negb].
  assert (NL : nlabels_is lab None n) by (right; auto).
  destruct (label_stats_sums QOps 0%Q 0%Q water lab None n ltac:(split; congruence) NL LI Hr Hc) as (st & E & L & F).
  rewrite E. cbn [bind].
  set (vol := fun s : @stat Q => nmul QOps (s_sum s) (conversion_factor QOps u (cell_area QOps t))).
  set (vs := map vol st). assert (Lv : Z.of_nat (length vs) - 1 = n) by (unfold vs; rewrite map_length; lia). rewrite Lv.
  set (g := fun nd : @node_feature Q => if nf_id nd <=? n then v <- list_rd vs (nf_id nd) ;; Ok (nd, v) else Ok (nd, nofZ QOps 0)).
  assert (R : forall l, 0 <= l <= n -> exists s, nth_error st (Z.to_nat l) = Some s /\ list_rd vs l = Ok (vol s) /\
    exists cs, lists_cells (has_label lab l) cs /\ s_sum s = fold_left Qplus (map (at_ water) cs) (inject_Z 0)).
  { intros l Hl. destruct (F l Hl) as (s & cs & Es & Lc & _ & Sm). exists s. split; auto. split; [|exists cs; auto].
    replace l with (Z.of_nat (Z.to_nat l)) by lia. apply list_rd_nth. unfold vs. rewrite nth_error_map, Es. reflexivity. }
  destruct (mmap_total g nodes) as (rv & Er).
  { intros nd Hn. unfold g. specialize (Nn nd Hn). destruct (Z.leb_spec (nf_id nd) n); [|eauto].
    destruct (R (nf_id nd)) as (s & _ & -> & _); [lia|]. cbn [bind]. eauto. }
  exists rv. split; [exact Er|]. split.
  { apply (mmap_fst g); auto. intros x y _ Hy. unfold g in Hy. destruct (nf_id x <=? n).
    - apply bind_ok in Hy. destruct Hy as (v & _ & Hy). injection Hy as <-. reflexivity.
    - injection Hy as <-. reflexivity. }
  intros nd v Hv. destruct (mmap_in g nodes rv Er _ Hv) as (x & Hx & Ex). unfold g in Ex. specialize (Nn x Hx).
  destruct (Z.leb_spec (nf_id x) n).
  - apply bind_ok in Ex. destruct Ex as (v' & Ev & Ex). injection Ex as -> ->.
    destruct (R (nf_id nd)) as (s & _ & Er' & cs & Lc & Sm); [lia|]. rewrite Er' in Ev. injection Ev as <-.
    exists cs. split; auto. unfold vol. change (nmul QOps) with Qmult. rewrite Sm, pysum_Q, factor_Q.
    change (inject_Z 0) with 0%Q. ring.
  - injection Ex as -> <-. exists []. split; [|cbn [map Qsum]; change (nofZ QOps 0) with 0%Q; ring].
    split; [constructor|]. intros c. split; [intros []|]. intros [I E']. specialize (LI c I). lia.
Qed.

Lemma sorted_eq : forall (a b : list cell), Sorted.StronglySorted before a -> Sorted.StronglySorted before b ->
  (forall c, In c a <-> In c b) -> a = b.
Proof.
  assert (Ir : forall c : cell, ~ before c c) by (intros c [H|[_ H]]; lia).
  assert (As : forall c d : cell, before c d -> ~ before d c) by (intros c d [H|[H H1]] [H2|[H2 H3]]; lia).
  induction a as [|x a IH]; intros [|y b] Sa Sb E; auto.
  - exfalso. apply (proj2 (E y)). left; auto.
  - exfalso. apply (proj1 (E x)). left; auto.
  - inversion Sa as [|? ? Sa' Fa]; inversion Sb as [|? ? Sb' Fb]; subst. rewrite Forall_forall in Fa, Fb.
    assert (x = y).
    { destruct (proj1 (E x) (or_introl eq_refl)) as [|Hx]; auto. destruct (proj2 (E y) (or_introl eq_refl)) as [|Hy]; auto.
      exfalso. apply (As x y); auto. }
    subst y. f_equal. apply IH; auto. intros c. split; intros Hc.
    + destruct (proj1 (E c) (or_intror Hc)) as [->|]; auto. exfalso. apply (Ir c); auto.
    + destruct (proj2 (E c) (or_intror Hc)) as [->|]; auto. exfalso. apply (Ir c); auto.
Qed.

Lemma lists_unique : forall P a b, lists_cells P a -> lists_cells P b -> a = b.
Proof. intros P a b [Sa Ia] [Sb Ib]. apply sorted_eq; auto. intros c. rewrite Ia, Ib. tauto. Qed.

Lemma Qsum_const : forall {A} (g : A -> Q) x l, (forall a, In a l -> (g a == x)%Q) -> (Qsum (map g l) == inject_Z (Z.of_nat (length l)) * x)%Q.
Proof.
  induction l as [|a l IH]; intros H; cbn [map Qsum length]; [reflexivity|].
  rewrite IH by (intros; apply H; right; auto). rewrite (H a (or_introl eq_refl)).
  rewrite Nat2Z.inj_succ, <- Z.add_1_l, inject_Z_plus. ring.
Qed.

(** Constant rain summed over the watershed raster is what the simple tool computes. *)
Theorem watershed_rain : forall cc, labels_components cc ->
  forall sp fuel fuel' t1 t5 dem dout t f accum out pps (streams : bool) k nodes sts x (water : raster Q),
  size_ok sp dem -> dem32 dem -> dem_finite dem -> nrows dem * ncols dem <= 2 ^ 53 ->
  dem_process sp fuel t1 t5 dem = Ok dout ->
  accum = None \/ accum = Some (accum64 (do_accum dout)) ->
  bluespot_process sp cc fuel' t (do_depths dout) (do_flowdir dout) (Some f) accum (Some dem) = Ok out ->
  exact_pourpoints t (do_depths dout) out = Ok pps ->
  (length (rcells (do_flowdir dout)) <= k)%nat -> (length pps <= k)%nat ->
  stream_process QOps k (gt_Q t) (do_flowdir dout) (bo_labeled out) pps streams = Ok (nodes, sts) ->
  same_shape dem water -> (forall c, inside (nrows dem) (ncols dem) c -> at_ water c == x)%Q ->
  exists rv, raster_volumes QOps 0%Q 0%Q (gt_Q t) (bo_watersheds out) water U_mm nodes = Ok rv /\ map fst rv = nodes /\
  forall nd v v', In (nd, v) rv -> In (nd, v') (simple_volumes QOps x nodes) -> (v == v')%Q.
Proof.
  intros cc Hcc sp fuel fuel' t1 t5 dem dout t f accum out pps streams k nodes sts x water SO H32 HF Big HD HA HB EP K1 K2 ES Sw Cx.
  destruct (rain_shares cc Hcc sp fuel fuel' t1 t5 dem dout t f accum out SO H32 HF Big HD HA HB) as (pps' & EP' & _ & R).
  rewrite EP in EP'. injection EP' as <-.
  destruct (R streams k K1 K2) as (nodes' & sts' & ES' & ND & Pm & _ & V). rewrite ES in ES'. injection ES' as <- <-.
  destruct (V x) as (_ & Vn & _).
  destruct (depths_facts sp fuel t1 t5 dem dout SO H32 HF HD) as (Sd & _ & _).
  destruct (dem_flow sp fuel t1 t5 dem dout SO H32 HF HD) as (Sf & D & _).
  assert (Hr : 1 <= nrows (do_depths dout)) by (destruct Sd as [<- _]; destruct sp; cbn in SO; lia).
  assert (Hc : 1 <= ncols (do_depths dout)) by (destruct Sd as [_ <-]; destruct sp; cbn in SO; lia).
  destruct (process_filter cc Hcc sp _ _ _ _ _ _ _ _ Hr Hc HB) as (Sh & Nm & _).
  destruct (run_inv cc Hcc sp _ _ _ _ _ _ _ _ Hr Hc HB) as (st & new & bst & wst & pix & _ & _ & _ & _ & E3 & E4 & E5 & E6 & E7).
  assert (Sl : same_shape (do_flowdir dout) (bo_labeled out)) by (destruct Sh, Sf, Sd; split; congruence).
  assert (Hr3 : 1 <= nrows (do_flowdir dout)) by (destruct Sl, Sh; lia). assert (Hc3 : 1 <= ncols (do_flowdir dout)) by (destruct Sl, Sh; lia).
  rewrite watersheds_either in E4 by auto.
  destruct (watersheds_numbered fuel' _ _ _ _ D Sl Hr3 Hc3 Nm E4) as [Sww Nw].
  assert (Q1 : nrows (bo_watersheds out) = nrows dem) by (destruct Sww, Sl, Sh, Sd; congruence).
  assert (Q2 : ncols (bo_watersheds out) = ncols dem) by (destruct Sww, Sl, Sh, Sd; congruence).
  assert (LL : largest_label (bo_watersheds out) (bo_nlabels out)) by (apply numbered_largest; auto; destruct Sd; lia).
  destruct (chain_points cc Hcc sp fuel fuel' t1 t5 dem dout t f accum out SO H32 HF Big HD HA HB) as (_ & _ & _ & _ & _ & PP & _).
  destruct (exact_pps cc Hcc sp fuel fuel' t1 t5 dem dout t f accum out SO H32 HF HD HB) as (pps' & EP' & Ec & _).
  rewrite EP in EP'. injection EP' as <-.
  assert (Nn : forall nd, In nd nodes -> 0 <= nf_id nd /\ (nf_junction nd = true -> bo_nlabels out < nf_id nd)).
  { unfold stream_process in ES. apply bind_ok in ES. destruct ES as (ns & En & ES). injection ES as <- <-.
    destruct (chain_points cc Hcc sp fuel fuel' t1 t5 dem dout t f accum out SO H32 HF Big HD HA HB)
      as (_ & _ & _ & _ & _ & _ & Ne & _).
    destruct (chain_network cc Hcc sp fuel fuel' t1 t5 dem dout t f accum out SO H32 HF Big HD HA HB)
      as (plain & EPl & (_ & _ & _ & AC) & _).
    assert (Lp : length (pps_of out) = length pps) by (rewrite <- Ec, map_length; auto).
    destruct (network_sound (do_flowdir dout) (bo_labeled out) (pps_of out) Sl D Ne PP plain streams k K1 ltac:(lia) (EPl k K1) AC)
      as (ns' & En' & _ & Pm' & Jn & _).
    rewrite Ec, En' in En. injection En as <-.
    assert (Sdf : same_shape (do_depths dout) (do_flowdir dout)) by (destruct Sd, Sf; split; congruence).
    destruct (process_pourpoints cc Hcc sp fuel' t _ _ _ _ _ _ Hr Hc Sdf D HB) as (pix' & _ & _ & Lpp & _).
    assert (Lo : length (pps_of out) = length (bo_pourpoints out)) by (unfold pps_of; apply map_length).
    intros nd Hn. apply in_map_iff in Hn. destruct Hn as (m & <- & Hm).
    assert (Mk : nf_id (make_node QOps (gt_Q t) (fold_left (fun d p => Dict.dset Z.eqb d (pp_id p) p) pps []) m) = g_id m /\
      nf_junction (make_node QOps (gt_Q t) (fold_left (fun d p => Dict.dset Z.eqb d (pp_id p) p) pps []) m) = g_junction m).
    { unfold make_node. destruct (Dict.dget _ _ _); auto. }
    destruct Mk as [-> ->]. destruct (g_junction m) eqn:J.
    - specialize (Jn m Hm J). split; [lia|]. intros _. lia.
    - split; [|discriminate]. assert (X : In (g_id m) (zseq 0 (length (pps_of out)))).
      { eapply Permutation_in; [exact Pm'|]. apply in_map. apply filter_In. rewrite J. auto. }
      apply in_zseq in X. lia. }
  destruct (raster_volumes_spec (gt_Q t) (bo_watersheds out) water U_mm nodes (bo_nlabels out)) as (rv & Er & Ef & Fv); auto.
  { destruct Sw; split; congruence. } { apply Nw. } { destruct Sd; lia. } { destruct Sd; lia. }
  { intros nd Hn. apply Nn. auto. }
  exists rv. split; auto. split; auto. intros nd v v' Hv Hv'.
  destruct (Fv nd v Hv) as (cs & Lc & ->).
  assert (Sc : (Qsum (map (at_ water) cs) == inject_Z (Z.of_nat (length cs)) * x)%Q).
  { apply Qsum_const. intros c Hi. apply Lc in Hi. destruct Hi as [I _]. apply Cx. rewrite <- Q1, <- Q2. exact I. }
  rewrite Sc. cbn [unit_factor]. specialize (Vn nd v' Hv'). destruct (nf_junction nd) eqn:J.
  - rewrite Vn. assert (Hn : In nd nodes) by (rewrite <- Ef; apply (in_map fst _ _ Hv)).
    assert (cs = []).
    { destruct cs as [|c cs]; auto. exfalso. destruct (proj1 (proj2 Lc c) (or_introl eq_refl)) as [I E].
      pose proof (proj1 Nw c I). pose proof (proj2 (Nn nd Hn) J). lia. }
    subst cs. cbn [length]. change (inject_Z (Z.of_nat 0)) with 0%Q. unfold Qdiv. ring.
  - destruct Vn as (ws & Lw & ->). rewrite (lists_unique _ _ _ Lc Lw). field.
Qed.

(** ** Example *)

(** Two bluespots, 2 above 1; cells (1,2) and (1,4) drain into them. *)
Definition rain_dem : raster b64 := zrows [[9;9;9;9;9;9]; [5;3;6;4;7;9]; [9;9;9;9;9;9]].
Definition all_pass (_ : @unit_stats b64) : bool := true.

Lemma rain_dem_ok : dem32 rain_dem /\ dem_finite rain_dem.
Proof. apply dem_ok. vm_compute. reflexivity. Qed.

Definition const_raster (r c : Z) (x : Q) : raster Q := mkRaster r c (fun _ _ => x).

(** Nodes with the volumes of both tools for 500 mm. *)
Definition rain_check (dout : dem_out) (out : bluespot_out) (pps : list (@pourpoint Q)) (nodes : list (@node_feature Q))
    (rv : list (@node_feature Q * Q)) : bool :=
  match map (fun p => Qred (snd p)) (simple_volumes QOps 500%Q nodes), map (fun p => Qred (snd p)) rv with
  | [a0; a1; a2], [b0; b1; b2] =>
      Qeq_bool a0 28 && Qeq_bool a1 4 && Qeq_bool a2 4 && Qeq_bool b0 32 && Qeq_bool b1 2 && Qeq_bool b2 2
  | _, _ => false
  end.
Definition rain_run : res (dem_out * bluespot_out * list (@pourpoint Q) * list (@node_feature Q) * list (@node_feature Q * Q)) :=
  dout <- dem_process false 20 (gt1 ex_gt) (gt5 ex_gt) rain_dem ;;
  out <- bluespot_process false cc_memo 20 ex_gt (do_depths dout) (do_flowdir dout) (Some all_pass) None (Some rain_dem) ;;
  pps <- exact_pourpoints ex_gt (do_depths dout) out ;;
  ns <- stream_process QOps 20 (gt_Q ex_gt) (do_flowdir dout) (bo_labeled out) pps true ;;
  rv <- raster_volumes QOps 0%Q 0%Q (gt_Q ex_gt) (bo_labeled out) (const_raster 3 6 500%Q) U_mm (fst ns) ;;
  Ok (dout, out, pps, fst ns, rv).

Lemma rain_run_ok : exists dout out pps nodes sts rv,
  dem_process false 20 (gt1 ex_gt) (gt5 ex_gt) rain_dem = Ok dout /\
  bluespot_process false cc_memo 20 ex_gt (do_depths dout) (do_flowdir dout) (Some all_pass) None (Some rain_dem) = Ok out /\
  exact_pourpoints ex_gt (do_depths dout) out = Ok pps /\
  stream_process QOps 20 (gt_Q ex_gt) (do_flowdir dout) (bo_labeled out) pps true = Ok (nodes, sts) /\
  raster_volumes QOps 0%Q 0%Q (gt_Q ex_gt) (bo_labeled out) (const_raster 3 6 500%Q) U_mm nodes = Ok rv /\
  rain_check dout out pps nodes rv = true.
Proof.
  assert (C : on_ok (fun r => let '(a, b, c, d, e) := r in rain_check a b c d e) rain_run = true) by (vm_compute; reflexivity).
  apply on_ok_ex in C. destruct C as ((((( a & b) & c) & d) & e) & E & C). unfold rain_run in E.
  apply bind_ok in E. destruct E as (dout & E1 & E). apply bind_ok in E. destruct E as (out & E2 & E).
  apply bind_ok in E. destruct E as (pps & E3 & E). apply bind_ok in E. destruct E as ((ns & sts) & E4 & E).
  apply bind_ok in E. destruct E as (rv & E5 & E). cbn [fst] in *. injection E as <- <- <- <- <-.
  exists dout, out, pps, ns, sts, rv. auto 10.
Qed.

Lemma c40_refuted : exists dem dout t f out pps nodes sts rv water x nd v v',
  size_ok false dem /\ dem32 dem /\ dem_finite dem /\
  dem_process false 20 (gt1 t) (gt5 t) dem = Ok dout /\
  bluespot_process false cc_memo 20 t (do_depths dout) (do_flowdir dout) (Some f) None (Some dem) = Ok out /\
  exact_pourpoints t (do_depths dout) out = Ok pps /\
  stream_process QOps 20 (gt_Q t) (do_flowdir dout) (bo_labeled out) pps true = Ok (nodes, sts) /\
  (forall c, at_ water c = x) /\
  raster_volumes QOps 0%Q 0%Q (gt_Q t) (bo_labeled out) water U_mm nodes = Ok rv /\
  In (nd, v) (simple_volumes QOps x nodes) /\ In (nd, v') rv /\ (v == 4)%Q /\ (v' == 2)%Q.
Proof.
  destruct rain_run_ok as (dout & out & pps & nodes & sts & rv & E1 & E2 & E3 & E4 & E5 & C).
  assert (Ef : map fst rv = nodes).
  { unfold raster_volumes in E5. destruct (negb _) in E5; [discriminate E5|]. apply bind_ok in E5. destruct E5 as (s & _ & E5).
    apply mmap_fst in E5; auto. intros x y _ Hy. destruct (nf_id x <=? _) in Hy.
    - apply bind_ok in Hy. destruct Hy as (v & _ & Hy). injection Hy as <-. reflexivity.
    - injection Hy as <-. reflexivity. }
  unfold rain_check, simple_volumes in C. rewrite map_map in C.
  destruct nodes as [|n0 [|n1 [|n2 [|]]]]; try discriminate C.
  destruct rv as [|[r0 b0] [|[r1 b1] [|[r2 b2] [|]]]]; try discriminate C.
  cbn [map fst snd] in C, Ef. injection Ef as <- <- <-.
  apply andb_prop in C. destruct C as [C _]. apply andb_prop in C. destruct C as [C V1].
  apply andb_prop in C. destruct C as [C _]. apply andb_prop in C. destruct C as [C _].
  apply andb_prop in C. destruct C as [_ V2].
  apply Qeq_bool_iff in V1, V2. rewrite Qred_correct in V1, V2.
  exists rain_dem, dout, ex_gt, all_pass, out, pps, [r0; r1; r2], sts, [(r0, b0); (r1, b1); (r2, b2)],
    (const_raster 3 6 500%Q), 500%Q, r1, (nmul QOps (nmul QOps (nf_wshed r1) 500%Q) (milli QOps)), b1.
  split; [cbn; lia|]. split; [apply rain_dem_ok|]. split; [apply rain_dem_ok|]. split; auto. split; auto. split; auto.
  split; auto. split; [reflexivity|]. split; auto. split; [right; left; reflexivity|]. split; [right; left; reflexivity|].
  split; [exact V2|exact V1].
Qed.

(** ** Options of initvolumes *)
Lemma source_spec : forall mm pr bluespots, (forall x, mm = Some x -> ~ x == 0)%Q ->
  initvolumes_source QOps mm pr bluespots =
    match mm, pr with
    | Some _, false => Ok Use_mm
    | None, true => if bluespots then Ok Use_raster else Exc UsageError
    | _, _ => Exc UsageError
    end.
Proof.
  intros mm pr bs H. unfold initvolumes_source, truthy. destruct mm as [x|].
  - assert (E : neqb QOps x (nofZ QOps 0) = false).
    { destruct (neqb QOps x (nofZ QOps 0)) eqn:E; auto. exfalso. apply (H x eq_refl). apply Qeq_bool_iff in E. exact E. }
    rewrite E. destruct pr; reflexivity.
  - destruct pr, bs; reflexivity.
Qed.

Lemma source_refuted : initvolumes_source QOps (Some 0%Q) false false = Exc UsageError /\
  initvolumes_source QOps (Some 0%Q) true true = Ok Use_raster.
Proof. split; reflexivity. Qed.
