(** * Proofs about the last steps of the complete command *)

From Coq Require Import Permutation QArith Qabs Lqa.
From Verif Require Import Base BaseProofs Num Float64 Dict DictProofs FillModel FillSpec FlowModel DemModel LabelModel LabelSpec LabelProofs
  CompSpec CompProofs BluespotSpec BluespotProofs VectorModel BluespotModel NetModel NetworkModel NetworkSpec RainModel PipelineModel
  HypsModel HypsSpec HypsThms ApproxModel ApproxSpec ApproxThms RainProofs RainThms CompleteModel FloatQ.
Local Open Scope Z_scope.

Lemma index_val : forall {A V} (key : A -> Z) (val : A -> V) l d, NoDup (map key l) ->
  forall x, In x l -> dget Z.eqb (fold_left (fun d f => dset Z.eqb d (key f) (val f)) l d) (key x) = Some (val x).
Proof.
  intros A V key val. assert (O : forall l d k, ~ In k (map key l) ->
    dget Z.eqb (fold_left (fun d f => dset Z.eqb d (key f) (val f)) l d) k = dget Z.eqb d k).
  { induction l as [|y l IH]; intros d k N; cbn [fold_left]; auto. cbn [map] in N. rewrite IH by (intros X; apply N; right; auto).
    apply dget_dset_other; [apply Z.eqb_spec|]. intros E. apply N. left. auto. }
  induction l as [|y l IH]; intros d ND x Hx; [destruct Hx|]. cbn [map] in ND. inversion ND; subst. cbn [fold_left].
  destruct Hx as [<-|Hx]; [|apply IH; auto]. rewrite O by auto. apply dget_dset_same. apply Z.eqb_spec.
Qed.

Section Finish.
Variables (t : geotransform b64) (dem : raster b64) (lab : raster Z) (n : Z) (pps : list (@pourpoint Q))
  (vols : list (@node_feature Q * Q)) (final : list (@node Q * option (@event Q))) (zres : Q).
Hypothesis Sh : same_shape dem lab.
Hypothesis Nm : numbered lab n.
Hypothesis Lg : largest_label lab n.
Hypothesis Pi : map pp_id pps = zseq 0 (Z.to_nat (n + 1)).
Hypothesis Nv : NoDup (map (fun nv => nf_id (fst nv)) vols).
Hypothesis Pv : Permutation (map nf_id (filter (fun m => negb (nf_junction m)) (map fst vols))) (zseq 0 (Z.to_nat (n + 1))).
Hypothesis Bv : forall m, In m (map fst vols) -> nf_junction m = false -> nf_bspot m = Some (nf_id m).
Hypothesis Fm : map fst final = map solver_node vols.
Hypothesis Fe : forall m o, In (m, o) final -> exists e, o = Some e.
Hypothesis Zr : (0 < zres)%Q.

Let area : Q := (Qabs (b64_Q (gt5 t)) * Qabs (b64_Q (gt1 t)))%Q.

Lemma ffs_spec : forall nf_index, (forall nv, In nv vols -> dget Z.eqb nf_index (nf_id (fst nv)) = Some (fst nv)) ->
  exists ffs, mmap (final_feature_of nf_index) final = Ok ffs /\
    map ff_bspot (filter ff_pourpoint ffs) = map nf_id (filter (fun m => negb (nf_junction m)) (map fst vols)) /\
    forall f, In f ffs -> ff_pourpoint f = true -> exists nd e, In (nd, Some e) final /\ n_id nd = ff_bspot f /\ ff_v f = e_vol e.
Proof.
  intros ix Hx. clear Nv Pv Pi. revert Hx Bv Fm Fe. generalize final.
  induction vols as [|nv vs IH]; intros fin Hx Bv' Fm' Fe'.
  - destruct fin; [|discriminate]. exists []. split; [reflexivity|]. split; [reflexivity|]. intros f [].
  - destruct fin as [|[nd o] fin]; [discriminate|]. cbn [map fst] in Fm'. injection Fm' as -> Fm'.
    destruct (Fe' _ _ (or_introl eq_refl)) as (e & ->).
    destruct (IH fin) as (ffs & E & M & F).
    { intros m Hm. apply Hx. right. exact Hm. }
    { intros m Hm. apply Bv'. right. exact Hm. }
    { exact Fm'. }
    { intros m o Ho. apply (Fe' m o). right. exact Ho. }
    cbn [mmap]. unfold final_feature_of at 1. cbn [fst snd solver_node n_id].
    unfold dget_err. rewrite Hx by (left; auto). cbn [bind].
    destruct (nf_junction (fst nv)) eqn:J.
    + cbn [bind]. rewrite E. cbn [bind]. eexists. split; [reflexivity|]. split.
      * cbn [filter ff_pourpoint map]. rewrite J. cbn [negb]. exact M.
      * intros f [<-|Hf] Hp; [discriminate Hp|]. destruct (F f Hf Hp) as (a & b & H1 & H2). exists a, b. split; [right; auto|auto].
    + rewrite (Bv' (fst nv) (or_introl eq_refl) J). cbn [bind]. rewrite E. cbn [bind]. eexists. split; [reflexivity|]. split.
      * cbn [filter ff_pourpoint map]. rewrite J. cbn [negb map ff_bspot]. f_equal. exact M.
      * intros f [<-|Hf] Hp.
        -- exists (solver_node nv), e. cbn [ff_bspot ff_v]. split; [left; auto|]. auto.
        -- destruct (F f Hf Hp) as (a & b & H1 & H2). exists a, b. split; [right; auto|auto].
Qed.

Theorem finish_spec : exists st fo, finish t dem lab pps vols final zres = Ok fo /\
  bluespot_hypsometry_stats QOps Q_int q_inf (- q_inf)%Q lab (raster_Q dem) zres None 0 = Ok st /\
  Permutation (map lf_bspot (fo_levels fo)) (zseq 0 (Z.to_nat (n + 1))) /\
  (forall o, In o (fo_levels fo) ->
     (exists nd e, In (nd, Some e) final /\ n_id nd = lf_bspot o /\ lf_v o = e_vol e) /\
     exists p h, nth_error pps (Z.to_nat (lf_bspot o)) = Some p /\ In (lf_bspot o, h) st /\
       water_level QOps h area (pp_dmax p) (pp_vol p) (lf_v o) = Ok (lf_z o) /\ lf_dmax o = (lf_z o - z_min h)%Q) /\
  same_shape (fo_labels fo) lab /\ same_shape (fo_depths fo) lab /\
  forall c, inside (nrows lab) (ncols lab) c ->
    (at_ lab c = 0 -> at_ (fo_labels fo) c = 0 /\ (-999 <= at_ (raster_Q dem) c -> at_ (fo_depths fo) c == 0)%Q) /\
    (at_ lab c <> 0 -> exists o, In o (fo_levels fo) /\ lf_bspot o = at_ lab c /\
       (lf_z o < at_ (raster_Q dem) c -> at_ (fo_depths fo) c == 0)%Q /\ ((lf_z o < at_ (raster_Q dem) c)%Q -> at_ (fo_labels fo) c = 0) /\
       (at_ (raster_Q dem) c <= lf_z o -> at_ (fo_depths fo) c == lf_z o - at_ (raster_Q dem) c)%Q /\
       ((at_ (raster_Q dem) c <= lf_z o)%Q -> at_ (fo_labels fo) c = at_ lab c)).
Proof.
  assert (Shq : same_shape (raster_Q dem) lab) by (destruct Sh; split; auto).
  destruct (hypsometry_exact lab (raster_Q dem) zres n q_inf (- q_inf)%Q Shq Nm Lg Zr) as (st & E1 & E2 & Ls & _).
  { intros c _. unfold raster_Q, at_. cbn [rget]. apply b64_Q_bound. }
  pose proof Nm as (LI & N0 & _).
  assert (NDp : NoDup (map pp_id pps)) by (rewrite Pi; apply zseq_NoDup).
  assert (Ix : forall l, In l (map pp_id pps) <-> 0 <= l <= n).
  { intros l. rewrite Pi, in_zseq. lia. }
  destruct (hypsometry_io_total QOps Q_int q_inf (- q_inf)%Q lab (raster_Q dem)
      (Qabs (b64_Q (gt5 t)), Qabs (b64_Q (gt1 t))) (map pp_id pps) zres n st Shq LI Lg NDp) as (hfs & Eh); auto.
  { cbn [nltb QOps nofZ]. apply HypsProofs.Qltb_lt. exact Zr. }
  destruct (hypsometry_io_sound QOps Q_int q_inf (- q_inf)%Q lab (raster_Q dem)
      (Qabs (b64_Q (gt5 t)), Qabs (b64_Q (gt1 t))) (map pp_id pps) zres n hfs LI Lg NDp Eh) as (_ & _ & Mb & _ & _ & st' & E2' & Hf).
  assert (st' = st) by congruence. subst st'.
  set (ppix := fold_left (fun d p => dset Z.eqb d (pp_id p) p) pps []).
  assert (Gp : forall p, In p pps -> dget Z.eqb ppix (pp_id p) = Some p).
  { intros p Hp. apply (index_val pp_id (fun p => p)); auto. }
  assert (Pn : forall p, In p pps -> nth_error pps (Z.to_nat (pp_id p)) = Some p).
  { intros p Hp. apply In_nth_error in Hp. destruct Hp as (k & Hk).
    assert (Kl : (k < length pps)%nat) by (apply nth_error_Some; congruence).
    assert (X : nth_error (map pp_id pps) k = Some (pp_id p)) by (rewrite nth_error_map, Hk; auto).
    assert (Lp : length pps = Z.to_nat (n + 1)) by (rewrite <- (map_length pp_id), Pi, zseq_length; auto).
    rewrite Pi, nth_error_zseq in X by lia. injection X as X. replace (Z.to_nat (pp_id p)) with k by lia. exact Hk. }
  (* the hypsometry layer *)
  assert (HI : forall f, In f hfs -> exists i p h, hyps_input_of ppix f = Ok i /\ hi_bspot i = hf_bspot f /\
    nth_error pps (Z.to_nat (hi_bspot i)) = Some p /\ In (hi_bspot i, h) st /\ hyps_from_flatdict (hi_dict i) = Ok h /\
    hi_cell_area i = area /\ hi_max_depth i = pp_dmax p /\ hi_max_vol i = pp_vol p).
  { intros f Hin. assert (Hb : In (hf_bspot f) (map pp_id pps)) by (rewrite <- Mb; apply in_map; auto).
    assert (0 <= hf_bspot f) by (apply Ix in Hb; lia).
    destruct (Hf f Hin H) as (h & d & S1 & S2 & S3 & S4).
    apply in_map_iff in Hb. destruct Hb as (p & Ep & Hp). unfold hyps_input_of, dget_err. rewrite <- Ep, Gp by auto. cbn [bind].
    rewrite S2, S4. eexists. exists p, h. split; [reflexivity|]. cbn [hi_bspot hi_dict hi_cell_area hi_max_depth hi_max_vol].
    split; [reflexivity|]. split; [apply Pn; auto|]. split; [rewrite Ep; exact S1|]. split; [exact S3|]. split; [reflexivity|]. auto. }
  destruct (mmap_total (hyps_input_of ppix) hfs) as (his & Ei).
  { intros f Hin. destruct (HI f Hin) as (i & _ & _ & E & _). eauto. }
  assert (Hi : forall i, In i his -> exists p h, nth_error pps (Z.to_nat (hi_bspot i)) = Some p /\ In (hi_bspot i, h) st /\
    hyps_from_flatdict (hi_dict i) = Ok h /\ hi_cell_area i = area /\ hi_max_depth i = pp_dmax p /\ hi_max_vol i = pp_vol p).
  { intros i Hin. destruct (mmap_in _ _ _ Ei _ Hin) as (f & Hf' & Ef). destruct (HI f Hf') as (i' & p & h & E & _ & R).
    rewrite E in Ef. injection Ef as <-. exists p, h. exact R. }
  assert (Mi : map hi_bspot his = zseq 0 (Z.to_nat (n + 1))).
  { rewrite <- Pi, <- Mb. clear - HI Ei. generalize dependent his. induction hfs as [|f hfs IH]; intros his Ei; cbn [mmap] in Ei.
    - injection Ei as <-. reflexivity.
    - apply bind_ok in Ei. destruct Ei as (i & E & Ei). apply bind_ok in Ei. destruct Ei as (is' & E' & Ei). injection Ei as <-.
      cbn [map]. rewrite (IH (fun f H => HI f (or_intror H)) _ E').
      destruct (HI f (or_introl eq_refl)) as (i' & p & h & E2 & B & _). rewrite E2 in E. injection E as <-. rewrite B. reflexivity. }
  assert (NDi : NoDup (map hi_bspot his)) by (rewrite Mi; apply zseq_NoDup).
  (* the final state *)
  set (nfix := fold_left (fun d nv => dset Z.eqb d (nf_id (fst nv)) (fst nv)) vols []).
  destruct (ffs_spec nfix) as (ffs & Ef & Mf & Ff).
  { intros nv Hn. apply (index_val (fun nv => nf_id (fst nv)) fst); auto. }
  (* levels *)
  destruct (levels_io_total QOps ffs his) as (lv & El).
  { intros f H1 H2. rewrite Mi. eapply Permutation_in; [exact Pv|]. rewrite <- Mf. apply in_map. apply filter_In. auto. }
  { intros i Hin. destruct (Hi i Hin) as (p & h & _ & I & E & _). exists h. split; auto.
    eapply produced_counts; [exact E1|exact I]. }
  { exact NDi. }
  destruct (levels_io_sound QOps ffs his lv NDi El) as (Ml & Fl).
  assert (Pl : Permutation (map lf_bspot lv) (zseq 0 (Z.to_nat (n + 1)))).
  { replace (map lf_bspot lv) with (map ff_bspot (filter ff_pourpoint ffs)).
    - rewrite Mf. exact Pv.
    - apply (f_equal (map fst)) in Ml. rewrite !map_map in Ml. cbn [fst] in Ml. symmetry. exact Ml. }
  (* rasters *)
  set (d := map (fun o : level_feature => (lf_bspot o, lf_z o)) lv).
  assert (Md : map fst d = map lf_bspot lv) by (unfold d; rewrite map_map; reflexivity).
  assert (NDd : NoDup (map fst d)).
  { rewrite Md. eapply Permutation_NoDup; [symmetry; exact Pl|]. apply zseq_NoDup. }
  assert (Kd : forall k, In k (map fst d) <-> 0 <= k <= n).
  { intros k. rewrite Md. split; intros H.
    - eapply Permutation_in in H; [|exact Pl]. apply in_zseq in H. lia.
    - eapply Permutation_in; [symmetry; exact Pl|]. apply in_zseq. lia. }
  destruct (approx_total QOps lab d (raster_Q dem) 0 n Shq N0) as ((fl & fd) & Ea); auto.
  { apply Kd. lia. } { intros k Hk. apply Kd in Hk. lia. } { intros k Hk _. apply Kd. lia. }
  destruct (approx_exact lab d (raster_Q dem) 0 fl fd) as (_ & S1 & S2 & Cl); auto.
  { intros c Hc. specialize (LI c Hc). lia. }
  exists st, (mkFO his lv fd fl). split.
  { unfold finish. rewrite Eh. cbn [bind]. fold ppix. rewrite Ei. cbn [bind]. fold nfix. rewrite Ef. cbn [bind]. rewrite El. cbn [bind].
    set (lv3 := map (fun o : level_feature => (true, lf_bspot o, lf_z o)) lv).
    assert (D3 : map (fun x => (snd (fst x), snd x)) (filter (fun x => fst (fst x)) lv3) = d).
    { unfold lv3, d. clear. induction lv as [|o lv IH]; [reflexivity|]. cbn [map filter fst snd]. f_equal. exact IH. }
    pose proof (approx_io_agrees QOps lab lv3 (raster_Q dem) true true 0) as A.
    change (levels_dict lv3) with (map (fun x : bool * Z * Q => (snd (fst x), snd x)) (filter (fun x => fst (fst x)) lv3)) in A. rewrite D3, Ea in A.
    rewrite A; [reflexivity|exact NDd|left; reflexivity]. }
  cbn [fo_levels fo_labels fo_depths]. split; [exact E1|]. split; [exact Pl|]. split.
  { intros o Ho. split.
    - assert (X : In (lf_bspot o, lf_v o) (map (fun f => (ff_bspot f, ff_v f)) (filter ff_pourpoint ffs))).
      { rewrite <- Ml. apply in_map_iff. exists o. auto. }
      apply in_map_iff in X. destruct X as (f & Ex & Hx). injection Ex as X1 X2. apply filter_In in Hx. destruct Hx as [H1 H2].
      destruct (Ff f H1 H2) as (nd & e & F1 & F2 & F3). exists nd, e. rewrite <- X1, <- X2. auto.
    - destruct (Fl o Ho) as (i & h & I1 & I2 & I3 & I4 & I5). destruct (Hi i I1) as (p & h' & J1 & J2 & J3 & J4 & J5 & J6).
      rewrite I3 in J3. injection J3 as <-. exists p, h. rewrite <- I2. rewrite J4, J5, J6 in I4. split; auto. }
  split; [exact S1|]. split; [exact S2|]. intros c Hc. destruct (Cl c Hc) as (C1 & C2). split; [exact C1|].
  intros H. destruct (C2 H) as (z & Z1 & Z2). unfold d in Z1. apply in_map_iff in Z1. destruct Z1 as (o & Eo & Ho).
  injection Eo as Eo <-. exists o. split; auto.
Qed.
End Finish.
