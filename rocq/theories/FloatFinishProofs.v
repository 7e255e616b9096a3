(** * The last steps of the complete command in binary64 *)

From Coq Require Import Permutation QArith Qabs Reals Lra Lia.
From Flocq Require Import Core IEEE754.BinarySingleNaN.
From Verif Require Import Base BaseProofs Num Float64 Float64Proofs Float64Arith Float64Scale Dict DictProofs NetworkThms FillModel FillSpec FillProofs FillThms FlowModel DemModel LabelModel LabelSpec LabelProofs
  CompSpec CompProofs BluespotSpec BluespotProofs VectorModel BluespotModel NetModel NetworkModel NetworkSpec RainModel PipelineModel
  HypsModel HypsSpec HypsThms ApproxModel ApproxSpec ApproxThms RainProofs RainThms CompleteModel CompleteProofs FloatQ
  FloatFinishModel FinishHyps.
Local Open Scope Z_scope.

(** As ApproxThms.approx_float; the level of the background may be anything. *)
Theorem approx_float' : forall (lab : raster Z) d (dem : raster b64) bg lab' depths,
  (forall c, inside (nrows lab) (ncols lab) c -> 0 <= at_ lab c) -> NoDup (map fst d) ->
  (forall c, inside (nrows lab) (ncols lab) c -> finite64 (at_ dem c)) -> (forall l z, In (l, z) d -> l <> bg -> finite64 z) ->
  approx_bluespots F64Ops lab d dem bg = Ok (lab', depths) ->
  same_shape dem lab /\ same_shape lab' lab /\ same_shape depths lab /\
  forall c, inside (nrows lab) (ncols lab) c ->
    (at_ lab c = bg -> at_ lab' c = bg /\ (le64 (f64_ofZ (-999)) (at_ dem c) -> eq64 (at_ depths c) f64_zero)) /\
    (at_ lab c <> bg -> exists z, In (at_ lab c, z) d /\
       (lt64 z (at_ dem c) -> at_ depths c = f64_zero /\ at_ lab' c = bg) /\
       (le64 (at_ dem c) z -> at_ depths c = f64_sub z (at_ dem c) /\ le64 f64_zero (at_ depths c) /\ at_ lab' c = at_ lab c)).
Proof.
  intros lab d dem bg lab' depths P ND FD FL H. destruct (approx_core _ _ _ _ _ _ _ P H) as (S1 & S2 & S3 & F).
  split; auto. split; auto. split; auto. intros c Hc. destruct (F c Hc) as (z & Hz & -> & ->). pose proof (FD c Hc) as Ft.
  assert (Fz : finite64 z).
  { destruct Hz as [(_ & ->)|(Nb & Hz)]; [reflexivity|]. eapply FL; [|exact Nb]. apply (dget_in _ Z.eqb_spec); eauto. }
  pose proof (sub_below z (at_ dem c) Fz Ft) as SB.
  cbn [nltb nsub nofZ F64Ops]. change (f64_ofZ 0) with f64_zero.
  pose proof (finite_not_nan _ Fz) as Nz. pose proof (finite_not_nan _ Ft) as Nt.
  destruct (Bltb (f64_sub z (at_ dem c)) f64_zero) eqn:B.
  - assert (LT : lt64 z (at_ dem c)) by (apply SB; reflexivity). split.
    + intros _. split; [reflexivity|]. intros _. reflexivity.
    + intros N. destruct Hz as [(X & _)|(_ & Hz)]; [contradiction|]. exists z.
      split; [apply (dget_in _ Z.eqb_spec); auto|]. split; [auto|]. intros X.
      apply le64_rank in X; auto. apply lt64_rank in LT; auto. lia.
  - assert (GE : rank (at_ dem c) <= rank z).
    { destruct (Z_lt_le_dec (rank z) (rank (at_ dem c))) as [L|L]; auto. apply lt64_rank in L; auto. apply SB in L. congruence. }
    assert (G0 : le64 f64_zero (f64_sub z (at_ dem c))).
    { apply le64_rank; [reflexivity|apply sub_not_nan; auto|]. change (rank f64_zero) with 0.
      rewrite <- (sub_self_rank (at_ dem c)) by auto. apply sub_mono; auto. }
    split.
    + intros E. split; [auto|]. intros D. destruct Hz as [(_ & ->)|(X & _)]; [|contradiction].
      unfold background_level in *. cbn [nofZ F64Ops] in *.
      apply le64_rank in D; auto.
      apply eq64_rank; [apply sub_not_nan; auto|reflexivity|]. change (rank f64_zero) with 0.
      pose proof (sub_mono (f64_ofZ (-999)) (at_ dem c) (at_ dem c) Nz Nt Ft D) as U. rewrite sub_self_rank in U by auto.
      apply le64_rank in G0; [|reflexivity|apply sub_not_nan; auto]. change (rank f64_zero) with 0 in G0. lia.
    + intros N. destruct Hz as [(X & _)|(_ & Hz)]; [contradiction|]. exists z.
      split; [apply (dget_in _ Z.eqb_spec); auto|]. split; [|auto].
      intros X. apply lt64_rank in X; auto. lia.
Qed.

Section Finish.
Variables (t : geotransform b64) (dem : raster b64) (lab : raster Z) (n : Z) (pps : list (@pourpoint b64))
  (vols : list (@node_feature b64 * b64)) (final : list (@node b64 * option (@event b64))) (zres : b64) (st : list (Z * @hyps b64)).
Hypothesis Sh : same_shape dem lab.
Hypothesis Nm : numbered lab n.
Hypothesis Lg : largest_label lab n.
Hypothesis Pi : map pp_id pps = zseq 0 (Z.to_nat (n + 1)).
Hypothesis Nv : NoDup (map (fun nv => nf_id (fst nv)) vols).
Hypothesis Pv : Permutation (map nf_id (filter (fun m => negb (nf_junction m)) (map fst vols))) (zseq 0 (Z.to_nat (n + 1))).
Hypothesis Bv : forall m, In m (map fst vols) -> nf_junction m = false -> nf_bspot m = Some (nf_id m).
Hypothesis Fm : map fst final = map solver_node vols.
Hypothesis Fe : forall m o, In (m, o) final -> exists e, o = Some e.
Hypothesis Zr : Bltb (f64_ofZ 0) zres = true.
Hypothesis Est : hypsometry_stats32 lab dem zres n = Ok st.
Hypothesis Df : forall c, inside (nrows lab) (ncols lab) c -> finite64 (at_ dem c).

Let area : b64 := f64_mul (Babs (gt5 t)) (Babs (gt1 t)).

Hypothesis Lf : forall l h p nd e L, 1 <= l <= n -> In (l, h) st -> nth_error pps (Z.to_nat l) = Some p ->
  In (nd, Some e) final -> n_id nd = l -> water_level F64Ops h area (pp_dmax p) (pp_vol p) (e_vol e) = Ok L -> finite64 L.

Lemma ffs_spec64 : forall nf_index, (forall nv, In nv vols -> dget Z.eqb nf_index (nf_id (fst nv)) = Some (fst nv)) ->
  exists ffs, mmap (final_feature64 nf_index) final = Ok ffs /\
    map ff_bspot (filter ff_pourpoint ffs) = map nf_id (filter (fun m => negb (nf_junction m)) (map fst vols)) /\
    forall f, In f ffs -> ff_pourpoint f = true -> exists nd e, In (nd, Some e) final /\ n_id nd = ff_bspot f /\ ff_v f = e_vol e.
Proof.
  intros ix Hx. clear Nv Pv Pi Lf. revert Hx Bv Fm Fe. generalize final.
  induction vols as [|nv vs IH]; intros fin Hx Bv' Fm' Fe'.
  - destruct fin; [|discriminate]. exists []. split; [reflexivity|]. split; [reflexivity|]. intros f [].
  - destruct fin as [|[nd o] fin]; [discriminate|]. cbn [map fst] in Fm'. injection Fm' as -> Fm'.
    destruct (Fe' _ _ (or_introl eq_refl)) as (e & ->).
    destruct (IH fin) as (ffs & E & M & F).
    { intros m Hm. apply Hx. right. exact Hm. }
    { intros m Hm. apply Bv'. right. exact Hm. }
    { exact Fm'. }
    { intros m o Ho. apply (Fe' m o). right. exact Ho. }
    cbn [mmap]. unfold final_feature64 at 1. cbn [fst snd solver_node n_id].
    unfold dget_err. rewrite Hx by (left; auto). cbn [bind].
    destruct (nf_junction (fst nv)) eqn:J.
    + cbn [bind]. rewrite E. cbn [bind]. eexists. split; [reflexivity|]. split.
      * cbn [filter ff_pourpoint map]. rewrite J. cbn [negb]. exact M.
      * intros f [<-|Hf] Hp; [discriminate Hp|]. destruct (F f Hf Hp) as (a & b & H1 & H2). exists a, b. split; [right; auto|auto].
    + rewrite (Bv' (fst nv) (or_introl eq_refl) J). cbn [bind]. rewrite E. cbn [bind]. eexists. split; [reflexivity|]. split.
      * cbn [filter ff_pourpoint map]. rewrite J. cbn [negb map ff_bspot]. f_equal. exact M.
      * intros f [<-|Hf] Hp.
        -- exists (solver_node nv), e. cbn [ff_bspot ff_v]. split; [left; auto|]. auto.
        -- destruct (F f Hf Hp) as (a & b & H1 & H2). exists a, b. split; [right; auto|auto].
Qed.

Theorem finish64_spec : exists fo, finish64 t dem lab pps vols final zres = Ok fo /\
  map hi_bspot (ff_hyps fo) = zseq 0 (Z.to_nat (n + 1)) /\
  (forall i, In i (ff_hyps fo) -> exists h, In (hi_bspot i, h) st /\ hyps_from_flatdict (hi_dict i) = Ok h) /\
  Permutation (map lf_bspot (ff_levels fo)) (zseq 0 (Z.to_nat (n + 1))) /\
  (forall o, In o (ff_levels fo) ->
     exists nd e p h, In (nd, Some e) final /\ n_id nd = lf_bspot o /\ lf_v o = e_vol e /\
       nth_error pps (Z.to_nat (lf_bspot o)) = Some p /\ In (lf_bspot o, h) st /\
       water_level F64Ops h area (pp_dmax p) (pp_vol p) (lf_v o) = Ok (lf_z o) /\ lf_dmax o = f64_sub (lf_z o) (z_min h)) /\
  same_shape (ff_labels fo) lab /\ same_shape (ff_depths fo) lab /\
  forall c, inside (nrows lab) (ncols lab) c ->
    (at_ lab c = 0 -> at_ (ff_labels fo) c = 0 /\ (le64 (f64_ofZ (-999)) (at_ dem c) -> eq64 (at_ (ff_depths fo) c) f64_zero)) /\
    (at_ lab c <> 0 -> exists o, In o (ff_levels fo) /\ lf_bspot o = at_ lab c /\
       (lt64 (lf_z o) (at_ dem c) -> at_ (ff_depths fo) c = f64_zero /\ at_ (ff_labels fo) c = 0) /\
       (le64 (at_ dem c) (lf_z o) -> at_ (ff_depths fo) c = f64_sub (lf_z o) (at_ dem c) /\ le64 f64_zero (at_ (ff_depths fo) c) /\
          at_ (ff_labels fo) c = at_ lab c)).
Proof.
  pose proof Nm as (LI & N0 & _).
  assert (NDp : NoDup (map pp_id pps)) by (rewrite Pi; apply zseq_NoDup).
  assert (Ix : forall l, In l (map pp_id pps) <-> 0 <= l <= n).
  { intros l. rewrite Pi, in_zseq. lia. }
  destruct (hypsometry_io_total32 lab dem (Babs (gt5 t), Babs (gt1 t)) (map pp_id pps) zres n st Sh LI Lg NDp) as (hfs & Eh); auto.
  destruct (hypsometry_io_sound32 lab dem (Babs (gt5 t), Babs (gt1 t)) (map pp_id pps) zres n hfs LI Lg NDp Eh) as (_ & _ & Mb & _ & _ & st' & E2' & Hf).
  assert (st' = st) by congruence. subst st'.
  set (ppix := fold_left (fun d p => dset Z.eqb d (pp_id p) p) pps []).
  assert (Gp : forall p, In p pps -> dget Z.eqb ppix (pp_id p) = Some p).
  { intros p Hp. apply (index_val pp_id (fun p => p)); auto. }
  assert (Pn : forall p, In p pps -> nth_error pps (Z.to_nat (pp_id p)) = Some p).
  { intros p Hp. apply In_nth_error in Hp. destruct Hp as (k & Hk).
    assert (Kl : (k < length pps)%nat) by (apply nth_error_Some; congruence).
    assert (X : nth_error (map pp_id pps) k = Some (pp_id p)) by (rewrite nth_error_map, Hk; auto).
    assert (Lp : length pps = Z.to_nat (n + 1)) by (rewrite <- (map_length pp_id), Pi, zseq_length; auto).
    rewrite Pi, nth_error_zseq in X by lia. injection X as X. replace (Z.to_nat (pp_id p)) with k by lia. exact Hk. }
  (* the hypsometry layer *)
  assert (HI : forall f, In f hfs -> exists i p h, hyps_input64 ppix f = Ok i /\ hi_bspot i = hf_bspot f /\
    nth_error pps (Z.to_nat (hi_bspot i)) = Some p /\ In (hi_bspot i, h) st /\ hyps_from_flatdict (hi_dict i) = Ok h /\
    hi_cell_area i = area /\ hi_max_depth i = pp_dmax p /\ hi_max_vol i = pp_vol p).
  { intros f Hin. assert (Hb : In (hf_bspot f) (map pp_id pps)) by (rewrite <- Mb; apply in_map; auto).
    assert (0 <= hf_bspot f) by (apply Ix in Hb; lia).
    destruct (Hf f Hin H) as (h & d & S1 & S2 & S3 & S4).
    apply in_map_iff in Hb. destruct Hb as (p & Ep & Hp). unfold hyps_input64, dget_err. rewrite <- Ep, Gp by auto. cbn [bind].
    rewrite S2, S4. eexists. exists p, h. split; [reflexivity|]. cbn [hi_bspot hi_dict hi_cell_area hi_max_depth hi_max_vol].
    split; [reflexivity|]. split; [apply Pn; auto|]. split; [rewrite Ep; exact S1|]. split; [exact S3|]. split; [reflexivity|]. auto. }
  destruct (mmap_total (hyps_input64 ppix) hfs) as (his & Ei).
  { intros f Hin. destruct (HI f Hin) as (i & _ & _ & E & _). eauto. }
  assert (Hi : forall i, In i his -> exists p h, nth_error pps (Z.to_nat (hi_bspot i)) = Some p /\ In (hi_bspot i, h) st /\
    hyps_from_flatdict (hi_dict i) = Ok h /\ hi_cell_area i = area /\ hi_max_depth i = pp_dmax p /\ hi_max_vol i = pp_vol p).
  { intros i Hin. destruct (mmap_in _ _ _ Ei _ Hin) as (f & Hf' & Ef). destruct (HI f Hf') as (i' & p & h & E & _ & R).
    rewrite E in Ef. injection Ef as <-. exists p, h. exact R. }
  assert (Mi : map hi_bspot his = zseq 0 (Z.to_nat (n + 1))).
  { rewrite <- Pi, <- Mb. clear - HI Ei. generalize dependent his. induction hfs as [|f hfs IH]; intros his Ei; cbn [mmap] in Ei.
    - injection Ei as <-. reflexivity.
    - apply bind_ok in Ei. destruct Ei as (i & E & Ei). apply bind_ok in Ei. destruct Ei as (is' & E' & Ei). injection Ei as <-.
      cbn [map]. rewrite (IH (fun f H => HI f (or_intror H)) _ E').
      destruct (HI f (or_introl eq_refl)) as (i' & p & h & E2 & B & _). rewrite E2 in E. injection E as <-. rewrite B. reflexivity. }
  assert (NDi : NoDup (map hi_bspot his)) by (rewrite Mi; apply zseq_NoDup).
  (* the final state *)
  set (nfix := fold_left (fun d nv => dset Z.eqb d (nf_id (fst nv)) (fst nv)) vols []).
  destruct (ffs_spec64 nfix) as (ffs & Ef & Mf & Ff).
  { intros nv Hn. apply (index_val (fun nv => nf_id (fst nv)) fst); auto. }
  (* levels *)
  destruct (levels_io_total F64Ops ffs his) as (lv & El).
  { intros f H1 H2. rewrite Mi. eapply Permutation_in; [exact Pv|]. rewrite <- Mf. apply in_map. apply filter_In. auto. }
  { intros i Hin. destruct (Hi i Hin) as (p & h & _ & I & E & _). exists h. split; auto.
    eapply produced_counts32; [exact Est|exact I]. }
  { exact NDi. }
  destruct (levels_io_sound F64Ops ffs his lv NDi El) as (Ml & Fl).
  assert (Pl : Permutation (map lf_bspot lv) (zseq 0 (Z.to_nat (n + 1)))).
  { replace (map lf_bspot lv) with (map ff_bspot (filter ff_pourpoint ffs)).
    - rewrite Mf. exact Pv.
    - apply (f_equal (map fst)) in Ml. rewrite !map_map in Ml. cbn [fst] in Ml. symmetry. exact Ml. }
  assert (LV : forall o, In o lv -> exists nd e p h, In (nd, Some e) final /\ n_id nd = lf_bspot o /\ lf_v o = e_vol e /\
       nth_error pps (Z.to_nat (lf_bspot o)) = Some p /\ In (lf_bspot o, h) st /\
       water_level F64Ops h area (pp_dmax p) (pp_vol p) (lf_v o) = Ok (lf_z o) /\ lf_dmax o = f64_sub (lf_z o) (z_min h)).
  { intros o Ho. assert (X : In (lf_bspot o, lf_v o) (map (fun f => (ff_bspot f, ff_v f)) (filter ff_pourpoint ffs))).
    { rewrite <- Ml. apply in_map_iff. exists o. auto. }
    apply in_map_iff in X. destruct X as (f & Ex & Hx). injection Ex as X1 X2. apply filter_In in Hx. destruct Hx as [H1 H2].
    destruct (Ff f H1 H2) as (nd & e & F1 & F2 & F3).
    destruct (Fl o Ho) as (i & h & I1 & I2 & I3 & I4 & I5). destruct (Hi i I1) as (p & h' & J1 & J2 & J3 & J4 & J5 & J6).
    rewrite I3 in J3. injection J3 as <-. exists nd, e, p, h. rewrite J4, J5, J6 in I4.
    split; [exact F1|]. split; [congruence|]. split; [congruence|]. rewrite <- I2. auto. }
  (* rasters *)
  set (d := map (fun o : level_feature => (lf_bspot o, lf_z o)) lv).
  assert (Md : map fst d = map lf_bspot lv) by (unfold d; rewrite map_map; reflexivity).
  assert (NDd : NoDup (map fst d)).
  { rewrite Md. eapply Permutation_NoDup; [symmetry; exact Pl|]. apply zseq_NoDup. }
  assert (Kd : forall k, In k (map fst d) <-> 0 <= k <= n).
  { intros k. rewrite Md. split; intros H.
    - eapply Permutation_in in H; [|exact Pl]. apply in_zseq in H. lia.
    - eapply Permutation_in; [symmetry; exact Pl|]. apply in_zseq. lia. }
  destruct (approx_total F64Ops lab d dem 0 n Sh N0) as ((fl & fd) & Ea); auto.
  { apply Kd. lia. } { intros k Hk. apply Kd in Hk. lia. } { intros k Hk _. apply Kd. lia. }
  destruct (approx_float' lab d dem 0 fl fd) as (_ & S1 & S2 & Cl); auto.
  { intros c Hc. specialize (LI c Hc). lia. }
  { intros l z Hz Nz. assert (Kl : 0 <= l <= n) by (apply Kd; apply (in_map fst) in Hz; exact Hz).
    apply in_map_iff in Hz. destruct Hz as (o & Eo & Ho). injection Eo as Eo1 Eo2.
    destruct (LV o Ho) as (nd & e & p & h & A1 & A2 & A3 & A4 & A5 & A6 & _). rewrite A3 in A6. rewrite Eo1 in *. rewrite Eo2 in *.
    apply (Lf l h p nd e z); auto. lia. }
  exists (mkF64 his lv fd fl). split.
  { unfold finish64. rewrite Eh. cbn [bind]. fold ppix. rewrite Ei. cbn [bind]. fold nfix. rewrite Ef. cbn [bind]. rewrite El. cbn [bind].
    set (lv3 := map (fun o : level_feature => (true, lf_bspot o, lf_z o)) lv).
    assert (D3 : map (fun x => (snd (fst x), snd x)) (filter (fun x => fst (fst x)) lv3) = d).
    { unfold lv3, d. clear. induction lv as [|o lv IH]; [reflexivity|]. cbn [map filter fst snd]. f_equal. exact IH. }
    pose proof (approx_io_agrees F64Ops lab lv3 dem true true 0) as A.
    change (levels_dict lv3) with (map (fun x : bool * Z * b64 => (snd (fst x), snd x)) (filter (fun x => fst (fst x)) lv3)) in A. rewrite D3, Ea in A.
    rewrite A; [reflexivity|exact NDd|left; reflexivity]. }
  cbn [ff_hyps ff_levels ff_labels ff_depths]. split; [exact Mi|]. split.
  { intros i Hin. destruct (Hi i Hin) as (p & h & _ & I & E & _). exists h. split; [exact I|exact E]. }
  split; [exact Pl|]. split; [exact LV|].
  split; [exact S1|]. split; [exact S2|]. intros c Hc. destruct (Cl c Hc) as (C1 & C2). split; [exact C1|].
  intros H. destruct (C2 H) as (z & Z1 & Z2). unfold d in Z1. apply in_map_iff in Z1. destruct Z1 as (o & Eo & Ho).
  injection Eo as Eo <-. exists o. split; auto.
Qed.
End Finish.
