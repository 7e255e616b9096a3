(** * The complete command in floats is close to the one in exact arithmetic *)

From Coq Require Import QArith Qabs Qreals Reals Lra Lia Permutation.
From Flocq Require Import Core IEEE754.BinarySingleNaN.
From Verif Require Import Base BaseProofs AccumProofs Num Dict DictProofs Float64 Float64Proofs Float64Arith Float64Scale Float32Proofs FillModel FillProofs FillSpec
  FlowModel FlowSpec DemModel DemProofs LevelProofs LabelModel LabelSpec LabelProofs CompSpec CompProofs VectorModel BluespotModel BluespotSpec BluespotProofs
  NetModel NetSpec NetThms NetworkModel NetworkSpec NetworkThms NetworkFloatSpec NetworkFloatThms RainModel PipelineModel RainProofs FloatQ
  CompleteThms RoundSpec RoundProofs RoundThms RoundNetThms FloatPipeModel FloatPipeSpec FloatPipeProofs.
Local Open Scope Z_scope.

Lemma within_sum : forall k (l : list (Q * Q)), (forall p, In p l -> within k (fst p) (snd p)) ->
  within k (Qsum (map fst l)) (Qsum (map snd l)).
Proof.
  intros k l. induction l as [|[x y] l IH]; intros H; cbn [map Qsum fst snd]; [apply within_zero|].
  destruct IH as [A B]; [intros; apply H; right; auto|]. destruct (H (x, y) (or_introl eq_refl)) as [C D]. cbn [fst snd] in C, D.
  unfold within. rewrite !Qmult_plus_distr_r. split; apply Qplus_le_compat; assumption.
Qed.

Lemma within6 : forall x y, (0 <= y)%Q -> within 6 x y -> (Qabs (x - y) <= ((1 + (1 # 2 ^ 53)) ^ 6 - 1) * y)%Q.
Proof.
  intros x y Y [A B]. assert (C : (1 - (1 - (1 # 2 ^ 53)) ^ 6 <= (1 + (1 # 2 ^ 53)) ^ 6 - 1)%Q) by (vm_compute; discriminate).
  set (a := ((1 - (1 # 2 ^ 53)) ^ 6)%Q) in *. set (b := ((1 + (1 # 2 ^ 53)) ^ 6)%Q) in *. clearbody a b.
  apply Qabs_Qle_condition. apply (Qmult_le_compat_r _ _ y) in C; [|exact Y]. split.
  - assert (E : ((1 - a) * y == y - a * y)%Q) by ring. rewrite E in C. 
    assert (- ((b - 1) * y) <= - (y - a * y))%Q by (apply Qopp_le_compat; exact C).
    eapply Qle_trans; [exact H|]. setoid_replace (- (y - a * y))%Q with (a * y - y)%Q by ring. apply Qplus_le_compat; [exact A|apply Qle_refl].
  - setoid_replace ((b - 1) * y)%Q with (b * y - y)%Q by ring. apply Qplus_le_compat; [exact B|apply Qle_refl].
Qed.

Lemma within_nonneg : forall k x y, (0 <= k)%Z -> (0 <= y)%Q -> within k x y -> (0 <= x)%Q.
Proof.
  intros k x y K Y W. pose proof (within_near k x y K Y W) as N. destruct N as (Y0 & A & _).
  apply Rle_Qle. replace (Q2R 0) with 0%R by (unfold Q2R; cbn; lra). eapply Rle_trans; [|exact A]. apply Rmult_le_pos; [|exact Y0].
  apply pow_le. assert (u53 <= / 8)%R. { unfold u53. change (/ 8)%R with (bpow radix2 (-3)). apply bpow_le. lia. } lra.
Qed.

Lemma index_get : forall {T} (pps : list (@pourpoint T)), map pp_id pps = zseq 0 (length pps) -> forall j,
  dget Z.eqb (fold_left (fun d p => dset Z.eqb d (pp_id p) p) pps []) j =
  if (0 <=? j) && (j <? Z.of_nat (length pps)) then nth_error pps (Z.to_nat j) else None.
Proof.
  intros T pps Ei j. assert (NDp : NoDup (map pp_id pps)) by (rewrite Ei; apply zseq_NoDup).
  rewrite pp_index_get by auto. rewrite (find_by_id pps 0 Ei j). rewrite Z.add_0_l, Z.sub_0_r.
  cbn [dget]. destruct ((0 <=? j) && (j <? Z.of_nat (length pps))); auto. destruct (nth_error pps (Z.to_nat j)); auto.
Qed.

Lemma nonneg64_Q : forall x, finite64 x -> (0 <= b64_Q x)%Q -> nonneg64 x.
Proof. intros x F P. split; [exact F|]. apply b64_Q_le; [reflexivity|exact F|exact P]. Qed.

Lemma same_solver : forall (l : list (@node_feature b64 * b64)) (l' : list (@node_feature Q * Q)), Forall2 same_feature l l' ->
  Forall2 same_place (map solver_node l) (map solver_node l').
Proof. intros l l' F. induction F as [|a b l l' (A & B & _) F IH]; cbn [map]; constructor; auto. split; assumption. Qed.

Lemma combine_close : forall N (l : list (@node_feature b64 * b64)) (l' : list (@node_feature Q * Q)), Forall2 (close N) l l' ->
  exists ps, map fst ps = map (fun a => b64_Q (snd a)) l /\ map snd ps = map snd l' /\ forall p, In p ps -> within 6 (fst p) (snd p).
Proof.
  intros N l l' F. induction F as [|a b l l' [A _] F (ps & P1 & P2 & P3)].
  - exists []. split; [reflexivity|]. split; [reflexivity|]. intros p [].
  - exists ((b64_Q (snd a), snd b) :: ps). cbn [map fst snd]. rewrite P1, P2. split; [reflexivity|]. split; [reflexivity|].
    intros p [<-|H]; auto.
Qed.

Lemma Forall2_maps : forall {A B C} (R : B -> C -> Prop) (f : A -> B) (g : A -> C) l, Forall2 R (map f l) (map g l) ->
  forall x, In x l -> R (f x) (g x).
Proof.
  intros A B C R f g l. induction l as [|a l IH]; intros F x H; [destruct H|].
  cbn [map] in F. inversion F; subst. destruct H as [<-|H]; auto.
Qed.

Theorem complete64_close : forall cc, labels_components cc ->
  forall sp t dem f (use_accum : bool) mm,
  size_ok sp dem -> dem32 dem -> dem_finite dem -> nrows dem * ncols dem <= 2 ^ 53 ->
  square_cells (gt1 t) (gt5 t) = true -> ordinary (gt1 t) -> ordinary (gt5 t) -> ordinary mm -> le64 f64_zero mm ->
  exists k, forall fuel, (fuel >= k)%nat -> exists o oq,
  complete64 sp cc fuel t dem f use_accum mm = Ok o /\ complete sp cc fuel t dem f use_accum (b64_Q mm) = Ok oq /\
  Forall2 same_feature (fo_nodes o) (co_nodes oq) /\
  (no_overflow o ->
   Forall2 (close (nrows dem * ncols dem)) (fo_nodes o) (co_nodes oq) /\
   (let rain := inject_Z (nrows dem * ncols dem) * area_Q (gt1 t) (gt5 t) * (b64_Q mm / 1000) in
    Qabs (Qsum (map (written e_vol) (fo_final o)) + Qsum (map (written e_spill) (filter (fun p => is_root (fst p)) (fo_final o))) - rain)
    <= ((1 + (1 # 2 ^ 53)) ^ 6 - 1) * rain +
       (1 # 2 ^ 52) * Qsum (map (fun p => fan_in (map fst (fo_final o)) (fst p) * (written e_vol p + written e_spill p)) (fo_final o)))%Q /\
   Forall2 same_place (map fst (fo_final o)) (map fst (co_final oq)) /\
   forall x, In x (combine (fo_final o) (co_final oq)) -> exists us, NoDup us /\
    (forall y, In y us <-> In y (combine (fo_final o) (co_final oq)) /\ reaches (map fst (fo_final o)) (both_id y) (both_id x)) /\
    (Qabs (written e_vol (fst x) - out_vol (snd x)) <= Qsum (map (node_error (map fst (fo_final o))) us))%Q /\
    (Qabs (written e_spill (fst x) - out_spill (snd x)) <= Qsum (map (node_error (map fst (fo_final o))) us))%Q).
Proof.
  intros cc Hcc sp t dem f use_accum mm SO H32 HF Big SQ O1 O5 Om Pm.
  destruct (chain_total cc Hcc sp use_accum t dem f SO H32 HF SQ) as (k & K).
  exists (Nat.max k (S (Z.to_nat (nrows dem * ncols dem)))). intros fuel Fu.
  destruct (K fuel ltac:(lia)) as (dout & out & ED & EB).
  set (accum := if use_accum then Some (accum64 (do_accum dout)) else None) in *.
  assert (HA : accum = None \/ accum = Some (accum64 (do_accum dout))) by (unfold accum; destruct use_accum; auto).
  destruct (rain_shares cc Hcc sp fuel fuel _ _ dem dout t f accum out SO H32 HF Big ED HA EB) as (pps & Ep & Lp & R).
  destruct (exact_pps cc Hcc sp fuel fuel _ _ dem dout t f accum out SO H32 HF ED EB) as (pps' & Ep' & Ec & Ei & _).
  assert (pps' = pps) by congruence. subst pps'.
  destruct (dem_flow sp fuel _ _ dem dout SO H32 HF ED) as ([Q1 Q2] & _ & _).
  destruct (R true fuel) as (nodes & sts & Es & ND & _ & Vp & V).
  { assert (1 <= nrows dem) by (destruct sp; cbn in SO; lia). assert (1 <= ncols dem) by (destruct sp; cbn in SO; lia).
    unfold rcells. rewrite length_cells_of.
    assert (E : nrows (do_flowdir dout) = nrows dem) by congruence. assert (E' : ncols (do_flowdir dout) = ncols dem) by congruence.
    rewrite E, E'. assert (Z.of_nat (Z.to_nat (nrows dem) * Z.to_nat (ncols dem)) = nrows dem * ncols dem) by (rewrite Nat2Z.inj_mul, !Z2Nat.id; auto; lia).
    lia. }
  { lia. }
  destruct (V (b64_Q mm)) as (Sm & _ & AC). clear V R.
  set (qv := simple_volumes QOps (b64_Q mm) nodes) in *.
  assert (UI : unique_ids (map solver_node qv)).
  { unfold unique_ids, qv, simple_volumes. rewrite !map_map. exact ND. }
  destruct (process_total QOps (map solver_node qv) (length qv)) as (fin & Ef); [rewrite map_length; lia|].
  unfold stream_process in Es. apply bind_ok in Es. destruct Es as (ns & En & Es). injection Es as Es1 Es2.
  destruct (ids64 cc Hcc sp fuel fuel _ _ dem dout t f accum out SO H32 HF ED EB pps Ep) as [I64 L64].
  set (ix := fold_left (fun d p => dset Z.eqb d (pp_id p) p) pps []) in *.
  set (ix64 := fold_left (fun d p => dset Z.eqb d (pp_id p) p) (bo_pourpoints out) []).
  set (nodes64 := map (make_node F64Ops t ix64) ns). set (fv := simple_volumes F64Ops mm nodes64).
  destruct (process_total F64Ops (map solver_node fv) (length fv)) as (fin64 & Ef64); [rewrite map_length; lia|].
  exists (mkFO fv (make_streams F64Ops t ns) fin64), (mkCO qv sts fin). split; [|split].
  { unfold complete64. rewrite ED. cbn [bind]. fold accum. rewrite EB. cbn [bind]. unfold stream_process.
    change (map (fun p => (pp_row p, pp_col p)) (bo_pourpoints out)) with (pps_of out). rewrite <- Ec, En. cbn [bind].
    fold ix64 nodes64 fv. rewrite Ef64. reflexivity. }
  { unfold complete. rewrite ED. cbn [bind]. fold accum. rewrite EB. cbn [bind]. rewrite Ep. cbn [bind]. unfold stream_process.
    rewrite En. cbn [bind]. fold ix. rewrite Es1, Es2. fold qv. rewrite Ef. reflexivity. }
  cbn [fo_nodes co_nodes fo_final co_final].
  assert (EQ : qv = map (fun n => let m := make_node QOps (gt_Q t) ix n in (m, (nf_wshed m * b64_Q mm * milli QOps)%Q)) ns).
  { unfold qv, simple_volumes. rewrite <- Es1, map_map. reflexivity. }
  assert (E64 : fv = map (fun n => let m := make_node F64Ops t ix64 n in (m, f64_mul (f64_mul (nf_wshed m) mm) (milli F64Ops))) ns).
  { unfold fv, simple_volumes, nodes64. rewrite map_map. reflexivity. }
  assert (SF : Forall2 same_feature fv qv).
  { rewrite EQ, E64. clear. induction ns as [|n ns IH]; cbn [map]; constructor; auto.
    unfold same_feature, make_node. cbn [fst]. destruct (dget Z.eqb ix64 (g_id n)), (dget Z.eqb ix (g_id n)); cbn; repeat split. }
  split; [exact SF|]. intros [NO1 NO2]. cbn [fo_nodes fo_final] in NO1, NO2.
  assert (Wp : forall n, (0 <= nf_wshed (make_node QOps (gt_Q t) ix n) /\ 0 <= nf_vol (make_node QOps (gt_Q t) ix n))%Q /\
     (finite64 (nf_vol (make_node F64Ops t ix64 n)) ->
        within (nrows dem * ncols dem + 1) (b64_Q (nf_vol (make_node F64Ops t ix64 n))) (nf_vol (make_node QOps (gt_Q t) ix n))) /\
     (finite64 (nf_wshed (make_node F64Ops t ix64 n)) ->
        near 3 (B2R (nf_wshed (make_node F64Ops t ix64 n))) (Q2R (nf_wshed (make_node QOps (gt_Q t) ix n))) /\
        (B2R (nf_wshed (make_node F64Ops t ix64 n)) = 0 \/ bpow radix2 (-602) <= B2R (nf_wshed (make_node F64Ops t ix64 n)))%R)).
  { intros n. unfold make_node. unfold ix, ix64. rewrite (index_get _ I64), (index_get _ Ei), L64.
    destruct ((0 <=? g_id n) && (g_id n <? Z.of_nat (length pps))) eqn:Ir.
    - apply andb_prop in Ir. destruct Ir as [I1 I2]. apply Z.leb_le in I1. apply Z.ltb_lt in I2.
      destruct (nth_error pps (Z.to_nat (g_id n))) as [q|] eqn:Eq; [|apply nth_error_None in Eq; lia].
      destruct (nth_error (bo_pourpoints out) (Z.to_nat (g_id n))) as [p|] eqn:Epp; [|apply nth_error_None in Epp; lia].
      destruct (pp_pair cc Hcc sp fuel fuel _ _ dem dout t f accum out SO H32 HF ED EB O1 O5 pps Ep _ p q Epp Eq)
        as (_ & _ & _ & A & B & C & D). cbn [nf_wshed nf_vol]. auto.
    - cbn [nf_wshed nf_vol nofZ QOps F64Ops]. rewrite f64_ofZ0. split; [split; apply Qle_refl|].
      assert (Z0 : Q2R 0 = 0%R) by (unfold Q2R; cbn; lra).
      change (inject_Z 0) with 0%Q. rewrite Z0. change (B2R f64_zero) with 0%R. split; [intros _|intros _; split; [unfold near; rewrite !Rmult_0_r; lra|left; reflexivity]].
      change (b64_Q f64_zero) with 0%Q. apply within_zero. }
  assert (CL : Forall2 (close (nrows dem * ncols dem)) fv qv).
  { rewrite EQ, E64 in *. clear - Wp NO1 Om Pm. induction ns as [|n ns IH]; cbn [map]; constructor.
    - destruct (NO1 (make_node F64Ops t ix64 n) _ (or_introl eq_refl)) as [Fw Fv].
      destruct (Wp n) as (_ & C & D). unfold close. cbn [fst snd]. split; [|apply C; exact Fv].
      destruct (mul_rnd _ _ Fw) as (F1 & _ & _). destruct (mul_rnd _ _ F1) as (F2 & _ & _).
      destruct (D F2) as [N3 L]. apply near_within; [|lia]. change (Z.to_nat 6) with 6%nat.
      rewrite b64_Q_R, !Q2R_mult, b64_Q_R. apply rain_near; auto.
    - apply IH. intros m v Hm. apply NO1. right. exact Hm. }
  split; [exact CL|].
  assert (SP : Forall2 same_place (map solver_node fv) (map solver_node qv)) by (apply same_solver; exact SF).
  assert (UI' : unique_ids (map solver_node fv)) by (unfold unique_ids in *; rewrite (same_ids _ _ SP); exact UI).
  assert (AC' : acyclic_closed (map solver_node fv)).
  { eapply acyclic_transport; [|exact AC]. clear - SF. induction SF as [|a b l l' (A & B & _) F IH]; cbn [map]; [reflexivity|].
    cbn [n_id n_dstr solver_node]. rewrite A, B, IH. reflexivity. }
  assert (Mi0 : (0 <= b64_Q mm)%Q) by (apply b64_Q_nonneg; exact Pm).
  assert (POS : forall n, In n (map solver_node fv) -> nonneg64 (n_water n) /\ nonneg64 (n_cap n)).
  { intros n Hn. apply in_map_iff in Hn. destruct Hn as ([m v] & <- & Hm). destruct (NO1 m v Hm) as [Fv Fm].
    cbn [n_water n_cap solver_node fst snd]. 
    assert (X : exists g, m = make_node F64Ops t ix64 g /\ within 6 (b64_Q v) (nf_wshed (make_node QOps (gt_Q t) ix g) * b64_Q mm * milli QOps)%Q).
    { rewrite E64 in Hm. apply in_map_iff in Hm. destruct Hm as (g & Eg & Hg). exists g.
      rewrite EQ, E64 in CL. pose proof (Forall2_maps _ _ _ _ CL g Hg) as [C1 _].
      cbv zeta in Eg, C1. apply pair_equal_spec in Eg. destruct Eg as [<- <-]. split; [reflexivity|exact C1]. }
    destruct X as (g & -> & W). destruct (Wp g) as ([W0 V0] & C & _). split; apply nonneg64_Q; auto.
    - eapply within_nonneg; [| |exact W]; [lia|]. apply Qmult_le_0_compat; [apply Qmult_le_0_compat; auto|vm_compute; discriminate].
    - eapply within_nonneg; [| |apply C; exact Fm]; [|exact V0].
      assert (1 <= nrows dem) by (destruct sp; cbn in SO; lia). assert (1 <= ncols dem) by (destruct sp; cbn in SO; lia). nia. }
  destruct (all_written _ _ _ _ UI' AC' Ef64) as [Mf _].
  assert (Mf' : map fst fin64 = map solver_node fv) by exact Mf. rewrite Mf'. split.
  - cbv zeta. set (rain := (inject_Z (nrows dem * ncols dem) * area_Q (gt1 t) (gt5 t) * (b64_Q mm / 1000))%Q).
    assert (Sm' : (Qsum (map snd qv) == rain)%Q) by (rewrite Sm; reflexivity).
    pose proof (conserves64 _ _ _ UI' AC' POS Ef64 NO2) as CV.
    destruct (combine_close _ _ _ CL) as (ps & P1 & P2 & P3). pose proof (within_sum 6 ps P3) as WS. rewrite P1, P2 in WS.
    rewrite map_map in CV. cbn [n_water solver_node] in CV.
    set (X := Qsum (map (fun a => b64_Q (snd a)) fv)) in *.
    assert (R0 : (0 <= rain)%Q).
    { unfold rain. apply Qmult_le_0_compat; [apply Qmult_le_0_compat|].
      - change 0%Q with (inject_Z 0). rewrite <- Zle_Qle. destruct sp; cbn in SO; nia.
      - apply Qmult_le_0_compat; apply Qabs_nonneg.
      - apply Qmult_le_0_compat; [exact Mi0|vm_compute; discriminate]. }
    assert (D1 : (Qabs (X - rain) <= ((1 + (1 # 2 ^ 53)) ^ 6 - 1) * rain)%Q).
    { apply within6; [exact R0|]. eapply within_eq; [exact Sm'|]. exact WS. }
    set (Y := (Qsum (map (written e_vol) fin64) + Qsum (map (written e_spill) (filter (fun p => is_root (fst p)) fin64)))%Q) in *.
    setoid_replace (Y - rain)%Q with ((X - rain) + - (X - Y))%Q by ring.
    eapply Qle_trans; [apply Qabs_triangle|]. rewrite Qabs_opp. apply Qplus_le_compat; assumption.
  - destruct (final_near _ _ _ _ _ _ UI' AC' SP POS Ef64 Ef NO2) as [A B]. rewrite Mf' in A. split; [exact A|exact B].
Qed.
