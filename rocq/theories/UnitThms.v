(** * Proofs for C103 *)

From Coq Require Import QArith Qabs Lqa Lia String.
From Flocq Require Import IEEE754.BinarySingleNaN.
From Verif Require Import Base BaseProofs Num Float64 Dict DictProofs DemModel FillThms LabelModel LabelSpec LabelProofs CompSpec CompProofs VectorModel BluespotModel BluespotThms NetModel
  NetworkModel NetworkSpec NetworkProofs NetworkThms RainModel PipelineModel HypsModel ApproxModel CompleteModel CompleteThms OgrModel CmdModel CmdThms UnitSpec.
Local Open Scope Z_scope.
Local Open Scope list_scope.
Local Arguments Qplus : simpl never.
Local Arguments Qmult : simpl never.
Local Arguments Qminus : simpl never.
Local Arguments Qdiv : simpl never.

Section Scale.
Variable r : Q.
Hypothesis R0 : (0 < r)%Q.

Lemma times_le : forall a b a' b', times r a a' -> times r b b' -> Qle_bool a' b' = Qle_bool a b.
Proof.
  unfold times. intros a b a' b' A B. apply eq_true_iff_eq. rewrite !Qle_bool_iff, A, B. split; intros H.
  - apply (Qmult_le_l _ _ r); auto.
  - apply (Qmult_le_l _ _ r); auto.
Qed.
Lemma times_eq : forall a b a' b', times r a a' -> times r b b' -> Qeq_bool a' b' = Qeq_bool a b.
Proof.
  unfold times. intros a b a' b' A B. apply eq_true_iff_eq. rewrite !Qeq_bool_iff, A, B.
  rewrite Qmult_inj_l; [reflexivity|]. intros X. rewrite X in R0. discriminate.
Qed.
Lemma times_0 : times r 0 0.
Proof. unfold times. ring. Qed.
Lemma times_add : forall a b a' b', times r a a' -> times r b b' -> times r (a + b) (a' + b').
Proof. unfold times. intros a b a' b' A B. rewrite A, B. ring. Qed.
Lemma times_sub : forall a b a' b', times r a a' -> times r b b' -> times r (a - b) (a' - b').
Proof. unfold times. intros a b a' b' A B. rewrite A, B. ring. Qed.
Lemma r_not_0 : ~ (r == 0)%Q.
Proof. intros X. rewrite X in R0. discriminate. Qed.
Lemma times_div : forall a b a' b', times r a a' -> times r b b' -> (a' / b' == a / b)%Q.
Proof.
  unfold times. intros a b a' b' A B. rewrite A, B. destruct (Qeq_dec b 0) as [Z0|N].
  - rewrite Z0. setoid_replace (r * 0)%Q with 0%Q by ring. unfold Qdiv. change (/ 0)%Q with 0%Q. ring.
  - field. split; [exact N|exact r_not_0].
Qed.

(** ** The pour points *)
Section Area.
Variables t t' : geotransform b64.
Hypothesis A : times r (area_of t) (area_of t').

Lemma nabs_Q : forall x, (nabs QOps x == Qabs x)%Q.
Proof.
  intros x. unfold nabs. cbn [nltb nsub nofZ QOps]. unfold Qltb. change (inject_Z 0) with 0%Q.
  destruct (Qle_bool 0 x) eqn:E; cbn [negb].
  - apply Qle_bool_iff in E. rewrite Qabs_pos by exact E. reflexivity.
  - assert (N : ~ (0 <= x)%Q) by (intros X; apply Qle_bool_iff in X; congruence).
    rewrite Qabs_neg by lra. ring.
Qed.

Lemma cell_area_Q : forall u, (cell_area QOps (gt_Q u) == area_of u)%Q.
Proof. intros u. unfold cell_area, area_of. cbn [nmul QOps]. rewrite !nabs_Q. reflexivity. Qed.

Lemma assemble_times : forall pix st ws ix,
  Forall2 (pp_times r) (assemble_from QOps ix (gt_Q t) pix st ws) (assemble_from QOps ix (gt_Q t') pix st ws).
Proof.
  assert (C : times r (cell_area QOps (gt_Q t)) (cell_area QOps (gt_Q t'))) by (unfold times; rewrite !cell_area_Q; exact A).
  assert (M : forall x, times r (x * cell_area QOps (gt_Q t)) (x * cell_area QOps (gt_Q t'))).
  { intros x. unfold times in *. rewrite C. ring. }
  induction pix as [|p pix IH]; intros [|s st] [|w ws] ix; cbn [assemble_from]; constructor; auto.
  constructor; cbn [pp_id pp_row pp_col pp_dmax pp_fumm pp_area pp_vol pp_wshed nmul ndiv QOps]; auto; try reflexivity.
  apply times_div; [|apply M]. pose proof (M (s_sum s)) as MS. unfold times in MS |- *. rewrite MS. ring.
Qed.

Lemma exact_times : forall depths out out' pps, bo_labeled out' = bo_labeled out -> bo_watersheds out' = bo_watersheds out ->
  map (fun p => (pp_row p, pp_col p)) (bo_pourpoints out') = map (fun p => (pp_row p, pp_col p)) (bo_pourpoints out) ->
  exact_pourpoints t depths out = Ok pps ->
  exists pps', exact_pourpoints t' depths out' = Ok pps' /\ Forall2 (pp_times r) pps pps'.
Proof.
  intros depths out out' pps E1 E2 E3 H. unfold exact_pourpoints in *. rewrite E1, E2.
  apply bind_ok in H. destruct H as (st & Hs & H). apply bind_ok in H. destruct H as (ws & Hw & H). injection H as <-.
  rewrite Hs. cbn [bind]. rewrite Hw. cbn [bind]. eexists. split; [reflexivity|].
  assert (X : map (fun p : @pourpoint b64 => mkIdx 0%Q (pp_row p) (pp_col p)) (bo_pourpoints out') =
              map (fun p : @pourpoint b64 => mkIdx 0%Q (pp_row p) (pp_col p)) (bo_pourpoints out)).
  { transitivity (map (fun rc : Z * Z => mkIdx 0%Q (fst rc) (snd rc)) (map (fun p : @pourpoint b64 => (pp_row p, pp_col p)) (bo_pourpoints out')));
      [rewrite map_map; reflexivity|]. rewrite E3, map_map. reflexivity. }
  rewrite X. apply assemble_times.
Qed.

(** ** Bluespots *)
Lemma assemble_cells : forall (u u' : geotransform b64) pix st ws ix,
  map (fun p => (pp_row p, pp_col p)) (assemble_from F64Ops ix u' pix st ws) =
  map (fun p => (pp_row p, pp_col p)) (assemble_from F64Ops ix u pix st ws).
Proof.
  intros u u'. induction pix as [|p pix IH]; intros [|s st] [|w ws] ix; cbn [assemble_from map]; auto. f_equal; auto.
Qed.

Lemma bluespots_times : forall sp cc fuel depths flowdir f f' accum dem out,
  (forall mn mx sm n, f' (mkUnit mn mx sm n (f64_mul sm (cell_area F64Ops t')) (f64_mul (f64_ofZ n) (cell_area F64Ops t'))) =
                      f (mkUnit mn mx sm n (f64_mul sm (cell_area F64Ops t)) (f64_mul (f64_ofZ n) (cell_area F64Ops t)))) ->
  square_cells (gt1 t') (gt5 t') = true ->
  bluespot_process sp cc fuel t depths flowdir (Some f) accum dem = Ok out ->
  exists out', bluespot_process sp cc fuel t' depths flowdir (Some f') accum dem = Ok out' /\
  bo_labeled out' = bo_labeled out /\ bo_nlabels out' = bo_nlabels out /\ bo_watersheds out' = bo_watersheds out /\
  map (fun p => (pp_row p, pp_col p)) (bo_pourpoints out') = map (fun p => (pp_row p, pp_col p)) (bo_pourpoints out).
Proof.
  intros sp cc fuel depths flowdir f f' accum dem out FF SQ H. unfold bluespot_process in *.
  destruct (match accum, dem with None, None => true | _, _ => false end); [discriminate H|].
  destruct (negb (square_cells (gt1 t) (gt5 t))); [discriminate H|]. rewrite SQ. cbn [negb].
  apply bind_ok in H. destruct H as (st & Hs & H). rewrite Hs. cbn [bind].
  assert (K : filterbluespots F64Ops f' (cell_area F64Ops t') st = filterbluespots F64Ops f (cell_area F64Ops t) st).
  { unfold filterbluespots. apply map_ext. intros s. unfold with_units. cbn [nmul nofZ F64Ops]. apply FF. }
  rewrite K. apply bind_ok in H. destruct H as (nc & Hk & H). rewrite Hk. cbn [bind].
  destruct (cc nc) as [lab n]. apply bind_ok in H. destruct H as (st2 & Hs2 & H). rewrite Hs2. cbn [bind].
  apply bind_ok in H. destruct H as (ws & Hw & H). rewrite Hw. cbn [bind].
  apply bind_ok in H. destruct H as (wc & Hc & H). rewrite Hc. cbn [bind].
  apply bind_ok in H. destruct H as (pix & Hp & H). rewrite Hp. cbn [bind]. injection H as <-.
  eexists. split; [reflexivity|]. cbn [bo_labeled bo_nlabels bo_watersheds bo_pourpoints].
  split; [reflexivity|]. split; [reflexivity|]. split; [reflexivity|]. apply assemble_cells.
Qed.
End Area.

(** ** Nodes *)
Lemma pp_index_times : forall pps pps', Forall2 (pp_times r) pps pps' ->
  Forall2 (same_entry (pp_times r)) (fold_left (fun d p => dset Z.eqb d (pp_id p) p) pps [])
    (fold_left (fun d p => dset Z.eqb d (pp_id p) p) pps' []).
Proof.
  intros pps pps' F.
  assert (G : forall d d', Forall2 (same_entry (pp_times r)) d d' ->
    Forall2 (same_entry (pp_times r)) (fold_left (fun d p => dset Z.eqb d (pp_id p) p) pps d)
      (fold_left (fun d p => dset Z.eqb d (pp_id p) p) pps' d')).
  { induction F as [|p p' l l' P F IH]; intros d d' D; cbn [fold_left]; auto.
    apply IH. rewrite (pt_id _ _ _ P). apply dset_rel; auto. }
  apply G. constructor.
Qed.

Lemma volumes_times : forall mm nodes nodes' (t t' : geotransform Q) d d' (gs : list gnode),
  Forall2 (same_entry (pp_times r)) d d' -> nodes = map (make_node QOps t d) gs -> nodes' = map (make_node QOps t' d') gs ->
  Forall2 (node_times r) (simple_volumes QOps mm nodes) (simple_volumes QOps mm nodes').
Proof.
  intros mm nodes nodes' t t' d d' gs D -> ->. unfold simple_volumes. rewrite !map_map.
  induction gs as [|g gs IH]; cbn [map]; constructor; auto.
  assert (N : forall n n' : @node_feature Q, nf_id n' = nf_id n -> nf_dstr n' = nf_dstr n -> nf_junction n' = nf_junction n ->
     nf_row n' = nf_row n -> nf_col n' = nf_col n -> nf_bspot n' = nf_bspot n -> times r (nf_area n) (nf_area n') ->
     times r (nf_vol n) (nf_vol n') -> times r (nf_wshed n) (nf_wshed n') ->
     node_times r (n, nmul QOps (nmul QOps (nf_wshed n) mm) (milli QOps)) (n', nmul QOps (nmul QOps (nf_wshed n') mm) (milli QOps))).
  { intros n n' E1 E2 E3 E4 E5 E6 E7 E8 E9. constructor; cbn [fst snd nmul QOps]; auto.
    unfold times in *. rewrite E9. ring. }
  pose proof (dget_rel (pp_times r) d d' (g_id g) D) as G. unfold make_node.
  destruct (dget Z.eqb d (g_id g)) as [p|], (dget Z.eqb d' (g_id g)) as [p'|]; try contradiction;
    apply N; cbn [nf_id nf_dstr nf_junction nf_row nf_col nf_bspot nf_area nf_vol nf_wshed]; auto.
  - rewrite (pt_id _ _ _ G). reflexivity.
  - apply (pt_area _ _ _ G).
  - apply (pt_vol _ _ _ G).
  - apply (pt_wshed _ _ _ G).
  - apply times_0.
  - apply times_0.
  - apply times_0.
Qed.

(** ** The final state *)
Definition solver_times (n n' : @node Q) : Prop :=
  n_id n' = n_id n /\ n_dstr n' = n_dstr n /\ times r (n_water n) (n_water n') /\ times r (n_cap n) (n_cap n').

Lemma solver_index_times : forall fs fs', Forall2 solver_times fs fs' ->
  Forall2 (same_entry solver_times) (index_of fs) (index_of fs').
Proof.
  intros fs fs' F. unfold index_of.
  assert (G : forall d d', Forall2 (same_entry solver_times) d d' ->
    Forall2 (same_entry solver_times) (fold_left (fun d n => dset Z.eqb d (n_id n) n) fs d)
      (fold_left (fun d n => dset Z.eqb d (n_id n) n) fs' d')).
  { induction F as [|p p' l l' P F IH]; intros d d' D; cbn [fold_left]; auto.
    apply IH. rewrite (proj1 P). apply dset_rel; auto. }
  apply G. constructor.
Qed.

Lemma times_root : forall ns ns', Forall2 solver_times ns ns' -> forall a x, root_of ns a x -> root_of ns' a x.
Proof.
  intros ns ns' F a x H.
  assert (X : forall n, In n ns -> exists m, In m ns' /\ solver_times n m).
  { clear - F. induction F; intros n []; [subst; exists y; split; [left|]; auto|].
    destruct (IHF n H0) as (m & P & Q). exists m. split; [right|]; auto. }
  induction H as [n Hn D|n d x Hn D _ IH]; destruct (X n Hn) as (m & Hm & E & D' & _); rewrite <- E.
  - apply ro_root; auto. congruence.
  - eapply ro_step; eauto. congruence.
Qed.
Lemma times_root' : forall ns ns', Forall2 solver_times ns ns' -> forall a x, root_of ns' a x -> root_of ns a x.
Proof.
  intros ns ns' F a x H.
  assert (X : forall n, In n ns' -> exists m, In m ns /\ solver_times m n).
  { clear - F. induction F; intros n []; [subst; exists x; split; [left|]; auto|].
    destruct (IHF n H0) as (m & P & Q). exists m. split; [right|]; auto. }
  induction H as [n Hn D|n d x Hn D _ IH]; destruct (X n Hn) as (m & Hm & E & D' & _); rewrite E.
  - apply ro_root; auto. congruence.
  - eapply ro_step; eauto. congruence.
Qed.

Lemma times_direct : forall ns ns' (s : Z -> Q) id, Forall2 solver_times ns ns' ->
  (Qsum (map (fun u => (r * s (n_id u))%Q) (direct_upstream ns' id)) == r * Qsum (map (fun u => s (n_id u)) (direct_upstream ns id)))%Q.
Proof.
  intros ns ns' s id F. unfold direct_upstream. induction F as [|x y l l' (E & D & _) G IH]; cbn [filter map Qsum]; [ring|].
  assert (X : is_dstr id y = is_dstr id x) by (unfold is_dstr; rewrite D; reflexivity).
  rewrite X. destruct (is_dstr id x); cbn [map Qsum]; rewrite IH; [rewrite E; ring|reflexivity].
Qed.

Lemma balance_times : forall ns ns' v s, Forall2 solver_times ns ns' -> balance ns v s ->
  balance ns' (fun i => r * v i)%Q (fun i => r * s i)%Q.
Proof.
  intros ns ns' v s F B n' Hn' (x & Rt). cbv zeta.
  assert (X : exists n, In n ns /\ solver_times n n').
  { clear - F Hn'. induction F; destruct Hn'; subst; [exists x; split; [left|]; auto|].
    destruct (IHF H0) as (n & P & Q). exists n. split; [right|]; auto. }
  destruct X as (n & Hn & E & D & W & C). rewrite E in *.
  destruct (B n Hn (ex_intro _ x (times_root' _ _ F _ _ Rt))) as [V S]. cbv zeta in V, S.
  pose proof (times_direct ns ns' s (n_id n) F) as T.
  set (q := Qsum (map (fun u => s (n_id u)) (direct_upstream ns (n_id n)))) in *.
  set (q' := Qsum (map (fun u => (r * s (n_id u))%Q) (direct_upstream ns' (n_id n)))) in *.
  assert (T' : times r (n_water n + q) (n_water n' + q')) by (apply times_add; auto).
  pose proof (times_le _ _ _ _ T' C) as LE. unfold times in T', C.
  destruct (Qlt_le_dec (n_cap n) (n_water n + q)) as [L|L]; destruct (Qlt_le_dec (n_cap n') (n_water n' + q')) as [L'|L'].
  - rewrite V, S, T', C. split; ring.
  - exfalso. apply Qle_bool_iff in L'. rewrite L' in LE. symmetry in LE. apply Qle_bool_iff in LE. lra.
  - exfalso. apply Qle_bool_iff in L. rewrite L in LE. apply Qle_bool_iff in LE. lra.
  - rewrite V, S, T'. split; ring.
Qed.

Lemma event_pct : forall ns fuel evs, unique_ids ns -> rain_event QOps fuel (add_nodes empty_network ns) = Ok evs ->
  forall n e, In n ns -> In e evs -> e_id e = n_id n ->
  e_pct e = if Qeq_bool (n_cap n) 0 then None else Some ((inject_Z 100 * e_vol e / n_cap n)%Q).
Proof.
  intros ns fuel evs U H n e Hn He Ei.
  destruct (settled_event QOps ns fuel evs U H e He) as (m & ue & Hm & Em & _ & _ & Es).
  assert (m = n) by (eapply NoDup_map_inj; eauto; congruence). subst m. rewrite Es. reflexivity.
Qed.

Lemma process_times : forall fs fs' fuel out, Forall2 solver_times fs fs' -> process QOps fuel fs = Ok out ->
  (List.length fs <= fuel)%nat ->
  exists out', process QOps fuel fs' = Ok out' /\ Forall2 (final_times r) out out'.
Proof.
  intros fs fs' fuel out F H Fu.
  assert (L : List.length fs' = List.length fs) by (clear - F; induction F; cbn; congruence).
  destruct (process_total QOps fs' fuel) as (out' & H'); [lia|]. exists out'. split; [exact H'|].
  destruct (process_spec _ _ _ _ H) as (M & evs & E & A & B). destruct (process_spec _ _ _ _ H') as (M' & evs' & E' & A' & B').
  destruct (index_spec fs) as [ND SP]. destruct (index_spec fs') as [ND' SP'].
  pose proof (solver_index_times _ _ F) as FI.
  set (ns := map snd (index_of fs)) in *. set (ns' := map snd (index_of fs')) in *.
  assert (FN : Forall2 solver_times ns ns').
  { unfold ns, ns'. clear - FI. induction FI as [|x y l l' (_ & S) G IH]; cbn; constructor; auto. }
  assert (U : unique_ids ns).
  { unfold unique_ids, ns. rewrite map_map. erewrite map_ext_in; [exact ND|]. intros [k n] Hk. cbn. apply SP in Hk. symmetry; tauto. }
  assert (U' : unique_ids ns').
  { unfold unique_ids, ns'. rewrite map_map. erewrite map_ext_in; [exact ND'|]. intros [k n] Hk. cbn. apply SP' in Hk. symmetry; tauto. }
  pose proof (run_balance ns U _ _ E) as Bal. pose proof (run_balance ns' U' _ _ E') as Bal'.
  pose proof (balance_unique ns' _ _ _ _ U' Bal' (balance_times _ _ _ _ FN Bal)) as UQ.
  destruct (run_facts ns U _ _ E) as (rv & _ & _ & _ & _ & NE). destruct (run_facts ns' U' _ _ E') as (rv' & _ & _ & _ & _ & NE').
  assert (FO : Forall2 (fun p p' => In p out /\ In p' out' /\ solver_times (fst p) (fst p') /\ In (fst p) ns /\ In (fst p') ns') out out').
  { assert (G : forall o o', incl o out -> incl o' out' -> Forall2 solver_times (map fst o) (map fst o') ->
      Forall2 (fun p p' => In p out /\ In p' out' /\ solver_times (fst p) (fst p') /\ In (fst p) ns /\ In (fst p') ns') o o').
    { induction o as [|p o IH]; intros [|p' o'] I I' G; inversion G; subst; constructor.
      - assert (In p out) by (apply I; left; auto). assert (In p' out') by (apply I'; left; auto).
        split; [auto|]. split; [auto|]. split; [auto|]. rewrite <- M, <- M'. split; apply in_map; auto.
      - apply IH; auto; intros x Hx; [apply I|apply I']; right; auto. }
    apply G; [apply incl_refl|apply incl_refl|]. rewrite M, M'. exact FN. }
  eapply Forall2_weaken; [|exact FO]. intros [n o] [n' o'] (Hp & Hp' & S & Hn & Hn'). cbn [fst] in *.
  destruct S as (Ei & Ed & Ew & Ec). unfold final_times. cbn [fst snd]. split; [exact Ei|]. split; [exact Ed|].
  rewrite M in B. rewrite M' in B'. pose proof (B n o Hp) as Bn. pose proof (B' n' o' Hp') as Bn'. rewrite Ei in Bn'.
  destruct o as [e|], o' as [e'|].
  - destruct (A n e Hp) as (He & Ee & We). destruct (A' n' e' Hp') as (He' & Ee' & We').
    assert (RT : exists x, root_of ns' (n_id n) x).
    { destruct (run_facts ns' U' _ _ E') as (rv2 & X1 & X2 & X3 & X4 & _). apply X3. rewrite <- X4, <- Ei, <- Ee'. apply in_map; auto. }
    destruct RT as (x & RT). destruct (UQ _ _ RT) as [V S].
    assert (V1 : times r (e_vol e) (e_vol e')).
    { unfold times. rewrite <- (lookup_in evs' e_vol e' NE' He'), <- (lookup_in evs e_vol e NE He), Ee', Ei, Ee. exact V. }
    split; [exact V1|].
    split; [unfold times; rewrite <- (lookup_in evs' e_spill e' NE' He'), <- (lookup_in evs e_spill e NE He), Ee', Ei, Ee; exact S|].
    split; [rewrite We, We'; exact Ew|].
    rewrite (event_pct ns _ _ U E n e Hn He Ee), (event_pct ns' _ _ U' E' n' e' Hn' He' Ee').
    rewrite (times_eq _ _ _ _ Ec times_0). destruct (Qeq_bool (n_cap n) 0); cbn [same_pct]; [exact I|].
    symmetry. apply times_div; [|exact Ec]. unfold times in *. rewrite V1. ring.
  - pose proof (proj1 Bn' eq_refl) as X. exfalso.
    destruct (run_facts ns U _ _ E) as (rv2 & X1 & X2 & X3 & X4 & _).
    destruct (A n e Hp) as (He & Ee & _).
    assert (Z1 : exists x, root_of ns (n_id n) x) by (apply X3; rewrite <- X4, <- Ee; apply in_map; auto).
    destruct Z1 as (x & Z1). apply X. exists x. eapply times_root; eauto.
  - pose proof (proj1 Bn eq_refl) as X. exfalso.
    destruct (run_facts ns' U' _ _ E') as (rv2 & X1 & X2 & X3 & X4 & _).
    destruct (A' n' e' Hp') as (He & Ee & _).
    assert (Z1 : exists x, root_of ns' (n_id n) x) by (apply X3; rewrite <- X4, <- Ei, <- Ee; apply in_map; auto).
    destruct Z1 as (x & Z1). apply X. exists x. eapply times_root'; eauto.
  - exact I.
Qed.

(** ** Levels *)
Lemma cumsum_from_times : forall l l', Forall2 (times r) l l' -> forall a a', times r a a' ->
  Forall2 (times r) (cumsum_from QOps a l) (cumsum_from QOps a' l').
Proof.
  intros l l' F. induction F as [|x y l l' P F IH]; intros a a' A; cbn [cumsum_from]; constructor.
  - apply times_add; auto.
  - apply IH. apply times_add; auto.
Qed.
Lemma cumsum_times : forall l l', Forall2 (times r) l l' -> Forall2 (times r) (cumsum QOps l) (cumsum QOps l').
Proof. intros l l' F. destruct F; cbn [cumsum]; constructor; auto. apply cumsum_from_times; auto. Qed.

Lemma cumvol_times : forall h a a', times r a a' -> Forall2 (times r) (cumulative_volume QOps h a) (cumulative_volume QOps h a').
Proof.
  intros h a a' A. unfold cumulative_volume. apply cumsum_times.
  generalize (nofZ QOps 0 :: removelast (cumsum QOps (map (nofZ QOps) (h_counts h)))). intros l.
  induction l as [|x l IH]; cbn [map]; constructor; auto. cbn [nmul QOps]. unfold times in *. rewrite A. ring.
Qed.

Lemma removelast_rel : forall {X Y} (P : X -> Y -> Prop) l l', Forall2 P l l' -> Forall2 P (removelast l) (removelast l').
Proof.
  intros X Y P l l' F. induction F as [|x y l l' A F IH]; cbn [removelast]; [constructor|].
  destruct F; constructor; auto.
Qed.
Lemma inner_rel : forall {X Y} (P : X -> Y -> Prop) l l', Forall2 P l l' -> Forall2 P (inner l) (inner l').
Proof. intros X Y P l l' F. unfold inner. apply removelast_rel. destruct F; cbn [tl]; auto. Qed.

Lemma interp_from_times : forall x x' x0 x0' y0 rest rest', times r x x' -> times r x0 x0' ->
  Forall2 (fun p p' => times r (fst p) (fst p') /\ snd p' = snd p) rest rest' ->
  (interp_from QOps x' x0' y0 rest' == interp_from QOps x x0 y0 rest)%Q.
Proof.
  intros x x' x0 x0' y0 rest rest' X X0 F. revert x0 x0' y0 X0.
  induction F as [|[x1 y1] [x1' y1'] l l' (A & B) F IH]; intros x0 x0' y0 X0; cbn [interp_from]; [reflexivity|].
  cbn [fst snd] in A, B. subst y1'. cbn [nleb neqb nadd nsub nmul ndiv QOps].
  rewrite (times_le _ _ _ _ A X). destruct (Qle_bool x1 x); [apply IH; auto|].
  rewrite (times_eq _ _ _ _ X0 X). destruct (Qeq_bool x0 x); [reflexivity|].
  pose proof (times_div _ _ _ _ (times_sub _ _ _ _ X X0) (times_sub _ _ _ _ A X0)) as D.
  apply Qplus_comp; [|reflexivity].
  transitivity ((y1 - y0) * ((x' - x0') / (x1' - x0')))%Q; [unfold Qdiv; ring|].
  rewrite D. unfold Qdiv. ring.
Qed.

Lemma interp_times : forall x x' xs xs' ys y, times r x x' -> Forall2 (times r) xs xs' -> interp QOps x xs ys = Ok y ->
  exists y', interp QOps x' xs' ys = Ok y' /\ (y' == y)%Q.
Proof.
  intros x x' xs xs' ys y X F H. unfold interp in *.
  assert (L : List.length xs' = List.length xs) by (clear - F; induction F; cbn; congruence). rewrite L.
  destruct (negb (List.length xs =? List.length ys)%nat); [discriminate H|].
  assert (C : Forall2 (fun p p' : Q * Q => times r (fst p) (fst p') /\ snd p' = snd p) (combine xs ys) (combine xs' ys)).
  { clear - F. revert ys. induction F as [|a b l l' A F IH]; intros [|y ys]; cbn [combine]; constructor; auto. }
  destruct C as [|[a b] [a' b'] l l' (A & B) C]; [discriminate H|]. cbn [fst snd] in A, B. subst b'.
  injection H as <-. eexists. split; [reflexivity|]. cbn [nltb QOps]. unfold Qltb.
  rewrite (times_le _ _ _ _ A X). destruct (negb (Qle_bool a x)); [reflexivity|]. apply interp_from_times; auto.
Qed.

Lemma water_level_times : forall h a a' d d' m m' f f' z, times r a a' -> (d' == d)%Q -> times r m m' -> times r f f' ->
  water_level QOps h a d m f = Ok z -> exists z', water_level QOps h a' d' m' f' = Ok z' /\ (z' == z)%Q.
Proof.
  intros h a a' d d' m m' f f' z A D M F H. unfold water_level in *. cbn [neqb nltb ndiv nadd nofZ QOps] in *.
  change (inject_Z 0) with 0%Q in *. rewrite (times_eq _ _ _ _ M times_0).
  assert (E : Qltb (inject_Z 9999 / inject_Z 10000) (f' / m') = Qltb (inject_Z 9999 / inject_Z 10000) (f / m)).
  { unfold Qltb. f_equal. apply eq_true_iff_eq. rewrite !Qle_bool_iff. rewrite (times_div _ _ _ _ F M). reflexivity. }
  rewrite E. destruct (Qeq_bool m 0 || Qltb (inject_Z 9999 / inject_Z 10000) (f / m)).
  - injection H as <-. eexists. split; [reflexivity|]. rewrite D. reflexivity.
  - eapply interp_times; [exact F| |exact H]. apply Forall2_app; [|constructor; [exact M|constructor]].
    constructor; [apply times_0|]. apply inner_rel. apply cumvol_times. exact A.
Qed.

(** ** The hypsometry layer *)
Definition hf_times (f f' : @hyps_feature Q) : Prop :=
  hf_bspot f' = hf_bspot f /\ hf_dict f' = hf_dict f /\
  match hf_cell_area f, hf_cell_area f' with Some a, Some a' => times r a a' | None, None => True | _, _ => False end.

Lemma hyps_io_times : forall to_int pinf ninf lab dem res1 res1' ids zr hfs,
  times r (fst res1 * snd res1) (fst res1' * snd res1') ->
  bluespot_hypsometry_io QOps to_int pinf ninf lab dem res1 ids zr = Ok hfs ->
  exists hfs', bluespot_hypsometry_io QOps to_int pinf ninf lab dem res1' ids zr = Ok hfs' /\ Forall2 hf_times hfs hfs'.
Proof.
  intros to_int pinf ninf lab dem res1 res1' ids zr hfs A H. unfold bluespot_hypsometry_io in *.
  destruct (negb (nltb QOps (nofZ QOps 0) zr)); [discriminate H|].
  destruct (negb ((nrows lab =? nrows dem) && (ncols lab =? ncols dem))); [discriminate H|].
  apply bind_ok in H. destruct H as (mx & Hm & H). rewrite Hm. cbn [bind].
  set (index := fold_left (fun d id => dset Z.eqb d id (mkHF id None None)) ids []) in *.
  apply bind_ok in H. destruct H as (vm & Hv & H). rewrite Hv. cbn [bind].
  destruct (negb (mx =? vm)); [discriminate H|].
  apply bind_ok in H. destruct H as (st & Hs & H). rewrite Hs. cbn [bind].
  apply bind_ok in H. destruct H as (ix & Hi & H). injection H as <-.
  assert (I0 : Forall2 (same_entry hf_times) index index).
  { unfold index. assert (G : forall d, Forall2 (same_entry hf_times) d d ->
      Forall2 (same_entry hf_times) (fold_left (fun d id => dset Z.eqb d id (mkHF id None None)) ids d)
        (fold_left (fun d id => dset Z.eqb d id (mkHF id None None)) ids d)).
    { clear. induction ids as [|i ids IH]; intros d D; cbn [fold_left]; auto. apply IH. apply dset_rel; auto.
      split; [reflexivity|]. split; [reflexivity|exact I]. }
    apply G. constructor. }
  assert (G : forall st d d' ix, Forall2 (same_entry hf_times) d d' ->
    mfold (fun d '(bs_id, s) => pp <- dget_err Z.eqb d bs_id ;;
       Ok (dset Z.eqb d bs_id (mkHF (hf_bspot pp) (Some (hyps_to_flatdict s)) (Some (nmul QOps (fst res1) (snd res1)))))) st d = Ok ix ->
    exists ix', mfold (fun d '(bs_id, s) => pp <- dget_err Z.eqb d bs_id ;;
       Ok (dset Z.eqb d bs_id (mkHF (hf_bspot pp) (Some (hyps_to_flatdict s)) (Some (nmul QOps (fst res1') (snd res1')))))) st d' = Ok ix' /\
      Forall2 (same_entry hf_times) ix ix').
  { clear - A. induction st as [|[b s] st IH]; intros d d' ix D H; cbn [mfold] in *.
    - injection H as <-. exists d'. auto.
    - apply bind_ok in H. destruct H as (d1 & H1 & H). apply bind_ok in H1. destruct H1 as (pp & Hp & H1). injection H1 as <-.
      pose proof (dget_rel hf_times d d' b D) as X. unfold dget_err in *.
      destruct (dget Z.eqb d b) as [f|]; [|discriminate Hp]. injection Hp as <-.
      destruct (dget Z.eqb d' b) as [f'|]; [|contradiction]. cbn [bind].
      eapply IH; [|exact H]. apply dset_rel; auto. split; [apply X|]. split; [reflexivity|exact A]. }
  destruct (G _ _ _ _ I0 Hi) as (ix' & -> & F). cbn [bind]. eexists. split; [reflexivity|].
  clear - F. induction F as [|x y l l' (_ & S) F IH]; cbn [map]; constructor; auto.
Qed.

Definition hi_times (i i' : @hyps_input Q) : Prop :=
  hi_bspot i' = hi_bspot i /\ hi_dict i' = hi_dict i /\ times r (hi_cell_area i) (hi_cell_area i') /\
  (hi_max_depth i' == hi_max_depth i)%Q /\ times r (hi_max_vol i) (hi_max_vol i').

Lemma hyps_inputs_times : forall d d' hfs hfs' his, Forall2 (same_entry (pp_times r)) d d' -> Forall2 hf_times hfs hfs' ->
  mmap (hyps_input_of d) hfs = Ok his -> exists his', mmap (hyps_input_of d') hfs' = Ok his' /\ Forall2 hi_times his his'.
Proof.
  intros d d' hfs hfs' his D F H. refine (mmap_rel hf_times hi_times _ _ _ _ _ _ F H).
  intros f f' i (E1 & E2 & E3) Hi. unfold hyps_input_of in *. rewrite E1, E2.
  pose proof (dget_rel (pp_times r) d d' (hf_bspot f) D) as X. unfold dget_err in *.
  destruct (dget Z.eqb d (hf_bspot f)) as [p|]; [|discriminate Hi]. cbn [bind] in Hi.
  destruct (dget Z.eqb d' (hf_bspot f)) as [p'|]; [|contradiction]. cbn [bind].
  destruct (hf_dict f) as [fd|]; [|discriminate Hi]. destruct (hf_cell_area f) as [a|]; [|discriminate Hi].
  destruct (hf_cell_area f') as [a'|]; [|contradiction]. injection Hi as <-. eexists. split; [reflexivity|].
  split; [reflexivity|]. split; [reflexivity|]. split; [exact E3|]. split; [apply (pt_dmax _ _ _ X)|apply (pt_vol _ _ _ X)].
Qed.

Definition ff_times (f f' : @final_feature Q) : Prop :=
  ff_pourpoint f' = ff_pourpoint f /\ ff_bspot f' = ff_bspot f /\ times r (ff_v f) (ff_v f').

Definition nf_same (n n' : @node_feature Q) : Prop := nf_junction n' = nf_junction n /\ nf_bspot n' = nf_bspot n.

Lemma finals_times : forall d d' fin fin' ffs, Forall2 (same_entry nf_same) d d' -> Forall2 (final_times r) fin fin' ->
  mmap (final_feature_of d) fin = Ok ffs -> exists ffs', mmap (final_feature_of d') fin' = Ok ffs' /\ Forall2 ff_times ffs ffs'.
Proof.
  intros d d' fin fin' ffs D F H. refine (mmap_rel (final_times r) ff_times _ _ _ _ _ _ F H).
  intros [n o] [n' o'] f (E1 & E2 & E3) Hf. cbn [fst snd] in *. unfold final_feature_of in *. cbn [fst snd] in *. rewrite E1.
  pose proof (dget_rel nf_same d d' (n_id n) D) as X. unfold dget_err in *.
  destruct (dget Z.eqb d (n_id n)) as [p|]; [|discriminate Hf]. cbn [bind] in Hf.
  destruct (dget Z.eqb d' (n_id n)) as [p'|]; [|contradiction]. cbn [bind]. destruct X as [X1 X2]. rewrite X1, X2.
  destruct (nf_junction p).
  - injection Hf as <-. eexists. split; [reflexivity|]. split; [reflexivity|]. split; [reflexivity|apply times_0].
  - destruct (nf_bspot p) as [b|]; [|discriminate Hf]. destruct o as [e|]; [|discriminate Hf].
    destruct o' as [e'|]; [|contradiction]. injection Hf as <-. eexists. split; [reflexivity|].
    split; [reflexivity|]. split; [reflexivity|apply E3].
Qed.

Lemma levels_times : forall ffs ffs' his his' ls, Forall2 ff_times ffs ffs' -> Forall2 hi_times his his' ->
  approx_water_level_io QOps ffs his = Ok ls ->
  exists ls', approx_water_level_io QOps ffs' his' = Ok ls' /\ Forall2 (level_times r) ls ls'.
Proof.
  intros ffs ffs' his his' ls F G H. unfold approx_water_level_io in *.
  assert (D : Forall2 (same_entry hi_times) (fold_left (fun d f => dset Z.eqb d (hi_bspot f) f) his [])
                (fold_left (fun d f => dset Z.eqb d (hi_bspot f) f) his' [])).
  { assert (K : forall d d', Forall2 (same_entry hi_times) d d' ->
      Forall2 (same_entry hi_times) (fold_left (fun d f => dset Z.eqb d (hi_bspot f) f) his d)
                (fold_left (fun d f => dset Z.eqb d (hi_bspot f) f) his' d')).
    { clear - G. induction G as [|p p' l l' P G IH]; intros d d' D; cbn [fold_left]; auto.
      apply IH. rewrite (proj1 P). apply dset_rel; auto. }
    apply K. constructor. }
  assert (FF : Forall2 ff_times (filter ff_pourpoint ffs) (filter ff_pourpoint ffs')).
  { clear - F. induction F as [|f f' l l' P F IH]; cbn [filter]; [constructor|]. rewrite (proj1 P).
    destruct (ff_pourpoint f); [constructor|]; auto. }
  refine (mmap_rel ff_times (level_times r) _ _ _ _ _ _ FF H).
  intros f f' u (E1 & E2 & E3) Hu. rewrite E2.
  pose proof (dget_rel hi_times _ _ (ff_bspot f) D) as X. unfold dget_err in *.
  destruct (dget Z.eqb (fold_left (fun d f => dset Z.eqb d (hi_bspot f) f) his []) (ff_bspot f)) as [i|]; [|discriminate Hu].
  cbn [bind] in Hu.
  destruct (dget Z.eqb (fold_left (fun d f => dset Z.eqb d (hi_bspot f) f) his' []) (ff_bspot f)) as [i'|]; [|contradiction].
  cbn [bind]. destruct X as (X1 & X2 & X3 & X4 & X5). rewrite X2.
  apply bind_ok in Hu. destruct Hu as (h & Hh & Hu). rewrite Hh. cbn [bind].
  apply bind_ok in Hu. destruct Hu as (z & Hz & Hu). injection Hu as <-.
  destruct (water_level_times h _ _ _ _ _ _ _ _ z X3 X4 X5 E3 Hz) as (z' & -> & Ez). cbn [bind].
  eexists. split; [reflexivity|]. split; [reflexivity|]. split; [exact E3|]. cbn [lf_z lf_dmax nsub QOps].
  split; [exact Ez|]. rewrite Ez. reflexivity.
Qed.

(** ** The final rasters *)
Lemma list_rd_rel : forall {X Y} (P : X -> Y -> Prop) l l' i x, Forall2 P l l' -> list_rd l i = Ok x ->
  exists y, list_rd l' i = Ok y /\ P x y.
Proof.
  intros X Y P l l' i x F H. unfold list_rd in *.
  assert (L : List.length l' = List.length l) by (clear - F; induction F; cbn; congruence). rewrite L.
  destruct (pyidx (Z.of_nat (List.length l)) i) as [k|]; [|discriminate H].
  assert (N : forall k, match nth_error l k, nth_error l' k with Some a, Some b => P a b | None, None => True | _, _ => False end).
  { clear - F. induction F; intros [|k]; cbn; auto; apply IHF || exact I. }
  specialize (N (Z.to_nat k)). destruct (nth_error l (Z.to_nat k)) as [a|]; [|discriminate H]. injection H as <-.
  destruct (nth_error l' (Z.to_nat k)) as [b|]; [|contradiction]. exists b. auto.
Qed.

Lemma map_fst_rel : forall {X Y} (P : X -> Y -> Prop) d d', Forall2 (same_entry P) d d' -> map fst d' = map fst d.
Proof. intros X Y P d d' F. induction F as [|x y l l' (E & _) F IH]; cbn [map]; congruence. Qed.

Lemma rasters_times : forall lab ls ls' dem depths labels, Forall2 (level_times r) ls ls' ->
  approx_bluespots_io QOps lab (map (fun o => (true, lf_bspot o, lf_z o)) ls) dem true true 0 = Ok (Some depths, Some labels) ->
  exists depths' labels', approx_bluespots_io QOps lab (map (fun o => (true, lf_bspot o, lf_z o)) ls') dem true true 0 = Ok (Some depths', Some labels') /\
  equal_raster depths depths' /\ nrows labels' = nrows labels /\ ncols labels' = ncols labels /\
  forall c, inside (nrows labels) (ncols labels) c -> at_ labels' c = at_ labels c.
Proof.
  intros lab ls ls' dem depths labels F H. unfold approx_bluespots_io in *. cbn [negb andb] in *.
  set (step := fun (d : list (Z * Q)) '(pp, id, z) => if (pp : bool) then dset Z.eqb d id z else d) in *.
  assert (D : Forall2 (same_entry Qeq) (fold_left step (map (fun o => (true, lf_bspot o, lf_z o)) ls) [])
                (fold_left step (map (fun o => (true, lf_bspot o, lf_z o)) ls') [])).
  { assert (K : forall d d', Forall2 (same_entry Qeq) d d' ->
      Forall2 (same_entry Qeq) (fold_left step (map (fun o => (true, lf_bspot o, lf_z o)) ls) d)
                (fold_left step (map (fun o => (true, lf_bspot o, lf_z o)) ls') d')).
    { clear H. induction F as [|l l' m m' (E1 & E2 & E3 & E4) F IH]; intros d d' D; cbn [map fold_left]; auto.
      apply IH. change (step d (true, lf_bspot l, lf_z l)) with (dset Z.eqb d (lf_bspot l) (lf_z l)); change (step d' (true, lf_bspot l', lf_z l')) with (dset Z.eqb d' (lf_bspot l') (lf_z l')). rewrite E1. apply dset_rel; auto. symmetry. exact E3. }
    apply K. constructor. }
  set (dl := fold_left step (map (fun o => (true, lf_bspot o, lf_z o)) ls) []) in *.
  set (dl' := fold_left step (map (fun o => (true, lf_bspot o, lf_z o)) ls') []) in *.
  apply bind_ok in H. destruct H as (vs & Hv & H). apply bind_ok in H. destruct H as (mx & Hm & H).
  assert (V : exists vs', labelvaluedict_to_list dl' 0 (background_level QOps) = Ok vs' /\ Forall2 Qeq vs vs').
  { unfold labelvaluedict_to_list in *. rewrite (map_fst_rel _ _ _ D).
    apply bind_ok in Hv. destruct Hv as (ml & Hl & Hv). rewrite Hl. cbn [bind].
    refine (mmap_rel eq Qeq _ _ _ _ _ _ _ Hv).
    - intros x y u <- Hu. destruct (x =? 0); [injection Hu as <-; eexists; split; [reflexivity|apply Qeq_refl]|].
      pose proof (dget_rel Qeq dl dl' x D) as X. unfold dget_err in *.
      destruct (dget Z.eqb dl x) as [q|]; [|discriminate Hu]. injection Hu as <-.
      destruct (dget Z.eqb dl' x) as [q'|]; [|contradiction]. eexists. split; [reflexivity|exact X].
    - generalize (pyrange 0 (ml + 1) 1). intros l. induction l; constructor; auto. }
  destruct V as (vs' & -> & FV). cbn [bind].
  unfold set_label_to_value in *. apply bind_ok in Hm. destruct Hm as (us & Hu & Hm). injection Hm as <-.
  destruct (mmap_rel eq Qeq (list_rd vs) (list_rd vs')
    (fun x y u (E : x = y) Hx => eq_ind x (fun y => exists v, list_rd vs' y = Ok v /\ (u == v)%Q) (list_rd_rel Qeq vs vs' x u FV Hx) y E)
    (ravel lab) (ravel lab) us) as (us' & -> & _); [|exact Hu|].
  { generalize (ravel lab). intros l. induction l; constructor; auto. }
  cbn [bind]. destruct (negb ((nrows lab =? nrows dem) && (ncols lab =? ncols dem))); [discriminate H|].
  injection H as <- <-. eexists. eexists. split; [reflexivity|].
  assert (W : forall i j, let w := fun vs => match list_rd vs (rget lab i j) with Ok v => v | _ => nofZ QOps 0 end in (w vs == w vs')%Q).
  { intros i j. cbv beta zeta. destruct (list_rd vs (rget lab i j)) as [q|q|] eqn:E1.
    - destruct (list_rd_rel Qeq vs vs' _ q FV E1) as (q' & -> & Eq). exact Eq.
    - destruct (list_rd vs' (rget lab i j)) as [q'|q'|] eqn:E2; try reflexivity.
      assert (FV' : Forall2 Qeq vs' vs) by (clear - FV; induction FV; constructor; auto; symmetry; auto).
      destruct (list_rd_rel Qeq vs' vs _ q' FV' E2) as (q2 & E3 & _). congruence.
    - destruct (list_rd vs' (rget lab i j)) as [q'|q'|] eqn:E2; try reflexivity.
      assert (FV' : Forall2 Qeq vs' vs) by (clear - FV; induction FV; constructor; auto; symmetry; auto).
      destruct (list_rd_rel Qeq vs' vs _ q' FV' E2) as (q2 & E3 & _). congruence. }
  cbv beta zeta in W.
  assert (B : forall i j, let w := fun vs => nltb QOps (nsub QOps (match list_rd vs (rget lab i j) with Ok v => v | _ => nofZ QOps 0 end) (rget dem i j)) (nofZ QOps 0) in w vs' = w vs).
  { intros i j. cbv beta zeta. cbn [nltb nsub QOps]. unfold Qltb. f_equal. apply eq_true_iff_eq. rewrite !Qle_bool_iff, (W i j). reflexivity. }
  cbv beta zeta in B. cbn [nltb nsub nofZ QOps] in W, B |- *. split.
  - split; [reflexivity|]. split; [reflexivity|]. intros [i j] _. unfold at_. cbn [rget fst snd].
    pose proof (B i j) as Bij. pose proof (W i j) as Wij. revert Bij Wij.
    generalize (match list_rd vs (rget lab i j) with Ok v => v | _ => inject_Z 0 end) (match list_rd vs' (rget lab i j) with Ok v => v | _ => inject_Z 0 end).
    intros w w' Bij Wij. rewrite Bij.
    destruct (Qltb (w - rget dem i j) (inject_Z 0)); [reflexivity|]. rewrite Wij. reflexivity.
  - split; [reflexivity|]. split; [reflexivity|]. intros [i j] _. unfold at_. cbn [rget fst snd]. rewrite B. reflexivity.
Qed.
End Scale.

(** ** The whole command *)
Theorem complete_times : forall cc sp fuel (t t' : geotransform b64) dem f f' (use_accum : bool) mm zres r a,
  (0 < r)%Q -> times r (area_of t) (area_of t') -> square_cells (gt1 t') (gt5 t') = true ->
  (forall mn mx sm n, f' (mkUnit mn mx sm n (f64_mul sm (cell_area F64Ops t')) (f64_mul (f64_ofZ n) (cell_area F64Ops t'))) =
                      f (mkUnit mn mx sm n (f64_mul sm (cell_area F64Ops t)) (f64_mul (f64_ofZ n) (cell_area F64Ops t)))) ->
  complete_all sp cc fuel t dem f use_accum mm zres = Ok a ->
  exists a', complete_all sp cc fuel t' dem f' use_accum mm zres = Ok a' /\
  ca_dem a' = ca_dem a /\
  bo_labeled (ca_bluespots a') = bo_labeled (ca_bluespots a) /\ bo_nlabels (ca_bluespots a') = bo_nlabels (ca_bluespots a) /\
  bo_watersheds (ca_bluespots a') = bo_watersheds (ca_bluespots a) /\
  Forall2 (pp_times r) (ca_pourpoints a) (ca_pourpoints a') /\
  Forall2 (node_times r) (co_nodes (ca_volumes a)) (co_nodes (ca_volumes a')) /\
  Forall2 (final_times r) (co_final (ca_volumes a)) (co_final (ca_volumes a')) /\
  Forall2 (level_times r) (fo_levels (ca_finish a)) (fo_levels (ca_finish a')) /\
  equal_raster (fo_depths (ca_finish a)) (fo_depths (ca_finish a')) /\
  nrows (fo_labels (ca_finish a')) = nrows (fo_labels (ca_finish a)) /\ ncols (fo_labels (ca_finish a')) = ncols (fo_labels (ca_finish a)) /\
  (forall c, inside (nrows (fo_labels (ca_finish a))) (ncols (fo_labels (ca_finish a))) c ->
     at_ (fo_labels (ca_finish a')) c = at_ (fo_labels (ca_finish a)) c).
Proof.
  intros cc sp fuel t t' dem f f' use_accum mm zres r a R0 A SQ FF H. unfold complete_all in *.
  apply bind_ok in H. destruct H as (dout & HD & H).
  assert (HD' : dem_process sp fuel (gt1 t') (gt5 t') dem = Ok dout).
  { unfold dem_process in *. rewrite SQ. destruct (negb (square_cells (gt1 t) (gt5 t))); [discriminate HD|]. exact HD. }
  rewrite HD'. cbn [bind]. apply bind_ok in H. destruct H as (out & HB & H).
  destruct (bluespots_times t t' sp cc fuel _ _ f f' _ _ out FF SQ HB) as (out' & HB' & L1 & L2 & L3 & L4).
  rewrite HB'. cbn [bind]. apply bind_ok in H. destruct H as (pps & HP & H).
  destruct (exact_times r R0 t t' A _ _ _ _ L1 L3 L4 HP) as (pps' & HP' & FP). rewrite HP'. cbn [bind].
  apply bind_ok in H. destruct H as ([nodes streams] & HS & H). rewrite L1.
  assert (PIX : map (fun p : @pourpoint Q => (pp_row p, pp_col p)) pps' = map (fun p : @pourpoint Q => (pp_row p, pp_col p)) pps).
  { clear - FP. induction FP as [|p p' l l' P F IH]; cbn [map]; [reflexivity|]. rewrite (pt_row _ _ _ P), (pt_col _ _ _ P), IH. reflexivity. }
  unfold stream_process in HS |- *. rewrite PIX. apply bind_ok in HS. destruct HS as (gs & HG & HS). rewrite HG. cbn [bind].
  injection HS as HN HT. pose proof (pp_index_times r pps pps' FP) as FI.
  set (nodes' := map (make_node QOps (gt_Q t') (fold_left (fun d p => dset Z.eqb d (pp_id p) p) pps' [])) gs).
  pose proof (volumes_times r mm nodes nodes' (gt_Q t) (gt_Q t') _ _ gs FI (eq_sym HN) eq_refl) as FV.
  apply bind_ok in H. destruct H as (fin & HF & H). apply bind_ok in H. destruct H as (fo & HO & H). injection H as <-.
  assert (FS : Forall2 (solver_times r) (map solver_node (simple_volumes QOps mm nodes)) (map solver_node (simple_volumes QOps mm nodes'))).
  { clear - FV. induction FV as [|n n' l l' N F IH]; cbn [map]; constructor; auto. destruct N.
    split; [auto|]. split; [auto|]. split; auto. }
  assert (LV : List.length (simple_volumes QOps mm nodes') = List.length (simple_volumes QOps mm nodes)) by (clear - FV; induction FV; cbn; congruence).
  destruct (process_times r R0 _ _ _ _ FS HF) as (fin' & HF' & FE); [rewrite map_length; apply le_n|].
  rewrite <- LV in HF'. rewrite HF'. cbn [bind].
  (* the last steps *)
  unfold finish in HO |- *.
  apply bind_ok in HO. destruct HO as (hfs & HH & HO).
  assert (PI : map pp_id pps' = map pp_id pps).
  { clear - FP. induction FP as [|p p' l l' P F IH]; cbn [map]; [reflexivity|]. rewrite (pt_id _ _ _ P), IH. reflexivity. }
  rewrite PI.
  assert (A' : times r (fst (Qabs (b64_Q (gt5 t)), Qabs (b64_Q (gt1 t))) * snd (Qabs (b64_Q (gt5 t)), Qabs (b64_Q (gt1 t))))%Q
                 (fst (Qabs (b64_Q (gt5 t')), Qabs (b64_Q (gt1 t'))) * snd (Qabs (b64_Q (gt5 t')), Qabs (b64_Q (gt1 t'))))%Q).
  { cbn [fst snd]. unfold times, area_of in *. rewrite Qmult_comm, A. ring. }
  destruct (hyps_io_times r _ _ _ _ _ _ (Qabs (b64_Q (gt5 t')), Qabs (b64_Q (gt1 t'))) _ _ hfs A' HH) as (hfs' & -> & FH). cbn [bind].
  apply bind_ok in HO. destruct HO as (his & HI & HO).
  destruct (hyps_inputs_times r _ _ _ _ his FI FH HI) as (his' & -> & FHI). cbn [bind].
  apply bind_ok in HO. destruct HO as (ffs & HFF & HO).
  assert (NI : Forall2 (same_entry nf_same) (fold_left (fun d nv => dset Z.eqb d (nf_id (fst nv)) (fst nv)) (simple_volumes QOps mm nodes) [])
                 (fold_left (fun d nv => dset Z.eqb d (nf_id (fst nv)) (fst nv)) (simple_volumes QOps mm nodes') [])).
  { assert (K : forall d d', Forall2 (same_entry nf_same) d d' ->
      Forall2 (same_entry nf_same) (fold_left (fun d nv => dset Z.eqb d (nf_id (fst nv)) (fst nv)) (simple_volumes QOps mm nodes) d)
                 (fold_left (fun d nv => dset Z.eqb d (nf_id (fst nv)) (fst nv)) (simple_volumes QOps mm nodes') d')).
    { clear - FV. induction FV as [|n n' l l' N F IH]; intros d d' D; cbn [fold_left]; auto.
      apply IH. rewrite (nt_id _ _ _ N). apply dset_rel; auto. split; [apply (nt_junction _ _ _ N)|apply (nt_bspot _ _ _ N)]. }
    apply K. constructor. }
  destruct (finals_times r _ _ _ _ ffs NI FE HFF) as (ffs' & -> & FFF). cbn [bind].
  apply bind_ok in HO. destruct HO as (ls & HL & HO).
  destruct (levels_times r R0 _ _ _ _ ls FFF FHI HL) as (ls' & -> & FL). cbn [bind].
  apply bind_ok in HO. destruct HO as ([dep lab] & HR & HO).
  destruct dep as [dep|]; [|discriminate HO]. destruct lab as [lab|]; [|discriminate HO]. injection HO as <-.
  destruct (rasters_times r _ _ _ _ dep lab FL HR) as (dep' & lab' & -> & RD & R1 & R2 & R3). cbn [bind].
  eexists. split; [reflexivity|]. cbn [ca_dem ca_bluespots ca_pourpoints ca_volumes ca_finish co_nodes co_final fo_levels fo_depths fo_labels].
  repeat (split; [assumption || reflexivity|]). exact R3.
Qed.

(** The bluespots of at least 8 m2, with cells of 2 m and of 6 m. *)
Definition wide_gt : geotransform b64 := mkGT (f64_ofZ 7) (f64_ofZ 6) f64_zero (f64_ofZ 5) f64_zero (f64_ofZ (-6)).
Definition unit_dem : raster b64 := zrows [[9;9;9;9;9;9]; [9;3;9;4;4;8]; [9;9;9;9;9;9]].

Lemma at_run_ok : forall r p, at_run r p = true -> exists a, r = Ok a /\ p a = true.
Proof. intros r p H. destruct r as [a|x|]; cbn [at_run] in H; [exists a; auto|discriminate H|discriminate H]. Qed.

Theorem fixed_filter : exists cc sp fuel (t t' : geotransform b64) dem f (use_accum : bool) mm zres r a a',
  (0 < r)%Q /\ times r (area_of t) (area_of t') /\ square_cells (gt1 t') (gt5 t') = true /\ labels_components cc /\
  complete_all sp cc fuel t dem f use_accum mm zres = Ok a /\ complete_all sp cc fuel t' dem f use_accum mm zres = Ok a' /\
  bo_nlabels (ca_bluespots a') <> bo_nlabels (ca_bluespots a).
Proof.
  assert (C : at_run (complete_all false cc_memo 20 ex_gt unit_dem bs_filter true 500%Q 1%Q) (fun a =>
    at_run (complete_all false cc_memo 20 wide_gt unit_dem bs_filter true 500%Q 1%Q) (fun a' =>
    negb (bo_nlabels (ca_bluespots a') =? bo_nlabels (ca_bluespots a)))) = true) by (vm_compute; reflexivity).
  apply at_run_ok in C. destruct C as (a & E & C). apply at_run_ok in C. destruct C as (a' & E' & C).
  exists cc_memo, false, 20%nat, ex_gt, wide_gt, unit_dem, bs_filter, true, 500%Q, 1%Q, 9%Q, a, a'.
  split; [reflexivity|]. split; [vm_compute; reflexivity|]. split; [vm_compute; reflexivity|].
  split; [apply cc_memo_ok|]. split; [exact E|]. split; [exact E'|].
  apply Bool.negb_true_iff, Z.eqb_neq in C. exact C.
Qed.
