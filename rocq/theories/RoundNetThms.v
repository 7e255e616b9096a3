(** * Accuracy of the computed final state *)

From Coq Require Import QArith Qabs Qreals Qminmax Reals Lqa Lra Lia.
From Flocq Require Import Core IEEE754.BinarySingleNaN.
From Verif Require Import Base BaseProofs Num Float64 Float64Proofs Float64Arith Dict FillModel FillProofs FillSpec PipelineModel
  FloatQ NetworkModel NetworkSpec NetworkFloatSpec NetworkProofs NetworkThms NetworkFloatThms RoundSpec RoundNetProofs.
Local Open Scope Z_scope.

(** One node, computed. *)
Lemma settle_parts : forall (n : @node b64) l, nonneg64 (n_water n) -> nonneg64 (n_cap n) -> (forall x, In x l -> pos64 x) ->
  finite64 (e_spill (settle F64Ops n (pysum F64Ops l))) ->
  let v := B2R (e_vol (settle F64Ops n (pysum F64Ops l))) in
  let s := B2R (e_spill (settle F64Ops n (pysum F64Ops l))) in
  exists t, (Rabs (t - (B2R (n_water n) + Rsum (map B2R l))) <= INR (length l) * u53 * t /\
    v = Rmin t (B2R (n_cap n)) /\ Rabs (s - Rmax (t - B2R (n_cap n)) 0) <= u53 * s /\ 0 <= t <= 2 * (v + s) /\ 0 <= s /\ 0 <= v)%R /\
    (forall x, In x l -> is_finite x = true).
Proof.
  intros n l [Fw Pw] [Fc Pc] Pl.
  rewrite le64_rank in Pw, Pc by (auto using finite_not_nan; reflexivity). change (rank f64_zero) with 0 in *.
  assert (PW : pos64 (n_water n)) by (split; auto using finite_not_nan).
  pose proof (pysum_nonneg64 l Pl) as PU.
  assert (PT : pos64 (f64_add (n_water n) (pysum F64Ops l))) by (destruct PW, PU; apply add_nonneg; auto).
  pose proof (total_err (n_water n) l PW Pl) as T.
  unfold settle. cbn [e_vol e_spill]. unfold pymin, pymax. cbn [nltb nadd nsub nofZ F64Ops]. rewrite f64_ofZ0.
  set (t := f64_add (n_water n) (pysum F64Ops l)) in *. set (c := n_cap n) in *. clearbody t c. destruct PT as [Nt Pt].
  pose proof (finite_not_nan _ Fc) as Nc.
  assert (Z0 : rank f64_zero = 0) by reflexivity. assert (NZ : not_nan f64_zero) by reflexivity.
  pose proof (sub_not_nan t c Nt Fc) as N1.
  pose proof u53_pos as U.
  cbv zeta. rewrite !Bltb_rank, Z0 by auto.
  destruct (Z.ltb_spec (rank c) (rank t)) as [L|L].
  - intros Hs.
    assert (Ft : is_finite t = true).
    { destruct (not_nan_cases t Nt) as [?|[E|E]]; auto; subst t.
      - exfalso. rewrite sub_add_opp, add_inf_l in Hs by (apply opp_finite; auto).
        rewrite rank_pinf in Hs. pose proof RINF_pos. destruct (Z.ltb_spec 0 RINF); [discriminate Hs | lia].
      - rewrite rank_ninf in Pt. pose proof RINF_pos. lia. }
    destruct (T Ft) as (_ & Fl & E). exists (B2R t). split; [|exact Fl].
    assert (0 <= rank (f64_sub t c)).
    { pose proof (sub_mono c t c Nc Nt Fc). rewrite sub_self_rank in H by auto. lia. }
    assert (Fs : is_finite (f64_sub t c) = true /\
      B2R (if 0 <? rank (f64_sub t c) then f64_sub t c else f64_zero) = B2R (f64_sub t c)).
    { destruct (Z.ltb_spec 0 (rank (f64_sub t c))) as [P|P]; [auto|].
      assert (E0 : rank (f64_sub t c) = 0) by lia.
      assert (Ff : is_finite (f64_sub t c) = true) by (apply rank_finite; auto; pose proof RINF_pos; lia).
      split; auto. rewrite (B2R_rank (f64_sub t c)), E0 by auto. cbn. lra. }
    destruct Fs as [Fs FF]. unfold b64 in *. rewrite FF. clear Hs FF.
    assert (Lr : (B2R c < B2R t)%R) by (apply rank_lt_R; auto).
    rewrite sub_add_opp in Fs. pose proof (add_err _ _ Ft (opp_finite _ Fc) Fs) as Es.
    rewrite <- sub_add_opp in Es, Fs. rewrite B2R_Bopp in Es.
    pose proof (pos64_R _ Fs H) as Ps. rewrite (Rabs_pos_eq (B2R (f64_sub t c))) in Es by auto.
    pose proof (pos64_R _ Fc Pc) as Pc'. pose proof (pos64_R _ Ft Pt) as Pt'.
    set (s := B2R (f64_sub t c)) in *. set (v := B2R c) in *. set (tt := B2R t) in *. clearbody s v tt.
    assert (Es' : (tt <= v + s + u53 * s)%R) by ((revert Es; unfold Rabs; destruct (Rcase_abs _); lra)).
    assert (u53 * s <= s)%R by (rewrite <- (Rmult_1_l s) at 2; apply Rmult_le_compat_r; lra).
    split; [exact E|]. split; [rewrite Rmin_right; lra|]. split; [rewrite Rmax_left by lra; exact Es|]. lra.
  - assert (L2 : rank (f64_sub t c) <= 0).
    { pose proof (sub_mono t c c Nt Nc Fc L). rewrite sub_self_rank in H by auto. lia. }
    destruct (Z.ltb_spec 0 (rank (f64_sub t c))); [lia|]. intros _.
    assert (Ft : is_finite t = true).
    { apply rank_finite; auto. pose proof (rank_finite_bound c Fc). pose proof RINF_pos. lia. }
    destruct (T Ft) as (_ & Fl & E). pose proof (pos64_R _ Ft Pt) as Pt'. exists (B2R t). split; [|exact Fl].
    assert (Lr : (B2R t <= B2R c)%R) by (apply rank_le_R; auto).
    change (B2R f64_zero) with 0%R. unfold b64 in *.
    split; [exact E|]. split; [rewrite Rmin_left; lra|]. split; [|lra].
    rewrite Rmax_right by lra. rewrite Rminus_0_r, Rabs_R0. lra.
Qed.

Lemma Rmin_lip : forall a b c d, (Rabs (Rmin a b - Rmin c d) <= Rabs (a - c) + Rabs (b - d))%R.
Proof. intros. unfold Rmin. repeat destruct (Rle_dec _ _); unfold Rabs; repeat destruct (Rcase_abs _); lra. Qed.
Lemma Rmax_lip : forall a c, (Rabs (Rmax a 0 - Rmax c 0) <= Rabs (a - c))%R.
Proof. intros. unfold Rmax. repeat destruct (Rle_dec _ _); unfold Rabs; repeat destruct (Rcase_abs _); lra. Qed.

Lemma settle_Q_R : forall (q : @node Q) l,
  (Q2R (e_vol (settle QOps q (pysum QOps l))) = Rmin (Q2R (n_water q) + Rsum (map Q2R l)) (Q2R (n_cap q)) /\
   Q2R (e_spill (settle QOps q (pysum QOps l))) = Rmax (Q2R (n_water q) + Rsum (map Q2R l) - Q2R (n_cap q)) 0)%R.
Proof.
  intros q l. unfold settle. cbn [e_vol e_spill]. unfold pymin, pymax. cbn [nltb nadd nsub nofZ QOps].
  assert (E : (Q2R (n_water q + pysum QOps l) = Q2R (n_water q) + Rsum (map Q2R l))%R).
  { rewrite Q2R_plus, <- Q2R_Qsum. f_equal. apply Qeq_eqR. unfold pysum. cbn [nadd nofZ QOps]. rewrite pysum_Q. change (inject_Z 0) with 0%Q. ring. }
  set (t := (n_water q + pysum QOps l)%Q) in *. rewrite <- E. set (c := n_cap q). clearbody t c. clear E.
  assert (Q0 : Q2R (inject_Z 0) = 0%R) by (unfold Q2R; cbn; lra).
  assert (B : forall a b, (Qltb a b = true /\ (Q2R a < Q2R b)%R) \/ (Qltb a b = false /\ (Q2R b <= Q2R a)%R)).
  { intros a b. unfold Qltb. destruct (Qle_bool b a) eqn:X; cbn [negb].
    - right. split; auto. apply Qle_Rle. apply Qle_bool_iff. exact X.
    - left. split; auto. apply Rnot_le_lt. intros Y. apply Rle_Qle in Y. apply Qle_bool_iff in Y. congruence. }
  split.
  - destruct (B c t) as [[-> H]|[-> H]]; [rewrite Rmin_right|rewrite Rmin_left]; lra.
  - destruct (B (inject_Z 0) (t - c)%Q) as [[-> H]|[-> H]]; rewrite Q2R_minus, Q0 in H; rewrite ?Q0, ?Q2R_minus;
      [rewrite Rmax_left|rewrite Rmax_right]; lra.
Qed.

Lemma Rsum_diff : forall l l', length l = length l' -> 
  (Rabs (Rsum l - Rsum l') <= Rsum (map (fun p => Rabs (fst p - snd p)) (combine l l')))%R.
Proof.
  induction l as [|x l IH]; intros [|y l'] E; try discriminate; cbn [Rsum combine map fst snd].
  - rewrite Rminus_0_r, Rabs_R0. lra.
  - injection E as E. replace (x + Rsum l - (y + Rsum l'))%R with ((x - y) + (Rsum l - Rsum l'))%R by ring.
    eapply Rle_trans; [apply Rabs_triang|]. apply Rplus_le_compat_l. apply IH. exact E.
Qed.

Lemma settle_near : forall (n : @node b64) (q : @node Q) l l', nonneg64 (n_water n) -> nonneg64 (n_cap n) ->
  (forall x, In x l -> pos64 x) -> length l = length l' ->
  finite64 (e_spill (settle F64Ops n (pysum F64Ops l))) ->
  let v := e_vol (settle F64Ops n (pysum F64Ops l)) in let s := e_spill (settle F64Ops n (pysum F64Ops l)) in
  let bound := (Qabs (b64_Q (n_water n) - n_water q) + Qabs (b64_Q (n_cap n) - n_cap q) +
    (1 # 2 ^ 52) * (inject_Z (1 + Z.of_nat (length l)) * (b64_Q v + b64_Q s)) +
    Qsum (map (fun p => Qabs (b64_Q (fst p) - snd p)) (combine l l')))%Q in
  (Qabs (b64_Q v - e_vol (settle QOps q (pysum QOps l'))) <= bound)%Q /\
  (Qabs (b64_Q s - e_spill (settle QOps q (pysum QOps l'))) <= bound)%Q.
Proof.
  intros n q l l' Pw Pc Pl EL Fs v s bound.
  destruct (settle_parts n l Pw Pc Pl Fs) as (t & (E1 & E2 & E3 & E4 & E5 & E6) & _). fold v s in E2, E3, E4, E5, E6.
  destruct (settle_Q_R q l') as [Q1 Q2].
  set (w' := Q2R (n_water q)) in *. set (c' := Q2R (n_cap q)) in *. set (t' := (w' + Rsum (map Q2R l'))%R) in *.
  set (SD := Rsum (map (fun p => Rabs (fst p - snd p)) (combine (map B2R l) (map Q2R l')))).
  assert (EB : (Q2R bound = Rabs (B2R (n_water n) - w') + Rabs (B2R (n_cap n) - c') +
    2 * u53 * ((1 + INR (length l)) * (B2R v + B2R s)) + SD)%R).
  { unfold bound. rewrite !Q2R_plus, !Q2R_mult, !Qabs_R, !Q2R_minus, Q2R_plus, !b64_Q_R. fold w' c'. f_equal; [f_equal|].
    - replace (Q2R (1 # 2 ^ 52)) with (2 * u53)%R.
      2:{ unfold Q2R, u53. cbn [Qnum Qden]. change (-53) with (- (53)). rewrite bpow_opp, <- (IZR_Zpower radix2) by lia.
          change (radix2 ^ 53) with (2 * Z.pos (2 ^ 52)). rewrite mult_IZR. field. apply IZR_neq. discriminate. }
      f_equal. f_equal. unfold Q2R, inject_Z. cbn [Qnum Qden]. rewrite plus_IZR, <- INR_IZR_INZ. lra.
    - rewrite Q2R_Qsum, map_map. unfold SD. clear - EL. revert l' EL. induction l as [|x l IH]; intros [|y l'] EL; try discriminate; [reflexivity|].
      cbn [combine map Rsum fst snd]. rewrite Qabs_R, Q2R_minus, b64_Q_R. f_equal. apply IH. injection EL as EL. exact EL. }
  pose proof u53_pos as U. pose proof (pos_INR (length l)) as Pd.
  assert (T : (Rabs (t - t') <= Rabs (B2R (n_water n) - w') + SD + 2 * u53 * (INR (length l) * (B2R v + B2R s)))%R).
  { replace (t - t')%R with ((t - (B2R (n_water n) + Rsum (map B2R l))) + ((B2R (n_water n) - w') + (Rsum (map B2R l) - Rsum (map Q2R l'))))%R
      by (unfold t'; ring).
    eapply Rle_trans; [apply Rabs_triang|].
    pose proof (Rabs_triang (B2R (n_water n) - w') (Rsum (map B2R l) - Rsum (map Q2R l'))).
    pose proof (Rsum_diff (map B2R l) (map Q2R l')) as S. rewrite !map_length in S. specialize (S EL). fold SD in S.
    assert (INR (length l) * u53 * t <= INR (length l) * u53 * (2 * (B2R v + B2R s)))%R.
    { apply Rmult_le_compat_l; [apply Rmult_le_pos; lra|lra]. }
    lra. }
  assert (V0 : (0 <= u53 * (B2R v + B2R s))%R) by (apply Rmult_le_pos; lra).
  assert (V1 : (u53 * B2R s <= u53 * (B2R v + B2R s))%R) by (apply Rmult_le_compat_l; lra).
  replace (2 * u53 * ((1 + INR (length l)) * (B2R v + B2R s)))%R
    with (2 * (u53 * (B2R v + B2R s)) + 2 * u53 * (INR (length l) * (B2R v + B2R s)))%R in EB by ring.
  set (Y := (u53 * (B2R v + B2R s))%R) in *. set (N := (2 * u53 * (INR (length l) * (B2R v + B2R s)))%R) in *.
  split; apply Rle_Qle; rewrite Qabs_R, Q2R_minus, EB, b64_Q_R.
  - rewrite Q1, E2. eapply Rle_trans; [apply Rmin_lip|]. lra.
  - rewrite Q2. replace (B2R s - Rmax (t' - c') 0)%R with ((B2R s - Rmax (t - B2R (n_cap n)) 0) + (Rmax (t - B2R (n_cap n)) 0 - Rmax (t' - c') 0))%R by ring.
    eapply Rle_trans; [apply Rabs_triang|]. pose proof (Rmax_lip (t - B2R (n_cap n)) (t' - c')) as M.
    replace (t - B2R (n_cap n) - (t' - c'))%R with ((t - t') + - (B2R (n_cap n) - c'))%R in M by ring.
    pose proof (Rabs_triang (t - t') (- (B2R (n_cap n) - c'))) as M2. rewrite Rabs_Ropp in M2.
    lra.
Qed.

(** ** The written results as settled events *)
Lemma out_events : forall {T} (ops : NumOps T) (fs : list (@node T)) fuel out, unique_ids fs -> acyclic_closed fs ->
  process ops fuel fs = Ok out ->
  map fst out = fs /\
  (forall n o, In (n, o) out -> exists e ue, o = Some e /\
     Forall2 (fun u e' => In (u, Some e') out) (direct_upstream fs (n_id n)) ue /\
     e = settle ops n (pysum ops (map e_spill ue))) /\
  (exists l, ordered fs l /\ forall n, In n fs -> In (n_id n) l).
Proof.
  intros T ops fs fuel out UI AC H. destruct (process_spec _ _ _ _ H) as (M & evs & E & A & B).
  destruct (all_written _ _ _ _ UI AC H) as [M' W].
  rewrite index_unique in E by exact UI. destruct (rain_event_inv ops fs UI fuel evs E) as (rv & Ev & G & K).
  pose proof (good_nodup _ _ _ G) as NDk.
  assert (Look : forall n e, In n fs -> In (n_id n, e) rv -> In (n, Some e) out).
  { intros n e Hn He. rewrite <- M' in Hn. apply in_map_iff in Hn. destruct Hn as ((n' & o) & X & Hp). cbn in X. subst n'.
    destruct (W n o Hp) as (e' & -> & Ei'). destruct (A n e' Hp) as (He' & _). rewrite Ev in He'. apply in_map_iff in He'.
    destruct He' as ((k & x) & X & Hi). cbn in X. subst x. pose proof (good_id _ _ _ G _ _ Hi) as Ek. rewrite Ei' in Ek. subst k.
    assert (P : (n_id n, e) = (n_id n, e')) by (apply (NoDup_map_inj fst _ _ _ NDk He Hi); reflexivity). congruence. }
  split; [exact M'|]. split.
  - intros n o Hp. destruct (W n o Hp) as (e & -> & Ei). destruct (A n e Hp) as (He & _). exists e.
    rewrite Ev in He. apply in_map_iff in He. destruct He as ((k & x) & X & Hi). cbn in X. subst x.
    pose proof (good_id _ _ _ G _ _ Hi) as Ek. rewrite Ei in Ek. subst k.
    destruct (good_entry _ _ _ G _ _ Hi) as (m & ue & Hm & Em & F & Es).
    assert (Hn : In n fs) by (rewrite <- M'; apply in_map_iff; exists (n, Some e); auto).
    assert (m = n) by (apply (node_inj fs UI); auto). subst m.
    exists ue. split; [reflexivity|]. split; [|exact Es].
    assert (Sub : forall u, In u (direct_upstream fs (n_id n)) -> In u fs) by (intros u Hu; apply (in_direct fs) in Hu; tauto).
    clear - F Look Sub. induction F; constructor; [apply Look; auto; apply Sub; left; auto|apply IHF; intros; apply Sub; right; auto].
  - exists (map fst rv). split.
    + clear - G. induction G as [|rv k e G IH Nk (n & ue & Hn & En & F & Es)]; [constructor|]. rewrite map_app. cbn. constructor; auto.
      intros u Hu. clear - F Hu. induction F; [destruct Hu|]. destruct Hu as [<-|Hu]; [|auto].
      apply in_map_iff. eexists. split; [|exact H]. reflexivity.
    + intros n Hn. apply K. destruct (AC n Hn) as (r & R). exists r. exact R.
Qed.

Lemma same_root : forall {T T'} (fs : list (@node T)) (qs : list (@node T')), Forall2 same_place fs qs ->
  forall a r, root_of fs a r -> root_of qs a r.
Proof.
  intros T T' fs qs F a r H. induction H as [n Hn E|n d r Hn E H IH];
    destruct (forall2_paired _ _ _ n F Hn) as (m & Hm & Em & Dm); rewrite Em.
  - apply ro_root; congruence.
  - eapply ro_step; [exact Hm|rewrite <- Dm; exact E|exact IH].
Qed.

Lemma same_ids : forall {T T'} (fs : list (@node T)) (qs : list (@node T')), Forall2 same_place fs qs -> map n_id fs = map n_id qs.
Proof. intros T T' fs qs F. induction F as [|a b fs qs [E _] F IH]; cbn; [reflexivity|]. rewrite E, IH. reflexivity. Qed.

Lemma same_direct : forall {T T'} (fs : list (@node T)) (qs : list (@node T')) k, Forall2 same_place fs qs ->
  Forall2 same_place (direct_upstream fs k) (direct_upstream qs k).
Proof.
  intros T T' fs qs k F. unfold direct_upstream. induction F as [|a b fs qs [E1 E2] F IH]; cbn [filter]; [constructor|].
  assert (X : is_dstr k a = is_dstr k b) by (unfold is_dstr; rewrite E2; reflexivity). rewrite X.
  destruct (is_dstr k b); auto. constructor; auto. split; auto.
Qed.

Lemma in_combine2 : forall {A B} (l : list A) (l' : list B) a, length l = length l' -> In a l -> exists b, In (a, b) (combine l l').
Proof.
  induction l as [|x l IH]; intros [|y l'] a E H; try discriminate; [destruct H|].
  injection E as E. destruct H as [<-|H]; [exists y; left; auto|]. destruct (IH l' a E H) as (b & Hb). exists b. right. exact Hb.
Qed.

Definition dv (x : both) : Q := Qabs (written e_vol (fst x) - out_vol (snd x)).
Definition ds (x : both) : Q := Qabs (written e_spill (fst x) - out_spill (snd x)).

Lemma Forall2_length : forall {A B} {R : A -> B -> Prop} {l : list A} {l' : list B}, Forall2 R l l' -> length l = length l'.
Proof. intros A B R l l' F. induction F; cbn; congruence. Qed.

Lemma combine_ids : forall (out : list (@node b64 * option (@event b64))) (outq : list (@node Q * option (@event Q))),
  length out = length outq -> map both_id (combine out outq) = map (fun p => n_id (fst p)) out.
Proof.
  induction out as [|p out IH]; intros [|q outq] EL; try discriminate; [reflexivity|].
  cbn [combine map]. unfold both_id at 1. cbn [fst]. f_equal. apply IH. injection EL as EL. exact EL.
Qed.

Lemma combine_place : forall (out : list (@node b64 * option (@event b64))) (outq : list (@node Q * option (@event Q))) p q,
  Forall2 same_place (map fst out) (map fst outq) -> In (p, q) (combine out outq) -> same_place (fst p) (fst q).
Proof.
  induction out as [|a out IH]; intros [|b outq] p q S Hx; cbn in *; try contradiction.
  inversion S; subst. destruct Hx as [E|Hx]; [injection E as -> ->; auto|]. eapply IH; eauto.
Qed.

Theorem final_near : forall (fs : list (@node b64)) (qs : list (@node Q)) fuel fuel' out outq,
  unique_ids fs -> acyclic_closed fs -> Forall2 same_place fs qs ->
  (forall n, In n fs -> nonneg64 (n_water n) /\ nonneg64 (n_cap n)) ->
  process F64Ops fuel fs = Ok out -> process QOps fuel' qs = Ok outq ->
  (forall n e, In (n, Some e) out -> finite64 (e_spill e)) ->
  Forall2 same_place (map fst out) (map fst outq) /\
  forall x, In x (combine out outq) -> exists us, NoDup us /\
    (forall y, In y us <-> In y (combine out outq) /\ reaches fs (both_id y) (both_id x)) /\
    (Qabs (written e_vol (fst x) - out_vol (snd x)) <= Qsum (map (node_error fs) us))%Q /\
    (Qabs (written e_spill (fst x) - out_spill (snd x)) <= Qsum (map (node_error fs) us))%Q.
Proof.
  intros fs qs fuel fuel' out outq UI AC SP POS H H' FIN.
  assert (UI' : unique_ids qs) by (unfold unique_ids in *; rewrite <- (same_ids _ _ SP); exact UI).
  assert (AC' : acyclic_closed qs).
  { intros m Hm. assert (X : In (n_id m) (map n_id fs)) by (rewrite (same_ids _ _ SP); apply in_map; exact Hm).
    apply in_map_iff in X. destruct X as (n & En & Hn). destruct (AC n Hn) as (r & R). exists r. rewrite <- En. eapply same_root; eauto. }
  destruct (out_events F64Ops fs fuel out UI AC H) as (M & Ev & l & Ol & Al).
  destruct (out_events QOps qs fuel' outq UI' AC' H') as (M' & Ev' & _).
  split; [rewrite M, M'; exact SP|].
  assert (EL : length out = length outq).
  { rewrite <- (map_length fst out), <- (map_length fst outq), M, M'. eapply Forall2_length; eauto. }
  set (comb := combine out outq).
  assert (Eid : map both_id comb = map n_id fs).
  { rewrite <- M, map_map. apply combine_ids. exact EL. }
  assert (NDc : NoDup (map both_id comb)) by (rewrite Eid; exact UI).
  assert (Pair : forall x, In x comb -> In (fst x) out /\ In (snd x) outq /\ same_place (fst (fst x)) (fst (snd x))).
  { intros [p q] Hx. split; [eapply in_combine_l; eauto|]. split; [eapply in_combine_r; eauto|]. cbn [fst snd].
    assert (S : Forall2 same_place (map fst out) (map fst outq)) by (rewrite M, M'; exact SP).
    exact (combine_place _ _ _ _ S Hx). }
  set (D := fun k => match find (fun x => both_id x =? k) comb with Some x => Qmax (dv x) (ds x) | None => 0%Q end).
  assert (VD : forall x, In x comb -> D (both_id x) = Qmax (dv x) (ds x)).
  { intros x Hx. unfold D. destruct (find (fun z => both_id z =? both_id x) comb) as [y|] eqn:F.
    - apply find_some in F. destruct F as [Hy F]. apply Z.eqb_eq in F.
      rewrite (NoDup_map_inj _ _ _ _ NDc Hy Hx F). reflexivity.
    - pose proof (find_none _ _ F x Hx) as X. cbn in X. rewrite Z.eqb_refl in X. discriminate. }
  assert (Step : forall x, In x comb -> (D (both_id x) <= node_error fs x + Qsum (map (fun u => D (n_id u)) (direct_upstream fs (both_id x))))%Q).
  { intros x Hx. rewrite VD by exact Hx. destruct (Pair x Hx) as (X1 & X2 & X3). destruct x as [[n o] [q o']]. cbn [fst snd] in *.
    unfold both_id in *. cbn [fst] in *.
    destruct (Ev n o X1) as (e & ue & -> & F & Es). destruct (Ev' q o' X2) as (e' & ue' & -> & F' & Es').
    assert (Hn : In n fs) by (rewrite <- M; apply in_map_iff; exists (n, Some e); auto).
    destruct (POS n Hn) as [Pw Pc]. destruct X3 as [Eq1 Eq2].
    pose proof (same_direct fs qs (n_id n) SP) as SD. rewrite <- Eq1 in F'.
    assert (Pl : forall y, In y (map e_spill ue) -> pos64 y).
    { intros y Hy. apply in_map_iff in Hy. destruct Hy as (a & <- & Ha).
      assert (exists u, In (u, Some a) out) as (u & Hu).
      { clear - F Ha. induction F; [destruct Ha|]. destruct Ha as [<-|Ha]; [eauto|auto]. }
      destruct (Ev u _ Hu) as (a' & ua & E & _ & Ea). injection E as <-. rewrite Ea. apply spill_nonneg64. }
    assert (Len : length (map e_spill ue) = length (map e_spill ue')).
    { rewrite !map_length. rewrite <- (Forall2_length F), <- (Forall2_length F'). eapply Forall2_length; eauto. }
    assert (Fi : finite64 (e_spill (settle F64Ops n (pysum F64Ops (map e_spill ue))))) by (rewrite <- Es; eapply FIN; eauto).
    pose proof (settle_near n q (map e_spill ue) (map e_spill ue') Pw Pc Pl Len Fi) as N. cbv zeta in N. rewrite <- Es, <- Es' in N.
    assert (Dn : (Qsum (map (fun p => Qabs (b64_Q (fst p) - snd p)) (combine (map e_spill ue) (map e_spill ue')))
                  <= Qsum (map (fun u => D (n_id u)) (direct_upstream fs (n_id n))))%Q).
    { clear - F F' SD M M' UI EL VD Pair NDc Ev SP.
      assert (Comb : forall u a u' a', In (u, Some a) out -> In (u', Some a') outq -> n_id u = n_id u' -> In ((u, Some a), (u', Some a')) comb).
      { intros u a u' a' Hu Hu' E. destruct (in_combine2 out outq _ EL Hu) as ((v & ov) & Hv).
        destruct (Pair _ Hv) as (_ & V2 & V3 & _). cbn [fst snd] in *.
        assert (ND' : NoDup (map (fun p => n_id (fst p)) outq)).
        { rewrite <- (map_map fst n_id), M'. 
          assert (X : map n_id (map fst out) = map n_id (map fst outq)).
          { rewrite M, M'. apply same_ids. exact SP. }
          rewrite M, M' in X. rewrite <- X. exact UI. }
        assert (Z : (v, ov) = (u', Some a')) by (apply (NoDup_map_inj _ _ _ _ ND' V2 Hu'); cbn; congruence).
        rewrite <- Z. exact Hv. }
      revert ue' F' SD F. generalize (direct_upstream fs (n_id n)) (direct_upstream qs (n_id n)). intros us us' ue' F' SD. revert ue ue' F'.
      induction SD as [|u u' us us' [E _] SD IH]; intros ue ue' F' F; inversion F; inversion F'; subst; cbn [map combine Qsum]; [apply Qle_refl|].
      apply Qplus_le_compat; [|apply IH; auto]. cbn [fst snd].
      pose proof (Comb _ _ _ _ H1 H6 E) as C. pose proof (VD _ C) as V. cbn [fst snd] in V. rewrite V.
      eapply Qle_trans; [|apply Q.le_max_r]. apply Qle_refl. }
    unfold node_error, dv, ds. cbn [fst snd]. unfold written, out_vol, out_spill. cbn [snd].
    unfold fan_in. replace (length (direct_upstream fs (n_id n))) with (length (map e_spill ue)).
    2:{ rewrite map_length. symmetry. apply (Forall2_length F). }
    destruct N as [N1 N2]. apply Q.max_lub; (eapply Qle_trans; [eassumption|]); apply Qplus_le_compat; auto; apply Qle_refl. }
  assert (All : forall x, In x comb <-> exists n, In n fs /\ n_id n = both_id x /\ In x comb).
  { intros x. split; [|intros (_ & _ & _ & X); exact X]. intros Hx. exists (fst (fst x)). split; [|split; [reflexivity|exact Hx]].
    rewrite <- M. apply in_map. apply (Pair x Hx). }
  assert (Has : forall n, In n fs -> exists x, In x comb /\ both_id x = n_id n).
  { intros n Hn. assert (X : In (n_id n) (map both_id comb)) by (rewrite Eid; apply in_map; exact Hn).
    apply in_map_iff in X. destruct X as (x & E & Hx). exists x. auto. }
  intros x Hx.
  destruct (graph_bound fs UI AC both both_id comb (node_error fs) D NDc All Has Step l Ol x Hx) as (us & U1 & U2 & U3).
  { destruct (proj1 (All x) Hx) as (n & Hn & En & _). rewrite <- En. apply Al. exact Hn. }
  exists us. split; [exact U1|]. split; [exact U2|]. rewrite VD in U3 by exact Hx.
  split; (eapply Qle_trans; [|exact U3]); [apply Q.le_max_l|apply Q.le_max_r].
Qed.
