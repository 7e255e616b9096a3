(** * Final states computed with binary64 numbers *)

From Coq Require Import Permutation QArith Qabs Qreals Reals Lqa Lra.
From Flocq Require Import Core IEEE754.BinarySingleNaN Relative Plus_error.
From Verif Require Import Base BaseProofs Num Float64 Float64Proofs Float64Arith Dict FillModel FillProofs PipelineModel
  CompleteModel FloatQ FillSpec NetworkModel NetworkSpec NetworkFloatSpec NetworkProofs NetworkThms.
Local Open Scope Z_scope.

(** ** Monotonicity *)

(** Both are numbers (possibly infinite), 0 <= a <= b. *)
Definition up64 (a b : b64) : Prop := not_nan a /\ not_nan b /\ 0 <= rank a <= rank b.

Lemma add_comm64 : forall x y : b64, f64_add x y = f64_add y x.
Proof.
  intros x y. unfold f64_add, Bplus.
  destruct x as [sx|sx| |sx mx ex Bx], y as [sy|sy| |sy my ey By]; try reflexivity.
  - destruct sx, sy; reflexivity.
  - destruct sx, sy; reflexivity.
  - unfold Fplus_naive. rewrite (Z.min_comm ey ex), Z.add_comm. reflexivity.
Qed.

Lemma add_pinf : forall x : b64, not_nan x -> 0 <= rank x -> f64_add x (B754_infinity false) = B754_infinity false.
Proof.
  intros x Hx Px. rewrite add_comm64. fin_cases x; subst.
  - apply add_inf_l; auto.
  - reflexivity.
  - rewrite rank_ninf in Px. pose proof RINF_pos. lia.
Qed.

Lemma add_up : forall x y d e : b64, up64 x y -> up64 d e -> up64 (f64_add x d) (f64_add y e).
Proof.
  intros x y d e (Nx & Ny & Rx) (Nd & Ne & Rd).
  destruct (add_nonneg x d) as [A1 A2]; try lia; auto.
  destruct (add_nonneg y e) as [B1 B2]; try lia; auto.
  split; [auto|]. split; [auto|]. split; [auto|].
  assert (Top : forall z, not_nan z -> rank z <= rank (B754_infinity false : b64))
    by (intros z Hz; rewrite rank_pinf; pose proof (rank_bounds z Hz); lia).
  destruct (not_nan_cases e Ne) as [Fe|[Ee|Ee]].
  2:{ subst. rewrite (add_pinf y) by (auto; lia). auto. }
  2:{ subst. rewrite rank_ninf in Rd. pose proof RINF_pos. lia. }
  destruct (not_nan_cases y Ny) as [Fy|[Ey|Ey]].
  2:{ subst. rewrite add_comm64 with (x := B754_infinity false). rewrite (add_pinf e) by (auto; lia). auto. }
  2:{ subst. rewrite rank_ninf in Rx. pose proof RINF_pos. lia. }
  assert (Fd : is_finite d = true).
  { apply rank_finite; auto. pose proof (rank_finite_bound e Fe). lia. }
  pose proof (add_mono x y d Nx Ny Fd (proj2 Rx)).
  pose proof (add_mono d e y Nd Ne Fy (proj2 Rd)) as M. rewrite (add_comm64 d y), (add_comm64 e y) in M. lia.
Qed.

Lemma up_refl : forall x, not_nan x -> 0 <= rank x -> up64 x x.
Proof. intros x H P. split; [|split]; auto. lia. Qed.

Lemma pysum_up : forall l l', Forall2 up64 l l' -> up64 (pysum F64Ops l) (pysum F64Ops l').
Proof.
  intros l l' F. unfold pysum. cbn [nadd nofZ F64Ops]. rewrite f64_ofZ0.
  assert (A : up64 f64_zero f64_zero) by (apply up_refl; [reflexivity | cbn; lia]).
  revert A. generalize f64_zero at 1 3. generalize f64_zero. induction F as [|x y l l' H F IH]; intros a b A; cbn [fold_left]; [exact A|].
  apply IH. apply add_up; auto.
Qed.

Lemma settle_up : forall (n n' : @node b64) u u', n_cap n = n_cap n' -> finite64 (n_cap n) ->
  up64 (n_water n) (n_water n') -> 0 <= rank (n_cap n) -> up64 u u' ->
  up64 (e_vol (settle F64Ops n u)) (e_vol (settle F64Ops n' u')) /\
  up64 (e_spill (settle F64Ops n u)) (e_spill (settle F64Ops n' u')).
Proof.
  intros n n' u u' Ec Fc W Pc U. pose proof (add_up _ _ _ _ W U) as (T1 & T2 & T3).
  unfold settle. cbn [e_vol e_spill]. unfold pymin, pymax. cbn [nltb nadd nsub nofZ F64Ops]. rewrite f64_ofZ0, <- Ec.
  pose proof (finite_not_nan _ Fc) as Nc. clear Ec W U.
  set (t := f64_add (n_water n) u) in *. set (t' := f64_add (n_water n') u') in *. set (c := n_cap n) in *. clearbody t t' c.
  assert (Z0 : rank f64_zero = 0) by reflexivity. assert (NZ : not_nan f64_zero) by reflexivity.
  pose proof (sub_not_nan t c T1 Fc) as N1. pose proof (sub_not_nan t' c T2 Fc) as N2.
  pose proof (sub_mono t t' c T1 T2 Fc (proj2 T3)) as M.
  rewrite !Bltb_rank, Z0 by auto. split.
  - destruct (Z.ltb_spec (rank c) (rank t)), (Z.ltb_spec (rank c) (rank t')); split; auto; split; auto; lia.
  - destruct (Z.ltb_spec 0 (rank (f64_sub t c))), (Z.ltb_spec 0 (rank (f64_sub t' c))); split; auto; split; auto; lia.
Qed.

Definition same_site64 (a b : @node b64) : Prop :=
  n_id a = n_id b /\ n_dstr a = n_dstr b /\ n_cap a = n_cap b.

Lemma direct64 : forall (P : @node b64 -> @node b64 -> Prop) ns ns' id,
  (forall a b, P a b -> n_id a = n_id b /\ n_dstr a = n_dstr b) -> Forall2 P ns ns' ->
  map n_id (direct_upstream ns id) = map n_id (direct_upstream ns' id).
Proof.
  intros P ns ns' id HP F. unfold direct_upstream. induction F as [|x y l l' S F IH]; cbn; auto.
  destruct (HP _ _ S) as (A & B).
  assert (X : is_dstr id x = is_dstr id y) by (unfold is_dstr; rewrite B; reflexivity).
  rewrite X. destruct (is_dstr id y); cbn; auto. f_equal; auto.
Qed.

Definition wetter (a b : @node b64) : Prop :=
  n_id a = n_id b /\ n_dstr a = n_dstr b /\ n_cap a = n_cap b /\ le64 (n_water a) (n_water b).

Lemma forall2_paired : forall {A B} (P : A -> B -> Prop) l l' x, Forall2 P l l' -> In x l ->
  exists y, In y l' /\ P x y.
Proof.
  intros A B P l l' x F. induction F; intros [].
  - subst. exists y. split; [left|]; auto.
  - destruct (IHF H0) as (z & ? & ?). exists z. split; [right|]; auto.
Qed.

Lemma more_rain64 : forall (ns ns' : list (@node b64)) fuel fuel' evs evs',
  unique_ids ns -> Forall2 wetter ns ns' ->
  (forall n, In n ns \/ In n ns' -> nonneg64 (n_water n) /\ nonneg64 (n_cap n)) ->
  rain_event F64Ops fuel (add_nodes empty_network ns) = Ok evs ->
  rain_event F64Ops fuel' (add_nodes empty_network ns') = Ok evs' ->
  forall e e', In e evs -> In e' evs' -> e_id e = e_id e' ->
  le64 (e_vol e) (e_vol e') /\ le64 (e_spill e) (e_spill e').
Proof.
  intros ns ns' fuel fuel' evs evs' UI F POS H H' e0 e0' He0 He0' Ee0.
  assert (UI' : unique_ids ns').
  { unfold unique_ids in *. replace (map n_id ns') with (map n_id ns); auto.
    clear - F. induction F as [|a b l l' [A _] F IH]; cbn; f_equal; auto. }
  destruct (rain_event_inv F64Ops ns UI fuel evs H) as (rv & E & G & K).
  destruct (rain_event_inv F64Ops ns' UI' fuel' evs' H') as (rv' & E' & G' & K').
  assert (M : forall k e e', In (k, e) rv -> In (k, e') rv' -> up64 (e_vol e) (e_vol e') /\ up64 (e_spill e) (e_spill e')).
  { clear - UI UI' F POS G G'. induction G as [|rv k e G IH Nk (n & ue & Hn & En & Fu & Es)]; [intros ? ? ? []|].
    intros k0 f f' Hi Hf'. apply in_app_iff in Hi. destruct Hi as [Hi|[Hi|[]]]; [eapply IH; eauto|].
    injection Hi as <- <-.
    destruct (good_entry _ _ _ G' _ _ Hf') as (n' & ue' & Hn' & En' & Fu' & Es').
    destruct (forall2_paired _ _ _ n F Hn) as (m & Hm & W).
    assert (m = n') by (eapply NoDup_map_inj; [exact UI'|auto|auto|]; destruct W; congruence). subst m.
    destruct W as (W1 & W2 & W3 & W4). destruct (POS n (or_introl Hn)) as [[P1 P2] [P3 P4]].
    destruct (POS n' (or_intror Hn')) as [[P5 P6] _].
    rewrite le64_rank in P2, P4, P6, W4 by (auto using finite_not_nan; reflexivity).
    change (rank f64_zero) with 0 in *.
    subst e f'. apply settle_up; auto.
    - split; [|split]; auto using finite_not_nan.
    - apply pysum_up.
      pose proof (direct64 wetter ns ns' k (fun a b X => conj (proj1 X) (proj1 (proj2 X))) F) as D.
      clear - IH Fu Fu' D. revert ue' Fu' D. generalize (direct_upstream ns' k).
      induction Fu as [|u x us es Hx Fu IHu]; intros us' ue' Fu' D.
      + destruct us'; [|discriminate D]. inversion Fu'; subst. constructor.
      + destruct us' as [|u' us']; [discriminate D|]. inversion Fu' as [|? x' ? es' Hx' Fu'']; subst.
        cbn in D. injection D as D1 D2. cbn [map]. constructor.
        * rewrite D1 in Hx. destruct (IH _ _ _ Hx Hx'). auto.
        * eapply IHu; eauto. }
  subst evs evs'. apply in_map_iff in He0, He0'. destruct He0 as ((k & e1) & X & Hi), He0' as ((k' & e1') & X' & Hi').
  cbn in X, X'. subst e1 e1'. rewrite (good_id _ _ _ G _ _ Hi), (good_id _ _ _ G' _ _ Hi') in Ee0. subst k'.
  destruct (M _ _ _ Hi Hi') as [(A1 & A2 & A3) (B1 & B2 & B3)].
  split; apply le64_rank; auto; lia.
Qed.
(** ** Rounding errors of the balance *)
Definition u53 : R := bpow radix2 (-53).

Lemma u53_pos : (0 < u53 < 1)%R.
Proof.
  split; [apply bpow_gt_0|]. unfold u53. change 1%R with (bpow radix2 0). apply bpow_lt. lia.
Qed.

Lemma add_err : forall x y : b64, is_finite x = true -> is_finite y = true -> is_finite (f64_add x y) = true ->
  (Rabs (B2R (f64_add x y) - (B2R x + B2R y)) <= u53 * Rabs (B2R (f64_add x y)))%R.
Proof.
  intros x y Hx Hy Hf.
  assert (E : B2R (f64_add x y) = rnd64 (B2R x + B2R y)%R).
  { destruct (add_cases x y Hx Hy) as [[_ H]|[[H _]|[H _]]]; auto; rewrite H in Hf; discriminate. }
  destruct (FLT_plus_error_N_round_ex radix2 (-1074) 53 (fun x => negb (Z.even x)) (B2R x) (B2R y))
    as (eps & He & H).
  - apply (generic_format_B2R 53 1024 x).
  - apply (generic_format_B2R 53 1024 y).
  - change (round radix2 (FLT_exp (-1074) 53) ZnearestE (B2R x + B2R y)%R) with (rnd64 (B2R x + B2R y)%R) in H.
    rewrite <- E in H. set (r := B2R (f64_add x y)) in *. rewrite H.
    replace (r - r * (1 + eps))%R with (- (eps * r))%R by ring.
    rewrite Rabs_Ropp, Rabs_mult. apply Rmult_le_compat_r; [apply Rabs_pos|].
    replace u53 with (u_ro radix2 53); auto. unfold u_ro, u53.
    change (/ 2)%R with (bpow radix2 (-1)). rewrite <- bpow_plus. reflexivity.
Qed.

Fixpoint Rsum (l : list R) : R := match l with [] => 0%R | x :: t => (x + Rsum t)%R end.

Definition pos64 (x : b64) : Prop := not_nan x /\ 0 <= rank x.

Lemma pos64_R : forall x, is_finite x = true -> 0 <= rank x -> (0 <= B2R x)%R.
Proof.
  intros x Hf H. rewrite B2R_rank by auto. apply Rmult_le_pos; [apply IZR_le; auto | apply bpow_ge_0].
Qed.

(** A finite sum of numbers that are not negative: nothing overflowed, and the sum is larger than its parts. *)
Lemma add_fin : forall x y : b64, pos64 x -> pos64 y -> is_finite (f64_add x y) = true ->
  is_finite x = true /\ is_finite y = true /\ rank x <= rank (f64_add x y) /\ rank y <= rank (f64_add x y).
Proof.
  intros x y [Nx Px] [Ny Py] F.
  destruct (not_nan_cases y Ny) as [Fy|[E|E]].
  2:{ subst. rewrite add_pinf in F by auto. discriminate. }
  2:{ subst. rewrite rank_ninf in Py. pose proof RINF_pos. lia. }
  destruct (not_nan_cases x Nx) as [Fx|[E|E]].
  2:{ subst. rewrite add_comm64, add_pinf in F by auto. discriminate. }
  2:{ subst. rewrite rank_ninf in Px. pose proof RINF_pos. lia. }
  split; auto. split; auto. split; [apply add_infl; auto|]. rewrite add_comm64. apply add_infl; auto.
Qed.

Lemma fold_err : forall l a, pos64 a -> (forall x, In x l -> pos64 x) -> is_finite (fold_left f64_add l a) = true ->
  is_finite a = true /\ (forall x, In x l -> is_finite x = true) /\ rank a <= rank (fold_left f64_add l a) /\
  (Rabs (B2R (fold_left f64_add l a) - (B2R a + Rsum (map B2R l)))
   <= INR (length l) * u53 * B2R (fold_left f64_add l a))%R.
Proof.
  induction l as [|x l IH]; intros a Pa Pl F; cbn [fold_left] in *.
  - split; auto. split; [intros ? []|]. split; [lia|]. cbn [map Rsum length INR].
    replace (B2R a - (B2R a + 0))%R with 0%R by ring. rewrite Rabs_R0. lra.
  - assert (Px : pos64 x) by (apply Pl; left; auto).
    assert (Pax : pos64 (f64_add a x)) by (destruct Pa, Px; apply add_nonneg; auto).
    destruct (IH (f64_add a x) Pax (fun y Hy => Pl y (or_intror Hy)) F) as (F1 & F2 & F3 & F4).
    destruct (add_fin a x Pa Px F1) as (G1 & G2 & G3 & G4).
    split; auto. split; [intros y [<-|Hy]; auto|]. split; [lia|].
    pose proof (add_err a x G1 G2 F1) as E. set (r := fold_left f64_add l (f64_add a x)) in *. set (s := f64_add a x) in *.
    assert (B2R s <= B2R r)%R by (apply rank_le_R; auto).
    assert (0 <= B2R s)%R by (destruct Pax; apply pos64_R; auto).
    rewrite (Rabs_pos_eq (B2R s)) in E by auto. pose proof u53_pos.
    cbn [map Rsum length]. rewrite S_INR.
    replace (B2R r - (B2R a + (B2R x + Rsum (map B2R l))))%R with
      ((B2R r - (B2R s + Rsum (map B2R l))) + (B2R s - (B2R a + B2R x)))%R by ring.
    eapply Rle_trans; [apply Rabs_triang|].
    assert (u53 * B2R s <= u53 * B2R r)%R by (apply Rmult_le_compat_l; lra). lra.
Qed.

Lemma add_zero_l : forall x : b64, is_finite x = true -> B2R (f64_add f64_zero x) = B2R x.
Proof.
  intros x Hx. destruct x as [s|s| |s m e B]; try discriminate; [destruct s|]; reflexivity.
Qed.

(** The water that reaches a node, computed: [d] additions that round. *)
Lemma total_err : forall (w : b64) l, pos64 w -> (forall x, In x l -> pos64 x) ->
  is_finite (f64_add w (pysum F64Ops l)) = true ->
  is_finite w = true /\ (forall x, In x l -> is_finite x = true) /\
  (Rabs (B2R (f64_add w (pysum F64Ops l)) - (B2R w + Rsum (map B2R l)))
   <= INR (length l) * u53 * B2R (f64_add w (pysum F64Ops l)))%R.
Proof.
  intros w l Pw Pl F.
  assert (Pu : pos64 (pysum F64Ops l)) by (apply pysum_nonneg64; auto).
  destruct (add_fin _ _ Pw Pu F) as (F1 & F2 & F3 & F4).
  assert (Pt : pos64 (f64_add w (pysum F64Ops l))) by (destruct Pw, Pu; apply add_nonneg; auto).
  pose proof (add_err _ _ F1 F2 F) as E.
  pose proof (pos64_R _ F (proj2 Pt)) as Rt. rewrite (Rabs_pos_eq (B2R (f64_add w _))) in E by auto.
  assert (RU : (B2R (pysum F64Ops l) <= B2R (f64_add w (pysum F64Ops l)))%R) by (apply rank_le_R; auto).
  destruct l as [|x l].
  - split; auto. split; [intros ? []|].
    replace (B2R (f64_add w (pysum F64Ops []))) with (B2R w).
    2:{ change (pysum F64Ops []) with f64_zero. rewrite add_comm64, add_zero_l; auto. }
    cbn [map Rsum length INR]. replace (B2R w - (B2R w + 0))%R with 0%R by ring. rewrite Rabs_R0. lra.
  - unfold pysum in F2. cbn [fold_left nadd nofZ F64Ops] in F2. rewrite f64_ofZ0 in F2.
    assert (Px : pos64 x) by (apply Pl; left; auto).
    assert (P0 : pos64 f64_zero) by (split; [reflexivity | cbn; lia]).
    assert (Pax : pos64 (f64_add f64_zero x)) by (destruct P0, Px; apply add_nonneg; auto).
    destruct (fold_err l _ Pax (fun y Hy => Pl y (or_intror Hy)) F2) as (G1 & G2 & G3 & G4).
    destruct (add_fin _ _ P0 Px G1) as (K1 & K2 & _ & _).
    change (fold_left f64_add l (f64_add f64_zero x)) with (pysum F64Ops (x :: l)) in *.
    rewrite add_zero_l in G4 by auto.
    split; auto. split; [intros y [<-|Hy]; auto|]. cbn [map Rsum length]. rewrite S_INR.
    set (u := pysum F64Ops (x :: l)) in *. set (t := f64_add w u) in *. pose proof u53_pos.
    replace (B2R t - (B2R w + (B2R x + Rsum (map B2R l))))%R with
      ((B2R t - (B2R w + B2R u)) + (B2R u - (B2R x + Rsum (map B2R l))))%R by ring.
    eapply Rle_trans; [apply Rabs_triang|].
    assert (0 <= INR (length l) * u53)%R by (apply Rmult_le_pos; [apply pos_INR | lra]).
    assert (INR (length l) * u53 * B2R u <= INR (length l) * u53 * B2R t)%R by (apply Rmult_le_compat_l; auto).
    lra.
Qed.

Lemma settle_err : forall (n : @node b64) l, nonneg64 (n_water n) -> nonneg64 (n_cap n) -> (forall x, In x l -> pos64 x) ->
  finite64 (e_spill (settle F64Ops n (pysum F64Ops l))) ->
  let v := B2R (e_vol (settle F64Ops n (pysum F64Ops l))) in
  let s := B2R (e_spill (settle F64Ops n (pysum F64Ops l))) in
  (Rabs (B2R (n_water n) + Rsum (map B2R l) - v - s) <= (INR (length l) + 1) * bpow radix2 (-52) * (v + s))%R.
Proof.
  intros n l [Fw Pw] [Fc Pc] Pl.
  rewrite le64_rank in Pw, Pc by (auto using finite_not_nan; reflexivity). change (rank f64_zero) with 0 in *.
  assert (PW : pos64 (n_water n)) by (split; auto using finite_not_nan).
  pose proof (pysum_nonneg64 l Pl) as PU.
  assert (PT : pos64 (f64_add (n_water n) (pysum F64Ops l))) by (destruct PW, PU; apply add_nonneg; auto).
  pose proof (total_err (n_water n) l PW Pl) as T.
  unfold settle. cbn [e_vol e_spill]. unfold pymin, pymax. cbn [nltb nadd nsub nofZ F64Ops]. rewrite f64_ofZ0.
  set (t := f64_add (n_water n) (pysum F64Ops l)) in *. set (c := n_cap n) in *. clearbody t c. destruct PT as [Nt Pt].
  pose proof (finite_not_nan _ Fc) as Nc.
  assert (Z0 : rank f64_zero = 0) by reflexivity. assert (NZ : not_nan f64_zero) by reflexivity.
  pose proof (sub_not_nan t c Nt Fc) as N1.
  pose proof u53_pos as U.
  assert (U2 : bpow radix2 (-52) = (2 * u53)%R).
  { unfold u53. change (-52) with (1 + -53). rewrite bpow_plus. reflexivity. }
  rewrite U2. pose proof (pos_INR (length l)) as Pd. set (d := INR (length l)) in *. clearbody d.
  set (q := (B2R (n_water n) + Rsum (map B2R l))%R) in *. clearbody q.
  cbv zeta. rewrite !Bltb_rank, Z0 by auto.
  destruct (Z.ltb_spec (rank c) (rank t)) as [L|L].
  - intros Hs.
    assert (Ft : is_finite t = true).
    { destruct (not_nan_cases t Nt) as [?|[E|E]]; auto; subst t.
      - exfalso. rewrite sub_add_opp, add_inf_l in Hs by (apply opp_finite; auto).
        rewrite rank_pinf in Hs. pose proof RINF_pos. destruct (Z.ltb_spec 0 RINF); [discriminate Hs | lia].
      - rewrite rank_ninf in Pt. pose proof RINF_pos. lia. }
    destruct (T Ft) as (_ & _ & E).
    assert (0 <= rank (f64_sub t c)).
    { pose proof (sub_mono c t c Nc Nt Fc). rewrite sub_self_rank in H by auto. lia. }
    assert (Fs : is_finite (f64_sub t c) = true /\
      B2R (if 0 <? rank (f64_sub t c) then f64_sub t c else f64_zero) = B2R (f64_sub t c)).
    { destruct (Z.ltb_spec 0 (rank (f64_sub t c))) as [P|P]; [auto|].
      assert (E0 : rank (f64_sub t c) = 0) by lia.
      assert (Ff : is_finite (f64_sub t c) = true) by (apply rank_finite; auto; pose proof RINF_pos; lia).
      split; auto. rewrite (B2R_rank (f64_sub t c)), E0 by auto. cbn. lra. }
    destruct Fs as [Fs FF]. unfold b64 in *. rewrite FF. clear Hs FF.
    rewrite sub_add_opp in Fs. pose proof (add_err _ _ Ft (opp_finite _ Fc) Fs) as Es.
    rewrite <- sub_add_opp in Es, Fs. rewrite B2R_Bopp in Es.
    pose proof (pos64_R _ Fs H) as Ps. rewrite (Rabs_pos_eq (B2R (f64_sub t c))) in Es by auto.
    pose proof (pos64_R _ Fc Pc) as Pc'. pose proof (pos64_R _ Ft Pt) as Pt'.
    set (s := B2R (f64_sub t c)) in *. set (v := B2R c) in *. set (tt := B2R t) in *. clearbody s v tt.
    assert (Es' : (tt <= v + s + u53 * s)%R) by ((revert Es; unfold Rabs; destruct (Rcase_abs _); lra)).
    replace (q - v - s)%R with (- (tt - q) - (s - (tt + - v)))%R by ring.
    eapply Rle_trans; [apply Rabs_triang|]. rewrite !Rabs_Ropp.
    assert (D : (d * u53 * tt <= d * u53 * (2 * (v + s)))%R).
    { apply Rmult_le_compat_l; [apply Rmult_le_pos; lra|].
      assert (u53 * s <= s)%R by (rewrite <- (Rmult_1_l s) at 2; apply Rmult_le_compat_r; lra). lra. }
    assert (0 <= u53 * v)%R by (apply Rmult_le_pos; lra). assert (0 <= u53 * s)%R by (apply Rmult_le_pos; lra). nra.
  - assert (L2 : rank (f64_sub t c) <= 0).
    { pose proof (sub_mono t c c Nt Nc Fc L). rewrite sub_self_rank in H by auto. lia. }
    destruct (Z.ltb_spec 0 (rank (f64_sub t c))); [lia|]. intros _.
    assert (Ft : is_finite t = true).
    { apply rank_finite; auto. pose proof (rank_finite_bound c Fc). pose proof RINF_pos. lia. }
    destruct (T Ft) as (_ & _ & E). pose proof (pos64_R _ Ft Pt) as Pt'.
    change (B2R f64_zero) with 0%R.
    replace (q - B2R t - 0)%R with (- (B2R t - q))%R by ring. rewrite Rabs_Ropp.
    assert (0 <= u53 * B2R t)%R by (apply Rmult_le_pos; lra).
    assert (0 <= d * u53 * B2R t)%R by (apply Rmult_le_pos; auto; apply Rmult_le_pos; lra). lra.
Qed.
Lemma Q2R_Qsum : forall l, Q2R (Qsum l) = Rsum (map Q2R l).
Proof. induction l as [|x l IH]; cbn [Qsum map Rsum]; [unfold Q2R; cbn; lra|]. rewrite Q2R_plus, IH. reflexivity. Qed.

Lemma Qabs_R : forall q, Q2R (Qabs q) = Rabs (Q2R q).
Proof.
  intros q. destruct (Qlt_le_dec q 0) as [H|H].
  - rewrite (Qeq_eqR _ _ (Qabs_neg q (Qlt_le_weak _ _ H))), Q2R_opp. apply Qlt_Rlt in H. unfold Q2R in H at 2. cbn in H.
    rewrite Rabs_left; auto. lra.
  - rewrite (Qeq_eqR _ _ (Qabs_pos q H)). apply Qle_Rle in H. unfold Q2R in H at 1. cbn in H. rewrite Rabs_pos_eq; auto. lra.
Qed.

(** All the water passed on inside the network leaves one node and enters another. *)
Lemma passed_on : forall {T} (ns : list (@node T)) (s : Z -> Q), unique_ids ns -> acyclic_closed ns ->
  (Qsum (map (fun n => Qsum (map (fun u => s (n_id u)) (direct_upstream ns (n_id n)))) ns) +
   Qsum (map (fun n => s (n_id n)) (filter is_root ns)) == Qsum (map (fun n => s (n_id n)) ns))%Q.
Proof.
  intros T ns s UI AC. unfold direct_upstream. rewrite double_count; auto.
  2:{ intros u d Hu Hd. destruct (AC u Hu) as (r & R).
      inversion R as [n' ? ? E|n' d' r0 Hn' Hd' Hr' E]; subst.
      - assert (n' = u) by (eapply NoDup_map_inj; eauto). congruence.
      - assert (n' = u) by (eapply NoDup_map_inj; eauto). subst n'.
        assert (d' = d) by congruence. subst. destruct (root_of_node _ _ _ Hr') as (m & Hm & <-).
        apply in_map; auto. }
  rewrite !sum_filter_indicator, <- Qsum_plus. apply Qsum_ext. intros n _. destruct (is_root n); cbn; ring.
Qed.

Lemma Qsum_abs : forall {A} (f g : A -> Q) l, (forall x, In x l -> (Qabs (f x) <= g x)%Q) ->
  (Qabs (Qsum (map f l)) <= Qsum (map g l))%Q.
Proof.
  induction l as [|x l IH]; intros H; cbn [map Qsum]; [cbn; apply Qle_refl|].
  eapply Qle_trans; [apply Qabs_triangle|]. apply Qplus_le_compat; [apply H; left; auto | apply IH; intros; apply H; right; auto].
Qed.

Lemma Qsum_four : forall {A} (a b c d : A -> Q) l,
  (Qsum (map (fun x => a x + b x - c x - d x) l) ==
   Qsum (map a l) + Qsum (map b l) - Qsum (map c l) - Qsum (map d l))%Q.
Proof. induction l as [|x l IH]; cbn [map Qsum]; [ring|]. rewrite IH. ring. Qed.

Lemma conserves64 : forall (fs : list (@node b64)) fuel out, unique_ids fs -> acyclic_closed fs ->
  (forall n, In n fs -> nonneg64 (n_water n) /\ nonneg64 (n_cap n)) ->
  process F64Ops fuel fs = Ok out ->
  (forall n e, In (n, Some e) out -> finite64 (e_spill e)) ->
  (Qabs (Qsum (map (fun n => b64_Q (n_water n)) fs) -
         (Qsum (map (written e_vol) out) + Qsum (map (written e_spill) (filter (fun p => is_root (fst p)) out))))
   <= (1 # 2 ^ 52) * Qsum (map (fun p => fan_in fs (fst p) * (written e_vol p + written e_spill p)) out))%Q.
Proof.
  intros fs fuel out UI AC POS H FIN. destruct (process_spec _ _ _ _ H) as (M & evs & E & A & B).
  destruct (all_written _ _ _ _ UI AC H) as [M' W].
  rewrite index_unique in E by exact UI.
  set (look := fun f id => match find (fun p => n_id (fst p) =? id) out with Some p => written f p | None => 0%Q end).
  assert (ND : NoDup (map (fun p : @node b64 * option (@event b64) => n_id (fst p)) out)).
  { rewrite <- (map_map fst n_id), M'. exact UI. }
  assert (V : forall f p, In p out -> look f (n_id (fst p)) = written f p).
  { intros f p Hp. unfold look. destruct (find _ out) as [q|] eqn:F.
    - apply find_some in F. destruct F as [Hq F]. apply Z.eqb_eq in F.
      f_equal. exact (NoDup_map_inj _ _ _ _ ND Hq Hp F).
    - pose proof (find_none _ _ F p Hp) as X. cbn in X. rewrite Z.eqb_refl in X. discriminate. }
  assert (Ev : forall e, In e evs -> exists n, In (n, Some e) out).
  { intros e He. destruct (settled_event F64Ops fs fuel evs UI E e He) as (n & ue & Hn & En & _).
    rewrite <- M' in Hn. apply in_map_iff in Hn. destruct Hn as ((n' & o) & X & Hp). cbn in X. subst n'.
    destruct (W n o Hp) as (e' & -> & Ei'). destruct (A n e' Hp) as (He' & Ee' & _).
    exists n. destruct (rain_event_inv F64Ops fs UI fuel evs E) as (rv & -> & G & K).
    assert (e' = e); [|subst; auto].
    pose proof (good_nodup _ _ _ G) as NDk.
    apply in_map_iff in He, He'. destruct He as ((k1 & x1) & X1 & H1), He' as ((k2 & x2) & X2 & H2). cbn in X1, X2. subst x1 x2.
    pose proof (good_id _ _ _ G _ _ H1). pose proof (good_id _ _ _ G _ _ H2).
    assert (P : (k1, e) = (k2, e')) by (apply (NoDup_map_inj fst _ _ _ NDk H1 H2); cbn; congruence). congruence. }
  assert (L : forall n, In n fs -> (Qabs (b64_Q (n_water n) + Qsum (map (fun u => look e_spill (n_id u)) (direct_upstream fs (n_id n)))
      - look e_vol (n_id n) - look e_spill (n_id n)) <= (1 # 2 ^ 52) * (fan_in fs n * (look e_vol (n_id n) + look e_spill (n_id n))))%Q).
  { intros n Hn. rewrite <- M' in Hn. apply in_map_iff in Hn. destruct Hn as ((n' & o) & X & Hp). cbn in X. subst n'.
    destruct (W n o Hp) as (e & -> & Ei). destruct (A n e Hp) as (He & Ee & _).
    change n with (fst (n, Some e)) at 3 4 6 7. rewrite !V by auto. cbn [fst].
    assert (Hn : In n fs) by (rewrite <- M'; apply in_map_iff; exists (n, Some e); auto).
    destruct (settled_event F64Ops fs fuel evs UI E e He) as (n' & ue & Hn' & En & Hue & Eu & Es).
    assert (n' = n) by (eapply NoDup_map_inj; [exact UI|auto|auto|congruence]). subst n'.
    assert (Sp : map (fun u => look e_spill (n_id u)) (direct_upstream fs (n_id n)) = map b64_Q (map e_spill ue)).
    { rewrite <- (map_map n_id (look e_spill)), <- Eu, !map_map. apply map_ext_in. intros e' He'.
      destruct (Ev e' (Hue e' He')) as (m & Hm). destruct (A m e' Hm) as (_ & X & _). rewrite X.
      change m with (fst (m, Some e')). rewrite V by auto. reflexivity. }
    rewrite Sp. unfold fan_in. replace (length (direct_upstream fs (n_id n))) with (length (map e_spill ue)).
    2:{ rewrite map_length, <- (map_length e_id), Eu, map_length. reflexivity. }
    unfold written. cbn [snd]. destruct (POS n Hn) as [P1 P2].
    pose proof (settle_err n (map e_spill ue) P1 P2) as Q.
    assert (Pl : forall x, In x (map e_spill ue) -> pos64 x).
    { intros x Hx. apply in_map_iff in Hx. destruct Hx as (e' & <- & Y).
      destruct (settled_event F64Ops fs fuel evs UI E e' (Hue _ Y)) as (m & ue' & _ & _ & _ & _ & ->). apply spill_nonneg64. }
    rewrite <- Es in Q. specialize (Q Pl (FIN n e Hp)). cbv zeta in Q.
    apply Rle_Qle. rewrite Qabs_R, !Q2R_minus, Q2R_plus, !Q2R_mult, Q2R_plus, !b64_Q_R, Q2R_Qsum.
    rewrite (map_map b64_Q Q2R). rewrite (map_ext _ _ b64_Q_R).
    replace (Q2R (1 # 2 ^ 52)) with (bpow radix2 (-52)).
    2:{ unfold Q2R. cbn [Qnum Qden]. change (-52) with (- (52)). rewrite bpow_opp, <- (IZR_Zpower radix2) by lia.
        change (radix2 ^ 52) with (Z.pos (2 ^ 52)). lra. }
    replace (Q2R (inject_Z (1 + Z.of_nat (length (map e_spill ue))))) with (INR (length (map e_spill ue)) + 1)%R.
    2:{ unfold Q2R, inject_Z. cbn [Qnum Qden]. rewrite plus_IZR, INR_IZR_INZ. lra. }
    rewrite <- Rmult_assoc, (Rmult_comm (bpow radix2 (-52))). exact Q. }
  set (r := fun n => (b64_Q (n_water n) + Qsum (map (fun u => look e_spill (n_id u)) (direct_upstream fs (n_id n)))
      - look e_vol (n_id n) - look e_spill (n_id n))%Q).
  pose proof (Qsum_abs r (fun n => (1 # 2 ^ 52) * (fan_in fs n * (look e_vol (n_id n) + look e_spill (n_id n))))%Q fs L) as S.
  assert (Sr : (Qsum (map r fs) == Qsum (map (fun n => b64_Q (n_water n)) fs) -
         (Qsum (map (written e_vol) out) + Qsum (map (written e_spill) (filter (fun p => is_root (fst p)) out))))%Q).
  { pose proof (passed_on fs (look e_spill) UI AC) as PO.
    assert (X1 : (Qsum (map (written e_vol) out) == Qsum (map (fun n => look e_vol (n_id n)) fs))%Q).
    { rewrite <- M' at 1. rewrite map_map. apply Qsum_ext. intros p Hp. rewrite V by auto. reflexivity. }
    assert (X2 : (Qsum (map (written e_spill) (filter (fun p => is_root (fst p)) out)) ==
       Qsum (map (fun n => look e_spill (n_id n)) (filter is_root fs)))%Q).
    { rewrite !sum_filter_indicator. rewrite <- M' at 1. rewrite map_map. apply Qsum_ext. intros p Hp. rewrite V by auto. reflexivity. }
    rewrite X1, X2.
    assert (Y : (Qsum (map r fs) == Qsum (map (fun n => b64_Q (n_water n)) fs) +
       Qsum (map (fun n => Qsum (map (fun u => look e_spill (n_id u)) (direct_upstream fs (n_id n)))) fs) -
       Qsum (map (fun n => look e_vol (n_id n)) fs) - Qsum (map (fun n => look e_spill (n_id n)) fs))%Q).
    { unfold r. apply Qsum_four. }
    rewrite Y. Lqa.lra. }
  rewrite Sr in S. eapply Qle_trans; [exact S|]. apply Qle_lteq. right.
  rewrite <- M' at 1. rewrite map_map. clear - V.
  assert (Sc : forall l (f : @node b64 * option (@event b64) -> Q) c, (Qsum (map (fun p => c * f p) l) == c * Qsum (map f l))%Q).
  { intros l f c. induction l as [|p l IH]; cbn [map Qsum]; [ring|]. rewrite IH. ring. }
  rewrite <- Sc. apply Qsum_ext. intros p Hp. rewrite !V by auto. reflexivity.
Qed.

(** Three bluespots in a tree, 0.1, 0.1 and 0.2 m3 of water and capacities of 0 and 0.05 m3. *)
Definition tenth (k : Z) : b64 := f64_div (f64_ofZ k) (f64_ofZ 10).
Definition twentieth : b64 := f64_div (f64_ofZ 5) (f64_ofZ 100).
Definition tenths : list (@node b64) :=
  [mkNode 1 None (tenth 1) (tenth 0); mkNode 2 (Some 1) (tenth 1) twentieth; mkNode 3 (Some 1) (tenth 2) twentieth].
(** The same with more rain on node 2. *)
Definition tenths' : list (@node b64) :=
  [mkNode 1 None (tenth 1) (tenth 0); mkNode 2 (Some 1) (tenth 4) twentieth; mkNode 3 (Some 1) (tenth 2) twentieth].

Lemma tenths_ok : forall n, In n tenths \/ In n tenths' -> nonneg64 (n_water n) /\ nonneg64 (n_cap n).
Proof.
  intros n Hn. cbn in Hn. repeat destruct Hn as [Hn|Hn]; try contradiction; subst n;
    (split; (split; [vm_compute; reflexivity | vm_compute; reflexivity])).
Qed.

Definition finite_out (out : list (@node b64 * option (@event b64))) : bool :=
  forallb (fun p => match snd p with Some e => is_finite (e_spill e) | None => true end) out.

Lemma finite_out_ok : forall out, finite_out out = true -> forall n e, In (n, Some e) out -> finite64 (e_spill e).
Proof. intros out H n e Hi. unfold finite_out in H. rewrite forallb_forall in H. exact (H _ Hi). Qed.

Definition keeps_all (fs : list (@node b64)) (out : list (@node b64 * option (@event b64))) : bool :=
  Qeq_bool (Qsum (map (fun n => b64_Q (n_water n)) fs))
    (Qsum (map (written e_vol) out) + Qsum (map (written e_spill) (filter (fun p => is_root (fst p)) out))).
