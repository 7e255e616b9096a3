(** * The water level of a bluespot in binary64 is finite and between its elevations *)

From Coq Require Import QArith Qabs Qreals Reals Lra Lia.
From Flocq Require Import Core IEEE754.BinarySingleNaN Mult_error.
From Verif Require Import Base BaseProofs Num Float64 Float64Proofs Float64Arith NetworkFloatThms HypsModel ApproxModel CompProofs LevelProofs RoundNetProofs RoundProofs OverflowProofs FinishArith FinishBins ApproxThms.
Local Open Scope R_scope.

(** ** Rounding upwards *)
Lemma rnd_up : forall x, 0 <= x -> rnd64 x <= x * (1 + u53) + bpow radix2 (-1022).
Proof.
  intros x X. pose proof u53_pos as U. pose proof (bpow_gt_0 radix2 (-1022)) as P.
  destruct (Rle_dec (bpow radix2 (-1022)) x) as [G|G].
  - destruct (rnd_rel x) as (e & He & ->); [right; rewrite Rabs_pos_eq by lra; exact G|]. apply Rabs_le_inv in He. nra.
  - assert (rnd64 x <= bpow radix2 (-1022)) by (rewrite <- (rnd_bpow (-1022)) by lia; apply rnd64_le; lra). nra.
Qed.

Lemma rnd_abs : forall x, rnd64 (Rabs x) = Rabs (rnd64 x). Proof. intros x. apply round_NE_abs. typeclasses eauto. Qed.

Lemma rnd_up_abs : forall x, Rabs (rnd64 x) <= Rabs x * (1 + u53) + bpow radix2 (-1022).
Proof. intros x. rewrite <- rnd_abs. apply rnd_up, Rabs_pos. Qed.

Lemma mul_fin : forall (x y : b64) e, is_finite x = true -> is_finite y = true -> (-1074 <= e <= 1000)%Z ->
  Rabs (B2R x * B2R y) <= bpow radix2 e ->
  is_finite (f64_mul x y) = true /\ B2R (f64_mul x y) = rnd64 (B2R x * B2R y) /\ Rabs (B2R (f64_mul x y)) <= bpow radix2 e.
Proof.
  intros x y e Fx Fy E H. pose proof (Bmult_correct 53 1024 _ _ mode_NE x y) as M. fold (f64_mul x y) in M.
  assert (U : Rabs (rnd64 (B2R x * B2R y)) <= bpow radix2 e) by (apply rnd_abs_le; [lia|exact H]).
  rewrite Rlt_bool_true in M by (apply (below_emax _ e); [exact U|lia]). destruct M as (M1 & M2 & _). rewrite M1, M2, Fx, Fy. auto.
Qed.

(** ** One piece of the interpolation *)
Definition gap (hi : R) : R := hi * (1 + bpow radix2 (-50)) + bpow radix2 (-500).

Lemma pow_le_2 : forall a b, (a < b)%Z -> 2 * bpow radix2 a <= bpow radix2 b.
Proof. intros a b H. change 2 with (bpow radix2 1). rewrite <- bpow_plus. apply bpow_le. lia. Qed.

Theorem segment : forall x x0 y0 x1 y1 : b64,
  is_finite x = true -> gridlike (-350) x0 -> gridlike (-350) x1 -> B2R x1 <= bpow radix2 500 -> B2R x0 <= B2R x < B2R x1 ->
  is_finite y0 = true -> is_finite y1 = true -> Rabs (B2R y0) <= bpow radix2 146 -> Rabs (B2R y1) <= bpow radix2 146 ->
  let L := f64_add (f64_mul (f64_div (f64_sub y1 y0) (f64_sub x1 x0)) (f64_sub x x0)) y0 in
  is_finite L = true /\ Rabs (B2R L) <= bpow radix2 150 /\
  (B2R y0 <= B2R y1 -> B2R y0 <= B2R L /\ (0 <= B2R y0 -> B2R L <= gap (B2R y1))).
Proof.
  intros x x0 y0 x1 y1 Fx G0 G1 X1 [A B] Fy0 Fy1 Y0 Y1 L.
  pose proof (gridlike_diff (-350) x0 x1 ltac:(lia) G0 G1 ltac:(lra)) as D1. change (-350 - 52)%Z with (-402)%Z in D1.
  destruct G0 as (F0 & P0 & _). destruct G1 as (F1 & P1 & _).
  assert (B500 : forall r, 0 <= r <= bpow radix2 500 -> Rabs r <= bpow radix2 500) by (intros r Hr; rewrite Rabs_pos_eq; lra).
  destruct (sub_abs y1 y0 146 Fy1 Fy0 ltac:(lia) Y1 Y0) as (Fd & Ed & Ad). change (146 + 1)%Z with 147%Z in Ad.
  destruct (sub_abs x1 x0 500 F1 F0 ltac:(lia)) as (FD & ED & AD); [apply B500; lra|apply B500; lra|]. change (500 + 1)%Z with 501%Z in AD.
  destruct (sub_abs x x0 500 Fx F0 ltac:(lia)) as (Fc & Ec & Ac); [apply B500; lra|apply B500; lra|].
  set (dy := f64_sub y1 y0) in *. set (D := f64_sub x1 x0) in *. set (dx := f64_sub x x0) in *.
  pose proof (bpow_gt_0 radix2 (-402)) as P402.
  assert (DL : bpow radix2 (-402) <= B2R D) by (rewrite ED, <- (rnd_bpow (-402)) by lia; apply rnd64_le; exact D1).
  assert (DX : 0 <= B2R dx <= B2R D).
  { rewrite Ec, ED. split; [apply rnd_pos; lra|apply rnd64_le; lra]. }
  rewrite Rabs_pos_eq in AD by lra.
  destruct (div_abs dy D 147 (-402) Fd FD ltac:(lia) Ad) as (Fs & Es & As); [rewrite Rabs_pos_eq; lra|].
  set (sl := f64_div dy D) in *. pose proof u53_pos as U.
  (* |slope * dx| <= |dy| (1 + u) + tiny *)
  assert (Q : Rabs (B2R sl) * B2R D <= Rabs (B2R dy) * (1 + u53) + bpow radix2 (-520)).
  { rewrite Es. apply Rle_trans with ((Rabs (B2R dy / B2R D) * (1 + u53) + bpow radix2 (-1022)) * B2R D); [apply Rmult_le_compat_r; [lra|apply rnd_up_abs]|].
    unfold Rdiv. rewrite Rabs_mult, Rabs_inv, (Rabs_pos_eq (B2R D)) by lra.
    replace ((Rabs (B2R dy) * / B2R D * (1 + u53) + bpow radix2 (-1022)) * B2R D) with (Rabs (B2R dy) * (1 + u53) + bpow radix2 (-1022) * B2R D) by (field; lra).
    apply Rplus_le_compat_l. apply Rle_trans with (bpow radix2 (-1022) * bpow radix2 501); [apply Rmult_le_compat_l; [apply bpow_ge_0|exact AD]|].
    rewrite <- bpow_plus. apply bpow_le. lia. }
  assert (T : Rabs (B2R sl * B2R dx) <= Rabs (B2R dy) * (1 + u53) + bpow radix2 (-520)).
  { rewrite Rabs_mult, (Rabs_pos_eq (B2R dx)) by lra. eapply Rle_trans; [|exact Q]. apply Rmult_le_compat_l; [apply Rabs_pos|lra]. }
  assert (T149 : Rabs (B2R sl * B2R dx) <= bpow radix2 149).
  { eapply Rle_trans; [exact T|]. pose proof (pow_le_2 147 148 ltac:(lia)). pose proof (pow_le_2 148 149 ltac:(lia)).
    assert (bpow radix2 (-520) <= bpow radix2 147) by (apply bpow_le; lia). pose proof (Rabs_pos (B2R dy)). nra. }
  destruct (mul_fin sl dx 149 Fs Fc ltac:(lia) T149) as (Fp & Ep & Ap). set (p := f64_mul sl dx) in *.
  destruct (add_abs p y0 149 Fp Fy0 ltac:(lia) Ap) as (FL & EL & AL); [eapply Rle_trans; [exact Y0|apply bpow_le; lia]|].
  fold L in FL, EL, AL. split; [exact FL|]. split; [exact AL|]. intros Up.
  assert (Pd : 0 <= B2R dy) by (rewrite Ed; apply rnd_pos; lra).
  assert (Ps : 0 <= B2R sl).
  { rewrite Es. apply rnd_pos. apply Rmult_le_pos; [exact Pd|]. left. apply Rinv_0_lt_compat. lra. }
  assert (Pp : 0 <= B2R p) by (rewrite Ep; apply rnd_pos; apply Rmult_le_pos; lra).
  split.
  - rewrite EL. rewrite <- (rnd64_B2R y0) at 1. apply rnd64_le. lra.
  - intros N0. rewrite EL. unfold gap.
    assert (K1 : B2R dy <= (B2R y1 - B2R y0) * (1 + u53) + bpow radix2 (-1022)) by (rewrite Ed; apply rnd_up; lra).
    rewrite (Rabs_pos_eq (B2R dy)) in T by exact Pd. rewrite Rabs_pos_eq in T by (apply Rmult_le_pos; lra).
    assert (K2 : B2R p <= (B2R dy * (1 + u53) + bpow radix2 (-520)) * (1 + u53) + bpow radix2 (-1022)).
    { rewrite Ep. eapply Rle_trans; [apply rnd_up; apply Rmult_le_pos; lra|]. apply Rplus_le_compat_r. apply Rmult_le_compat_r; [lra|exact T]. }
    eapply Rle_trans; [apply rnd_up; lra|].
    assert (Tn : bpow radix2 (-1022) <= bpow radix2 (-520)) by (apply bpow_le; lia).
    assert (T5 : 8 * bpow radix2 (-520) <= bpow radix2 (-500)).
    { change 8 with (bpow radix2 3). rewrite <- bpow_plus. apply bpow_le. lia. }
    assert (U8 : 8 * u53 = bpow radix2 (-50)) by (change 8 with (bpow radix2 3); unfold u53; rewrite <- bpow_plus; reflexivity).
    rewrite <- U8. set (t := bpow radix2 (-520)) in *. set (d := B2R y1 - B2R y0) in *.
    assert (U3 : u53 <= / 1000) by (unfold u53; cbn; lra).
    assert (D0 : 0 <= d) by (unfold d; lra). assert (t0 : 0 < t) by (unfold t; apply bpow_gt_0).
    assert (K3 : B2R p <= d * (1 + u53) * (1 + u53) * (1 + u53) + 4 * t).
    { eapply Rle_trans; [exact K2|]. assert (S1 : B2R dy * (1 + u53) + t <= d * (1 + u53) * (1 + u53) + t * (1 + u53) + t).
      { assert (B2R dy * (1 + u53) <= (d * (1 + u53) + t) * (1 + u53)) by (apply Rmult_le_compat_r; lra). lra. }
      assert (S2 : (B2R dy * (1 + u53) + t) * (1 + u53) <= (d * (1 + u53) * (1 + u53) + t * (1 + u53) + t) * (1 + u53)) by (apply Rmult_le_compat_r; lra).
      assert (t * u53 <= t / 1000) by nra. assert (t * u53 * u53 <= t / 1000) by nra. lra. }
    assert (K4 : (1 + u53) * (1 + u53) * (1 + u53) <= 1 + 4 * u53) by nra.
    assert (K5 : B2R p <= d + 4 * u53 * d + 4 * t) by nra.
    assert (K6 : B2R p + B2R y0 <= B2R y1 + 4 * u53 * B2R y1 + 4 * t).
    { unfold d in K5. assert (0 <= u53 * B2R y0) by (apply Rmult_le_pos; lra). lra. }
    apply Rle_trans with ((B2R y1 + 4 * u53 * B2R y1 + 4 * t) * (1 + u53) + bpow radix2 (-1022)); [apply Rplus_le_compat_r; apply Rmult_le_compat_r; lra|].
    assert (0 <= u53 * B2R y1) by (apply Rmult_le_pos; lra). assert (u53 * (u53 * B2R y1) <= u53 * B2R y1 / 1000) by nra. assert (u53 * t <= t / 1000) by nra. lra.
Qed.

(** ** The interpolation *)
Fixpoint asc (y : R) (l : list b64) : Prop :=
  match l with [] => True | z :: t => y <= B2R z /\ asc (B2R z) t end.

Definition node_ok (p : b64 * b64) : Prop :=
  gridlike (-350) (fst p) /\ B2R (fst p) <= bpow radix2 500 /\ is_finite (snd p) = true /\ Rabs (B2R (snd p)) <= bpow radix2 146.

Lemma gap_le : forall a b, a <= b -> gap a <= gap b.
Proof. intros a b H. unfold gap. apply Rplus_le_compat_r. apply Rmult_le_compat_r; [pose proof (bpow_gt_0 radix2 (-50)); lra|exact H]. Qed.
Lemma gap_ge : forall a, 0 <= a -> a <= gap a.
Proof. intros a H. unfold gap. pose proof (bpow_gt_0 radix2 (-50)). pose proof (bpow_gt_0 radix2 (-500)). nra. Qed.

Lemma interp_good : forall rest x x0 y0, is_finite x = true -> gridlike (-350) x0 -> B2R x0 <= B2R x ->
  is_finite y0 = true -> Rabs (B2R y0) <= bpow radix2 146 -> (forall p, In p rest -> node_ok p) ->
  let L := interp_from F64Ops x x0 y0 rest in
  is_finite L = true /\ Rabs (B2R L) <= bpow radix2 150 /\
  (asc (B2R y0) (map snd rest) -> B2R y0 <= B2R L /\
   forall hi, 0 <= B2R y0 <= hi -> (forall p, In p rest -> B2R (snd p) <= hi) -> B2R L <= gap hi).
Proof.
  induction rest as [|[x1 y1] rest IH]; intros x x0 y0 Fx G0 X0 Fy0 Y0 OK; cbv zeta; cbn [interp_from].
  - split; [exact Fy0|]. split; [eapply Rle_trans; [exact Y0|apply bpow_le; lia]|]. intros _. split; [apply Rle_refl|].
    intros hi H _. eapply Rle_trans; [apply gap_ge|apply gap_le]; apply H.
  - destruct (OK (x1, y1) (or_introl eq_refl)) as (G1 & X1 & Fy1 & Y1). cbn [fst snd] in *. pose proof G1 as (F1 & P1 & _). pose proof G0 as (F0 & P0 & _).
    cbn [nleb neqb nadd nsub nmul ndiv F64Ops]. destruct (Bleb x1 x) eqn:E.
    + apply leb_R in E; auto. destruct (IH x x1 y1 Fx G1 E Fy1 Y1 (fun p Hp => OK p (or_intror Hp))) as (A & B & C).
      split; [exact A|]. split; [exact B|]. cbn [map snd asc]. intros [S1 S2]. destruct (C S2) as [C1 C2]. split; [lra|].
      intros hi H Hr. apply C2; [|intros p Hp; apply Hr; right; exact Hp]. split; [lra|]. apply (Hr (x1, y1)). left. reflexivity.
    + assert (Lt : B2R x < B2R x1). { apply Rnot_le_lt. intros H. apply leb_R in H; auto. congruence. }
      destruct (Beqb x0 x).
      * split; [exact Fy0|]. split; [eapply Rle_trans; [exact Y0|apply bpow_le; lia]|]. intros _. split; [apply Rle_refl|].
        intros hi H _. eapply Rle_trans; [apply gap_ge|apply gap_le]; apply H.
      * destruct (segment x x0 y0 x1 y1) as (A & B & C); auto. split; [exact A|]. split; [exact B|]. cbn [map snd asc]. intros [S1 _].
        destruct (C S1) as [C1 C2]. split; [exact C1|]. intros hi H Hr. eapply Rle_trans; [apply C2; apply H|]. apply gap_le. apply (Hr (x1, y1)). left. reflexivity.
Qed.

(** ** Cumulative sums *)
Definition good (e a : Z) (k : Z) (x : b64) : Prop := gridlike e x /\ B2R x <= IZR k * bpow radix2 a.

Lemma good_le : forall e a k j x, (k <= j)%Z -> good e a k x -> good e a j x.
Proof. intros e a k j x K [G H]. split; [exact G|]. eapply Rle_trans; [exact H|]. apply Rmult_le_compat_r; [apply bpow_ge_0|apply IZR_le; exact K]. Qed.

Lemma good_add : forall e a k x y, (-1074 <= e)%Z -> (-1074 <= a <= 970)%Z -> (0 <= k < 2 ^ 53)%Z ->
  good e a k x -> good e a 1 y -> good e a (k + 1) (f64_add x y).
Proof.
  intros e a k x y E A K [(Fx & Px & Gx) Hx] [(Fy & Py & Gy) Hy].
  destruct (add_small x y k 1 a Fx Fy (conj Px Hx) (conj Py Hy) ltac:(lia) A) as [F [P H]].
  split; [|exact H]. split; [exact F|]. split; [exact P|].
  assert (EA : B2R (f64_add x y) = rnd64 (B2R x + B2R y)).
  { pose proof (Bplus_correct 53 1024 _ _ mode_NE x y Fx Fy) as M. fold (f64_add x y) in M.
    destruct (Rlt_bool_spec (Rabs (rnd64 (B2R x + B2R y))) (bpow radix2 1024)) as [Lt|Ge]; [apply M|]. exfalso.
    destruct M as (M & _). destruct (f64_add x y); try discriminate F; cbn in M; discriminate M. }
  pose proof (bpow_gt_0 radix2 e). destruct Gx as [Gx|Gx], Gy as [Gy|Gy]; [left; rewrite EA, Gx, Gy, Rplus_0_r; apply rnd64_0|right..];
    rewrite EA, <- (rnd_bpow e) by lia; apply rnd64_le; lra.
Qed.

Lemma cumsum_from_good : forall l e a acc k, (-1074 <= e)%Z -> (-1074 <= a <= 970)%Z -> (0 <= k)%Z -> (k + Z.of_nat (List.length l) <= 2 ^ 53)%Z ->
  good e a k acc -> (forall x, In x l -> good e a 1 x) ->
  forall x, In x (cumsum_from F64Ops acc l) -> good e a (k + Z.of_nat (List.length l)) x.
Proof.
  induction l as [|y l IH]; intros e a acc k E A K N G H x; cbn [cumsum_from]; [intros []|].
  cbn [List.length] in *. rewrite Nat2Z.inj_succ in *. cbn [nadd F64Ops].
  assert (G' : good e a (k + 1) (f64_add acc y)) by (apply good_add; auto; [lia|apply H; left; reflexivity]).
  intros [<-|Hx]; [eapply good_le; [|exact G']; lia|].
  replace (k + Z.succ (Z.of_nat (List.length l)))%Z with (k + 1 + Z.of_nat (List.length l))%Z by lia.
  eapply IH; eauto; [lia|lia|]. intros z Hz. apply H. right. exact Hz.
Qed.

Lemma cumsum_good : forall l e a, (-1074 <= e)%Z -> (-1074 <= a <= 970)%Z -> (Z.of_nat (List.length l) <= 2 ^ 53)%Z ->
  (forall x, In x l -> good e a 1 x) -> forall x, In x (cumsum F64Ops l) -> good e a (Z.of_nat (List.length l)) x.
Proof.
  intros [|y l] e a E A N H x; cbn [cumsum]; [intros []|]. cbn [List.length] in *. rewrite Nat2Z.inj_succ in *.
  intros [<-|Hx]; [eapply good_le; [|apply H; left; reflexivity]; lia|].
  replace (Z.succ (Z.of_nat (List.length l))) with (1 + Z.of_nat (List.length l))%Z by lia.
  eapply cumsum_from_good; eauto; [lia|lia|apply H; left; reflexivity|]. intros z Hz. apply H. right. exact Hz.
Qed.

(** ** The cumulated volumes of a histogram *)
Lemma step_facts : forall area w : b64, is_finite area = true -> is_finite w = true ->
  bpow radix2 (-200) <= B2R area <= bpow radix2 200 -> bpow radix2 (-100) <= B2R w <= bpow radix2 100 ->
  is_finite (f64_mul area w) = true /\ bpow radix2 (-300) <= B2R (f64_mul area w) <= bpow radix2 300.
Proof.
  intros area w Fa Fw A W. pose proof (bpow_gt_0 radix2 (-200)) as P1. pose proof (bpow_gt_0 radix2 (-100)) as P2.
  destruct (mul_abs area w 200 100 Fa Fw ltac:(lia)) as (F & E & U); [rewrite Rabs_pos_eq; lra|rewrite Rabs_pos_eq; lra|].
  split; [exact F|]. change (200 + 100)%Z with 300%Z in U. apply Rabs_le_inv in U. split; [|apply U].
  rewrite E, <- (rnd_bpow (-300)) by lia. apply rnd64_le. change (-300)%Z with (-200 + -100)%Z. rewrite bpow_plus. apply Rmult_le_compat; lra.
Qed.

Lemma removelast_in' : forall {A} (x : A) l, In x (removelast l) -> In x l.
Proof. induction l as [|y [|z l] IH]; cbn [removelast]; [auto|intros []|]. intros [->|H]; [left; auto|right; apply IH, H]. Qed.

Lemma inner_in : forall {A} (x : A) l, In x (inner l) -> In x l.
Proof. intros A x [|y l] H; [exact H|]. right. apply removelast_in'. exact H. Qed.

Lemma volumes_good : forall (h : @histogram b64) (area : b64), is_finite area = true -> is_finite (b_resolution (h_bins h)) = true ->
  bpow radix2 (-200) <= B2R area <= bpow radix2 200 -> bpow radix2 (-100) <= B2R (b_resolution (h_bins h)) <= bpow radix2 100 ->
  (1 <= Z.of_nat (List.length (h_counts h)) <= 2 ^ 43)%Z -> (forall c, In c (h_counts h) -> (0 <= c <= 2 ^ 53)%Z) ->
  forall x, In x (cumulative_volume F64Ops h area) -> gridlike (-350) x /\ B2R x <= bpow radix2 500.
Proof.
  intros h area Fa Fw A W N C x. unfold cumulative_volume. cbn [nmul nofZ F64Ops].
  destruct (step_facts area _ Fa Fw A W) as [Fm [Ml Mu]]. set (st := f64_mul area (b_resolution (h_bins h))) in *.
  set (cum := cumsum F64Ops (map f64_ofZ (h_counts h))).
  assert (GC : forall y, In y cum -> good 0 53 (2 ^ 43) y).
  { intros y Hy. eapply good_le; [|eapply (cumsum_good _ 0 53); eauto; try lia].
    - rewrite map_length. lia.
    - rewrite map_length. lia.
    - intros z Hz. apply in_map_iff in Hz. destruct Hz as (c & <- & Hc). apply C in Hc. destruct (ofZ_int c ltac:(lia)) as [F E].
      split; [split; [exact F|]|]; rewrite E.
      + split; [apply IZR_le; lia|]. destruct (Z.eq_dec c 0) as [->|]; [left; reflexivity|right]. change (bpow radix2 0) with 1. apply IZR_le. lia.
      + rewrite Rmult_1_l. change (bpow radix2 53) with (IZR (2 ^ 53)). apply IZR_le. lia. }
  assert (GB : forall y, In y (f64_ofZ 0 :: removelast cum) -> good 0 53 (2 ^ 43) y).
  { intros y [<-|Hy]; [|apply GC, removelast_in', Hy]. destruct (ofZ_int 0 ltac:(lia)) as [F E]. split; [split; [exact F|rewrite E; split; [lra|left; reflexivity]]|].
    rewrite E. apply Rmult_le_pos; [apply IZR_le; lia|apply bpow_ge_0]. }
  intros Hx. assert (G : good (-300) 396 (Z.of_nat (List.length (map (f64_mul st) (f64_ofZ 0 :: removelast cum)))) x).
  { eapply cumsum_good; [lia|lia| | |exact Hx].
    - rewrite map_length. cbn [List.length]. rewrite removelast_length. unfold cum. rewrite cumsum_length, map_length. lia.
    - intros z Hz. apply in_map_iff in Hz. destruct Hz as (y & <- & Hy). apply GB in Hy. destruct Hy as [(Fy & Py & Gy) Hy].
      assert (Hy' : B2R y <= bpow radix2 96).
      { eapply Rle_trans; [exact Hy|]. change (IZR (2 ^ 43)) with (bpow radix2 43). rewrite <- bpow_plus. apply bpow_le. lia. }
      pose proof (bpow_gt_0 radix2 (-300)) as P3.
      destruct (mul_abs st y 300 96 Fm Fy ltac:(lia)) as (F & E & U); [rewrite Rabs_pos_eq; lra|rewrite Rabs_pos_eq; lra|].
      assert (P : 0 <= B2R (f64_mul st y)) by (rewrite E; apply rnd_pos; apply Rmult_le_pos; lra).
      split; [split; [exact F|split; [exact P|]]|rewrite Rmult_1_l; apply Rabs_le_inv in U; apply U].
      destruct Gy as [Gy|Gy]; [left; rewrite E, Gy, Rmult_0_r; apply rnd64_0|right].
      rewrite E, <- (rnd_bpow (-300)) by lia. apply rnd64_le. change (bpow radix2 0) with 1 in Gy. nra. }
  destruct G as [(F & P & G) H]. split.
  - split; [exact F|]. split; [exact P|]. destruct G as [G|G]; [left; exact G|right]. eapply Rle_trans; [|exact G]. apply bpow_le. lia.
  - eapply Rle_trans; [exact H|]. apply Rle_trans with (bpow radix2 53 * bpow radix2 396); [|rewrite <- bpow_plus; apply bpow_le; lia].
    apply Rmult_le_compat_r; [apply bpow_ge_0|]. change (bpow radix2 53) with (IZR (2 ^ 53)). apply IZR_le.
    rewrite map_length. cbn [List.length]. rewrite removelast_length. unfold cum. rewrite cumsum_length, map_length. lia.
Qed.

(** ** The elevations of the bins *)
Section Elevs.
Variables w zmin zmax : b64.
Hypothesis Fw : is_finite w = true.
Hypothesis Wlo : bpow radix2 (-100) <= B2R w.
Hypothesis Whi : B2R w <= bpow radix2 100.
Hypothesis F0 : is_finite zmin = true.
Hypothesis F1 : is_finite zmax = true.
Hypothesis B0 : Rabs (B2R zmin) <= bpow radix2 126.
Hypothesis B1 : Rabs (B2R zmax) <= bpow radix2 126.
Hypothesis H0 : Rabs (B2R zmin) <= bpow radix2 40 * B2R w.
Hypothesis H1 : Rabs (B2R zmax) <= bpow radix2 40 * B2R w.
Hypothesis Le : B2R zmin <= B2R zmax.
Variable b : @bins_info b64.
Hypothesis Eb : histogram_bins F64Ops b64_int zmin zmax w = Ok b.

Definition binz (i : Z) : b64 :=
  f64_add (f64_add (f64_mul (f64_ofZ i) w) (b_lower b)) (f64_mul w (f64_div (f64_ofZ 1) (f64_ofZ 2))).

Lemma half_R : is_finite (f64_div (f64_ofZ 1) (f64_ofZ 2)) = true /\ B2R (f64_div (f64_ofZ 1) (f64_ofZ 2)) = / 2.
Proof. split; [reflexivity|]. vm_compute. lra. Qed.

Lemma hb : b_num b = nb w zmin zmax /\ b_resolution b = w /\
  is_finite (b_lower b) = true /\ is_finite (b_upper b) = true /\
  Rabs (B2R (b_lower b)) <= bpow radix2 141 /\ Rabs (B2R (b_upper b)) <= bpow radix2 145 /\
  B2R (b_lower b) = rnd64 (IZR (m0 w zmin) * B2R w) /\
  Rabs (B2R (b_lower b) - IZR (m0 w zmin) * B2R w) <= eps * B2R w /\
  Rabs (B2R (b_upper b) - (IZR (m0 w zmin) + IZR (nb w zmin zmax)) * B2R w) <= 3 * eps * B2R w /\
  B2R (b_lower b) < B2R (b_upper b).
Proof. destruct (bins_ok w Fw Wlo Whi zmin zmax F0 F1 B0 B1 H0 H1 Le) as (b' & E & H). rewrite E in Eb. injection Eb as <-. exact H. Qed.

Lemma half_w : is_finite (f64_mul w (f64_div (f64_ofZ 1) (f64_ofZ 2))) = true /\ B2R (f64_mul w (f64_div (f64_ofZ 1) (f64_ofZ 2))) = B2R w / 2.
Proof.
  destruct half_R as [Fh Eh]. pose proof (w_pos w Wlo) as P.
  destruct (mul_abs w (f64_div (f64_ofZ 1) (f64_ofZ 2)) 100 0 Fw Fh ltac:(lia)) as (F & E & _); [apply (w_abs w); assumption|rewrite Eh, Rabs_pos_eq by lra; cbn; lra|].
  split; [exact F|]. rewrite E, Eh. apply rnd_fmt.
  change (fmt64 (B2R w * bpow radix2 (-1))). apply (mult_bpow_exact_FLT radix2 (-1074) 53); [apply (generic_format_B2R 53 1024)|].
  assert ((-100 < mag radix2 (B2R w))%Z) by (apply mag_gt_bpow; rewrite Rabs_pos_eq; lra). lia.
Qed.

Lemma w43 : bpow radix2 43 = 8796093022208. Proof. reflexivity. Qed.

Lemma binz_facts : forall i, (0 <= i < nb w zmin zmax)%Z ->
  is_finite (binz i) = true /\ Rabs (B2R (binz i)) <= bpow radix2 146 /\
  Rabs (B2R (binz i) - (IZR (m0 w zmin) + IZR i + / 2) * B2R w) <= 4 * eps * B2R w /\
  B2R (binz i) = rnd64 (rnd64 (rnd64 (IZR i * B2R w) + B2R (b_lower b)) + B2R w / 2).
Proof.
  intros i I. destruct hb as (_ & _ & Fl & _ & Al & _ & _ & Nl & _ & _). pose proof (w_pos w Wlo) as P.
  destruct (m_facts w Fw Wlo Whi zmin zmax F0 F1 B0 B1 H0 H1 Le) as (M0 & M1 & N).
  destruct half_w as [Fh Eh]. destruct (ofZ_int i ltac:(lia)) as [Fi Ei].
  assert (I43 : Rabs (IZR i) <= bpow radix2 43) by (rewrite <- abs_IZR; change (bpow radix2 43) with (IZR (2 ^ 43)); apply IZR_le; lia).
  destruct (mul_abs (f64_ofZ i) w 43 100 Fi Fw ltac:(lia)) as (Fp & Ep & Ap); [rewrite Ei; exact I43|apply (w_abs w); assumption|].
  rewrite Ei in Ep. change (43 + 100)%Z with 143%Z in Ap.
  destruct (add_abs _ (b_lower b) 144 Fp Fl ltac:(lia)) as (Fs & Es & As); [eapply Rle_trans; [exact Ap|apply bpow_le; lia]|eapply Rle_trans; [exact Al|apply bpow_le; lia]|].
  destruct (add_abs _ _ 145 Fs Fh ltac:(lia) As) as (Fb & Ebz & Ab).
  { rewrite Eh, Rabs_pos_eq by lra. apply Rle_trans with (bpow radix2 100); [lra|apply bpow_le; lia]. }
  unfold binz. split; [exact Fb|]. split; [exact Ab|].
  assert (i0 : 0 <= IZR i) by (apply IZR_le; lia).
  assert (Hi : IZR i <= bpow radix2 42) by (change (bpow radix2 42) with (IZR (2 ^ 42)); apply IZR_le; unfold nb in *; lia).
  assert (Hmi : -2199023255552 <= IZR (m0 w zmin) + IZR i <= 2199023255552) by (rewrite <- plus_IZR; split; apply IZR_le; unfold nb in *; lia).
  assert (R1 : Rabs (rnd64 (IZR i * B2R w) - IZR i * B2R w) <= eps * B2R w).
  { apply rnd_w; auto. rewrite Rabs_pos_eq by (apply Rmult_le_pos; lra). apply Rmult_le_compat_r; lra. }
  rewrite <- Ep in R1. set (p := B2R (f64_mul (f64_ofZ i) w)) in *. set (l := B2R (b_lower b)) in *. set (m := IZR (m0 w zmin)) in *.
  assert (C1 : Rabs (p + l - (m + IZR i) * B2R w) <= 2 * eps * B2R w).
  { apply Rabs_le_inv in R1, Nl. apply Rabs_le. lra. }
  assert (R2 : Rabs (rnd64 (p + l) - (p + l)) <= eps * B2R w).
  { apply rnd_w; auto. apply Rabs_le_inv in C1. apply Rabs_le. rewrite eps_val in *. rewrite two42. nra. }
  rewrite Es in Ebz. rewrite Eh in Ebz.
  assert (R3 : Rabs (rnd64 (rnd64 (p + l) + B2R w / 2) - (rnd64 (p + l) + B2R w / 2)) <= eps * B2R w).
  { apply rnd_w; auto. apply Rabs_le_inv in C1, R2. apply Rabs_le. rewrite eps_val in *. rewrite two42. nra. }
  split; [|rewrite Ebz, Ep; reflexivity].
  rewrite Ebz. apply Rabs_le_inv in C1, R2, R3. apply Rabs_le. lra.
Qed.

Lemma binz_mono : forall i j, (0 <= i <= j)%Z -> (j < nb w zmin zmax)%Z -> B2R (binz i) <= B2R (binz j).
Proof.
  intros i j I J. pose proof (w_pos w Wlo) as P. destruct (binz_facts i ltac:(lia)) as (_ & _ & _ & ->). destruct (binz_facts j ltac:(lia)) as (_ & _ & _ & ->).
  apply rnd64_le, Rplus_le_compat_r, rnd64_le, Rplus_le_compat_r, rnd64_le, Rmult_le_compat_r; [lra|apply IZR_le; lia].
Qed.

Section Pos.
Hypothesis Pz : 0 <= B2R zmin.
Lemma trunc_pos : forall z : b64, is_finite z = true -> Rabs (B2R z) <= bpow radix2 126 -> Rabs (B2R z) <= bpow radix2 40 * B2R w -> 0 <= B2R z ->
  let m := IZR (Ztrunc (B2R (f64_mul z (f64_div (f64_ofZ 1) w)))) in
  0 <= m /\ m * B2R w <= B2R z + eps * B2R w /\ B2R z < (m + 1) * B2R w + eps * B2R w.
Proof.
  intros z F B H Z0 m. pose proof (w_pos w Wlo) as P. destruct (zs_facts w Fw Wlo Whi z F B H) as (Fs & Es & _ & Cs).
  assert (S0 : 0 <= B2R (f64_mul z (f64_div (f64_ofZ 1) w))).
  { rewrite Es. apply rnd_pos. apply Rmult_le_pos; [exact Z0|]. apply (scale_facts w Fw Wlo Whi). }
  unfold m. rewrite Ztrunc_floor by exact S0. pose proof (Zfloor_lb (B2R (f64_mul z (f64_div (f64_ofZ 1) w)))) as L.
  pose proof (Zfloor_ub (B2R (f64_mul z (f64_div (f64_ofZ 1) w)))) as U. apply Rabs_le_inv in Cs.
  split; [apply IZR_le; apply Zfloor_lub; exact S0|]. split; nra.
Qed.

Lemma binz_first : (2 <= nb w zmin zmax)%Z -> B2R zmin <= B2R (binz 1).
Proof.
  intros N. pose proof (w_pos w Wlo) as P. destruct (binz_facts 1 ltac:(lia)) as (_ & _ & C & _).
  destruct (trunc_pos zmin F0 B0 H0 Pz) as (_ & _ & U). fold (m0 w zmin) in U. apply Rabs_le_inv in C. rewrite eps_val in *. lra.
Qed.
Lemma binz_last : (2 <= nb w zmin zmax)%Z -> B2R (binz (nb w zmin zmax - 2)) <= B2R zmax.
Proof.
  intros N. pose proof (w_pos w Wlo) as P. destruct (binz_facts (nb w zmin zmax - 2) ltac:(lia)) as (_ & _ & C & _).
  destruct (trunc_pos zmax F1 B1 H1 ltac:(lra)) as (_ & U & _). fold (m1 w zmax) in U. apply Rabs_le_inv in C.
  rewrite <- plus_IZR in C. unfold nb in C. replace (m0 w zmin + (m1 w zmax - m0 w zmin + 1 - 2))%Z with (m1 w zmax - 1)%Z in C by lia.
  rewrite minus_IZR in C. unfold nb. rewrite eps_val in *. lra.
Qed.
End Pos.

(** ** The level *)
Lemma zseq_last : forall k a, removelast (zseq a (S k)) = zseq a k.
Proof. induction k as [|k IH]; intros a; [reflexivity|]. change (zseq a (S (S k))) with (a :: zseq (a + 1) (S k)). change (zseq a (S k)) with (a :: zseq (a + 1) k). rewrite <- IH. reflexivity. Qed.

Lemma removelast_map : forall {A B} (f : A -> B) l, removelast (map f l) = map f (removelast l).
Proof. induction l as [|x [|y l] IH]; [reflexivity|reflexivity|]. cbn [map removelast] in *. rewrite IH. reflexivity. Qed.

Lemma inner_bins : inner (bin_waterlevel_z F64Ops b) = map binz (zseq 1 (Z.to_nat (nb w zmin zmax) - 2)).
Proof.
  destruct hb as (Nb & Rb & _). destruct (m_facts w Fw Wlo Whi zmin zmax F0 F1 B0 B1 H0 H1 Le) as (_ & _ & N).
  unfold inner, bin_waterlevel_z. rewrite Nb, Rb, pyrange_from0. cbn [nadd nmul ndiv nofZ F64Ops]. fold binz.
  destruct (Z.to_nat (nb w zmin zmax)) as [|k] eqn:E; [lia|]. cbn [zseq map tl]. destruct k as [|k]; [reflexivity|].
  change (fun i => f64_add (f64_add (f64_mul (f64_ofZ i) w) (b_lower b)) (f64_mul w (f64_div (f64_ofZ 1) (f64_ofZ 2)))) with binz.
  rewrite removelast_map. change (0 + 1)%Z with 1%Z. rewrite zseq_last. f_equal. f_equal. lia.
Qed.

Lemma asc_bins : forall k a y, (0 <= a)%Z -> (a + Z.of_nat k <= nb w zmin zmax)%Z -> (forall i, (0 < k)%nat -> i = a -> y <= B2R (binz i)) ->
  (forall i, (a <= i < a + Z.of_nat k)%Z -> B2R (binz i) <= B2R zmax) -> y <= B2R zmax -> asc y (map binz (zseq a k) ++ [zmax]).
Proof.
  induction k as [|k IH]; intros a y A K Hy Hz Hm; cbn [zseq map app asc]; [split; auto|].
  rewrite Nat2Z.inj_succ in *. split; [apply Hy; [lia|reflexivity]|]. apply IH; [lia|lia| |intros i Hi; apply Hz; lia|apply Hz; lia].
  intros i Hk ->. apply binz_mono; lia.
Qed.

Lemma combine_snd : forall {A B} (l : list A) (l' : list B), List.length l = List.length l' -> map snd (combine l l') = l'.
Proof. induction l as [|x l IH]; intros [|y l'] H; try discriminate H; [reflexivity|]. cbn [combine map snd]. f_equal. apply IH. injection H as H. exact H. Qed.

Theorem level_facts : forall counts area md mv v,
  Z.of_nat (List.length counts) = nb w zmin zmax -> (forall c, In c counts -> (0 <= c <= 2 ^ 53)%Z) ->
  is_finite area = true -> bpow radix2 (-200) <= B2R area <= bpow radix2 200 ->
  is_finite md = true -> Rabs (B2R md) <= bpow radix2 130 ->
  gridlike (-350) mv -> B2R mv <= bpow radix2 500 -> is_finite v = true -> 0 <= B2R v ->
  exists L, water_level F64Ops (mkHyps (mkHist counts b) zmin zmax) area md mv v = Ok L /\
    is_finite L = true /\ Rabs (B2R L) <= bpow radix2 150 /\
    (0 <= B2R zmin -> L = f64_add zmin md \/ B2R zmin <= B2R L <= gap (B2R zmax)).
Proof.
  intros counts area md mv v NC CB Fa A Fm M G MV Fv V.
  destruct hb as (Nb & Rb & _). destruct (m_facts w Fw Wlo Whi zmin zmax F0 F1 B0 B1 H0 H1 Le) as (_ & _ & N).
  unfold water_level. cbn [z_hist z_min z_max h_bins nadd F64Ops]. destruct (_ || _).
  - destruct (add_abs zmin md 130 F0 Fm ltac:(lia)) as (F & _ & B); [eapply Rle_trans; [exact B0|apply bpow_le; lia]|exact M|].
    exists (f64_add zmin md). split; [reflexivity|]. split; [exact F|]. split; [eapply Rle_trans; [exact B|apply bpow_le; lia]|]. intros _. left. reflexivity.
  - unfold interp. change (nofZ F64Ops 0) with (f64_ofZ 0). rewrite inner_bins. set (cv := inner (cumulative_volume F64Ops (mkHist counts b) area)).
    assert (LC : List.length cv = (Z.to_nat (nb w zmin zmax) - 2)%nat).
    { unfold cv. rewrite inner_length. unfold cumulative_volume. rewrite cumsum_length, map_length. cbn [List.length h_counts]. rewrite removelast_length, cumsum_length, map_length. lia. }
    assert (LL : List.length (cv ++ [mv]) = List.length (map binz (zseq 1 (Z.to_nat (nb w zmin zmax) - 2)) ++ [zmax])).
    { rewrite !app_length, map_length, zseq_length, LC. reflexivity. }
    set (ys := map binz (zseq 1 (Z.to_nat (nb w zmin zmax) - 2)) ++ [zmax]) in *.
    change ((f64_ofZ 0 :: cv) ++ [mv]) with (f64_ofZ 0 :: (cv ++ [mv])). change ((zmin :: map binz (zseq 1 (Z.to_nat (nb w zmin zmax) - 2))) ++ [zmax]) with (zmin :: ys).
    cbn [List.length combine]. rewrite LL, Nat.eqb_refl. cbn [negb nltb F64Ops].
    destruct (ofZ_int 0 ltac:(lia)) as [Fz Ez].
    assert (E0 : Bltb v (f64_ofZ 0) = false).
    { destruct (Bltb v (f64_ofZ 0)) eqn:E; [|reflexivity]. apply ltb_R in E; auto. rewrite Ez in E. change (IZR 0) with 0 in E. lra. }
    rewrite E0. eexists. split; [reflexivity|].
    assert (OKY : forall y, In y ys -> is_finite y = true /\ Rabs (B2R y) <= bpow radix2 146).
    { intros y Hy. apply in_app_iff in Hy. destruct Hy as [Hy|[<-|[]]]; [|split; [exact F1|eapply Rle_trans; [exact B1|apply bpow_le; lia]]].
      apply in_map_iff in Hy. destruct Hy as (i & <- & Hi). apply in_zseq in Hi. destruct (binz_facts i ltac:(lia)) as (a & b' & _). split; assumption. }
    assert (OKX : forall x, In x (cv ++ [mv]) -> gridlike (-350) x /\ B2R x <= bpow radix2 500).
    { intros x Hx. apply in_app_iff in Hx. destruct Hx as [Hx|[<-|[]]]; [|split; assumption]. apply inner_in in Hx. revert x Hx. apply volumes_good; auto.
      - cbn [h_bins]. rewrite Rb. exact Fw.
      - cbn [h_bins]. rewrite Rb. split; assumption.
      - cbn [h_counts]. lia. }
    destruct (interp_good (combine (cv ++ [mv]) ys) v (f64_ofZ 0) zmin Fv) as (Q1 & Q2 & Q3).
    + split; [exact Fz|]. rewrite Ez. split; [apply Rle_refl|left; reflexivity].
    + rewrite Ez. exact V.
    + exact F0.
    + eapply Rle_trans; [exact B0|apply bpow_le; lia].
    + intros [x y] Hp. pose proof (in_combine_l _ _ _ _ Hp) as Hx. pose proof (in_combine_r _ _ _ _ Hp) as Hy. apply OKX in Hx. apply OKY in Hy.
      repeat split; cbn [fst snd]; try apply Hx; apply Hy.
    + split; [exact Q1|]. split; [exact Q2|]. intros Z0. right. rewrite combine_snd in Q3 by exact LL.
      assert (BZ : forall i, (1 <= i < 1 + Z.of_nat (Z.to_nat (nb w zmin zmax) - 2))%Z -> B2R (binz i) <= B2R zmax).
      { intros i Hi. eapply Rle_trans; [apply (binz_mono i (nb w zmin zmax - 2)); lia|]. apply binz_last; [exact Z0|lia]. }
      destruct Q3 as [Q3 Q4].
      { apply asc_bins; [lia|lia| |exact BZ|exact Le]. intros i Hk ->. apply binz_first; [exact Z0|lia]. }
      split; [exact Q3|]. apply Q4; [split; assumption|]. intros [x y] Hp. cbn [snd]. apply in_combine_r in Hp. apply in_app_iff in Hp.
      destruct Hp as [Hy|[<-|[]]]; [|apply Rle_refl]. apply in_map_iff in Hy. destruct Hy as (i & <- & Hi). apply in_zseq in Hi. apply BZ. lia.
Qed.
End Elevs.
