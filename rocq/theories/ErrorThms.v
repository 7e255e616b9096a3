(** * Errors in the terrain and the filled surface *)

From Coq Require Import Reals Lra.
From Flocq Require Import Core.Raux Core.Zaux Core.Defs IEEE754.BinarySingleNaN.
From Verif Require Import Base BaseProofs Num Float64 Float64Proofs BluespotThms FillModel FillSpec FillProofs FillThms GridProofs FilterSelect LevelProofs DemModel DemProofs FlowModel FinishArith NoFlatsProofs.

Lemma finite_nn : forall x : b64, finite64 x -> not_nan x.
Proof. intros [s|s| |s m e B] H; try reflexivity; discriminate H. Qed.

Lemma abs_bounds : forall x e, (Rabs x <= e -> - e <= x <= e)%R.
Proof. intros x e H. destruct (Rcase_abs x) as [N|N]; [rewrite (Rabs_left _ N) in H|rewrite (Rabs_right _ N) in H]; lra. Qed.

Section Errors.
Variables dem dem' : raster b64.
Variable e : R.
Hypothesis Sh : same_shape dem dem'.
Hypothesis HF : dem_finite dem.
Hypothesis HF' : dem_finite dem'.
Hypothesis Near : forall c, inside (nrows dem) (ncols dem) c -> (Rabs (B2R (at_ dem c) - B2R (at_ dem' c)) <= e)%R.

Lemma escapes_higher : forall rows cols (t : cell -> b64), (forall c, inside rows cols c -> finite64 (t c)) -> forall L M : b64, finite64 L -> finite64 M -> (B2R L <= B2R M)%R ->
  forall c, escapes le64 rows cols t L c -> escapes le64 rows cols t M c.
Proof.
  intros rows cols t F L M HL HM H c X. assert (K : forall c, inside rows cols c -> le64 (t c) L -> le64 (t c) M).
  { intros x I Y. apply Bleb_real; auto. apply Bleb_real in Y; auto. lra. }
  induction X as [c E V|c d I V A X IH]; [apply esc_edge; auto; apply K; auto; apply E|apply (esc_step _ _ _ _ _ _ d); auto].
Qed.

Lemma escapes_near : forall L c, finite64 L -> escapes le64 (nrows dem') (ncols dem') (at_ dem') L c ->
  exists M, finite64 M /\ (B2R M <= B2R L + e)%R /\ escapes le64 (nrows dem) (ncols dem) (at_ dem) M c.
Proof.
  intros L c HL X. destruct Sh as (E1 & E2). rewrite <- E1, <- E2 in X.
  assert (K : forall c, inside (nrows dem) (ncols dem) c -> le64 (at_ dem' c) L -> (B2R (at_ dem c) <= B2R L + e)%R).
  { intros x I Y. apply Bleb_real in Y; [|apply HF'; rewrite <- E1, <- E2; exact I|exact HL]. pose proof (Near x I) as N.
    apply abs_bounds in N. lra. }
  assert (Refl : forall x, finite64 x -> le64 x x) by (intros x Hx; apply Bleb_real; auto; lra).
  induction X as [c E V|c d I V A X IH].
  - pose proof (proj1 E) as I. exists (at_ dem c). split; [apply HF, I|]. split; [apply K; auto|]. apply esc_edge; [exact E|apply Refl, HF, I].
  - destruct IH as (M & HM & LM & XM). destruct (Rle_dec (B2R M) (B2R (at_ dem c))) as [Q|Q].
    + exists (at_ dem c). split; [apply HF, I|]. split; [apply K; auto|]. apply (esc_step _ _ _ _ _ _ d); [exact I|apply Refl, HF, I|exact A|].
      apply (escapes_higher _ _ _ HF M); auto.
    + exists M. split; [exact HM|]. split; [exact LM|]. apply (esc_step _ _ _ _ _ _ d); auto. apply Bleb_real; auto. lra.
Qed.
End Errors.

Lemma filled_finite : forall dem, 2 <= nrows dem -> 2 <= ncols dem -> dem32 dem -> dem_finite dem ->
  forall fuel f, fill64 fuel dem = Ok f -> forall c, inside (nrows dem) (ncols dem) c -> finite64 (at_ f c).
Proof.
  intros dem R C D F fuel f H c I. destruct (filled_is_elevation dem R C D fuel f H c I) as (d & J & E).
  specialize (F d J). unfold finite64, eq64 in *. destruct (at_ dem d) as [s|s| |s m e B]; try discriminate F; destruct (at_ f c) as [t|t| |t m' e' B'];
    try reflexivity; try discriminate E; destruct t; try destruct s; discriminate E.
Qed.

Lemma fill_above : forall dem dem' e, 2 <= nrows dem -> 2 <= ncols dem -> same_shape dem dem' -> dem32 dem -> dem32 dem' -> dem_finite dem -> dem_finite dem' ->
  (forall c, inside (nrows dem) (ncols dem) c -> (Rabs (B2R (at_ dem c) - B2R (at_ dem' c)) <= e)%R) ->
  forall fuel fuel' f f', fill64 fuel dem = Ok f -> fill64 fuel' dem' = Ok f' ->
  forall c, inside (nrows dem) (ncols dem) c -> (B2R (at_ f c) <= B2R (at_ f' c) + e)%R.
Proof.
  intros dem dem' e R C S D D' F F' N fuel fuel' f f' H H' c I. pose proof S as (E1 & E2).
  assert (I' : inside (nrows dem') (ncols dem') c) by (rewrite <- E1, <- E2; exact I).
  assert (R' : 2 <= nrows dem') by lia. assert (C' : 2 <= ncols dem') by lia.
  pose proof (filled_finite dem R C D F fuel f H c I) as G. pose proof (filled_finite dem' R' C' D' F' fuel' f' H' c I') as G'.
  assert (X : escapes le64 (nrows dem') (ncols dem') (at_ dem') (at_ f' c) c).
  { apply (fill64_level dem' R' C' D' _ _ H' c _ I' (finite_nn _ G')). apply Bleb_real; auto. lra. }
  destruct (escapes_near dem dem' e S F F' N _ c G' X) as (M & HM & LM & Y).
  apply (fill64_level dem R C D _ _ H c _ I (finite_nn _ HM)) in Y. apply Bleb_real in Y; auto. lra.
Qed.

Theorem fill_near : forall dem dem' e, 2 <= nrows dem -> 2 <= ncols dem -> same_shape dem dem' -> dem32 dem -> dem32 dem' -> dem_finite dem -> dem_finite dem' ->
  (forall c, inside (nrows dem) (ncols dem) c -> (Rabs (B2R (at_ dem c) - B2R (at_ dem' c)) <= e)%R) ->
  forall fuel fuel' f f', fill64 fuel dem = Ok f -> fill64 fuel' dem' = Ok f' ->
  forall c, inside (nrows dem) (ncols dem) c -> (Rabs (B2R (at_ f c) - B2R (at_ f' c)) <= e)%R.
Proof.
  intros dem dem' e R C S D D' F F' N fuel fuel' f f' H H' c I. pose proof S as (E1 & E2). apply Rabs_le.
  pose proof (fill_above dem dem' e R C S D D' F F' N fuel fuel' f f' H H' c I) as A.
  assert (B : (B2R (at_ f' c) <= B2R (at_ f c) + e)%R); [|lra].
  apply (fill_above dem' dem e) with (fuel := fuel') (fuel' := fuel); auto; try lia.
  - split; congruence.
  - intros x J. rewrite Rabs_minus_sym. apply N. rewrite E1, E2. exact J.
  - rewrite <- E1, <- E2. exact I.
Qed.

Theorem depth_near : forall dem dem' e, size_ok false dem -> same_shape dem dem' -> dem32 dem -> dem32 dem' -> dem_finite dem -> dem_finite dem' ->
  (forall c, inside (nrows dem) (ncols dem) c -> (Rabs (B2R (at_ dem c) - B2R (at_ dem' c)) <= e)%R) ->
  forall fuel fuel' t1 t5 t1' t5' out out', dem_process false fuel t1 t5 dem = Ok out -> dem_process false fuel' t1' t5' dem' = Ok out' ->
  forall c, inside (nrows dem) (ncols dem) c ->
  (2 * e < B2R (at_ (do_filled out) c) - B2R (at_ dem c))%R -> lt64 f64_zero (at_ (do_depths out') c).
Proof.
  intros dem dem' e Z S D D' F F' N fuel fuel' t1 t5 t1' t5' out out' H H' c I Q. pose proof S as (E1 & E2).
  assert (Z' : size_ok false dem') by (cbn in *; lia).
  assert (I' : inside (nrows dem') (ncols dem') c) by (rewrite <- E1, <- E2; exact I).
  destruct (dem_process_parts _ _ _ _ _ _ H) as (_ & E & _). destruct (dem_process_parts _ _ _ _ _ _ H') as (_ & E' & _). cbn in E, E', Z.
  pose proof (fill_near dem dem' e ltac:(lia) ltac:(lia) S D D' F F' N _ _ _ _ E E' c I) as A. pose proof (N c I) as B.
  apply abs_bounds in A, B.
  apply (depths_facts false _ _ _ dem' out' Z' D' F' H'); [exact I'|].
  apply Bltb_real; [apply F', I'| |lra]. apply (filled_finite dem') with (fuel := fuel'); auto; lia.
Qed.

(** ** Examples *)
Lemma near_one : forall (dem : raster b64) i j x e, (0 <= e)%R -> (Rabs (B2R (at_ dem (i, j)%Z) - B2R x) <= e)%R ->
  forall c, inside (nrows dem) (ncols dem) c -> (Rabs (B2R (at_ dem c) - B2R (at_ (rset dem i j x) c)) <= e)%R.
Proof.
  intros dem i j x e E H [r k] _. unfold at_ at 2, rset. cbn [rget fst snd]. destruct (Z.eqb_spec r i) as [->|]; [destruct (Z.eqb_spec k j) as [->|]|]; cbn [andb].
  - exact H.
  - unfold at_. cbn [fst snd]. rewrite Rminus_eq_0, Rabs_R0. exact E.
  - unfold at_. cbn [fst snd]. rewrite Rminus_eq_0, Rabs_R0. exact E.
Qed.

(** A ridge with the same drop to the left and to the right. *)
Definition ridge : raster b64 := zrows [[20;20;20];[5;10;5];[20;20;20]].
Definition ridge' : raster b64 := rset ridge 1 0 (f64 5242879 (-20)).
Lemma close_five : (Rabs (B2R (at_ ridge (1, 0)%Z) - B2R (f64 5242879 (-20))) <= / 1000000)%R.
Proof.
  change (at_ ridge (1, 0)) with (f64_ofZ 5). rewrite (proj2 (ofZ_int 5 ltac:(lia))).
  assert (E : B2R (f64 5242879 (-20)) = (5242879 / 1048576)%R).
  { rewrite B2R_rank by reflexivity. replace (rank (f64 5242879 (-20))) with (5242879 * 2 ^ 1054) by (vm_compute; reflexivity).
    rewrite mult_IZR. change 2 with (radix_val radix2) at 1. rewrite IZR_Zpower by lia. rewrite Rmult_assoc, <- bpow_plus.
    change (bpow radix2 (1054 + -1074)) with (/1048576)%R. lra. }
  rewrite E. apply Rabs_le. lra.
Qed.

Definition dir_is (dem : raster b64) (d : Z) : bool := on_ok (fun o => at_ (do_flowdir o) (1, 1) =? d) (dem_process false 20 (f64_ofZ 1) (f64_ofZ 1) dem).
Theorem ridge_tips : exists dem dem' out out', dem32 dem /\ dem32 dem' /\ dem_finite dem /\ dem_finite dem' /\ same_shape dem dem' /\
  (forall c, inside (nrows dem) (ncols dem) c -> (Rabs (B2R (at_ dem c) - B2R (at_ dem' c)) <= / 1000000)%R) /\
  dem_process false 20 (f64_ofZ 1) (f64_ofZ 1) dem = Ok out /\ dem_process false 20 (f64_ofZ 1) (f64_ofZ 1) dem' = Ok out' /\
  at_ (do_flowdir out) (1, 1) = 2 /\ at_ (do_flowdir out') (1, 1) = 6.
Proof.
  assert (A : dir_is ridge 2 = true) by (vm_compute; reflexivity). assert (B : dir_is ridge' 6 = true) by (vm_compute; reflexivity).
  apply on_ok_ex in A. destruct A as (o & O & A). apply on_ok_ex in B. destruct B as (o' & O' & B). apply Z.eqb_eq in A, B.
  exists ridge, ridge', o, o'. assert (D : dem32 ridge /\ dem_finite ridge) by (apply dem_ok; vm_compute; reflexivity).
  assert (D' : dem32 ridge' /\ dem_finite ridge') by (apply dem_ok; vm_compute; reflexivity).
  split; [apply D|]. split; [apply D'|]. split; [apply D|]. split; [apply D'|]. split; [split; reflexivity|].
  split; [apply near_one; [lra|exact close_five]|]. split; [exact O|]. split; [exact O'|]. split; assumption.
Qed.

Lemma ridge_example : 2 <= nrows ridge /\ 2 <= ncols ridge /\ same_shape ridge ridge' /\ dem32 ridge /\ dem32 ridge' /\ dem_finite ridge /\ dem_finite ridge' /\
  (forall c, inside (nrows ridge) (ncols ridge) c -> (Rabs (B2R (at_ ridge c) - B2R (at_ ridge' c)) <= / 1000000)%R).
Proof.
  assert (D : dem32 ridge /\ dem_finite ridge) by (apply dem_ok; vm_compute; reflexivity).
  assert (D' : dem32 ridge' /\ dem_finite ridge') by (apply dem_ok; vm_compute; reflexivity).
  split; [cbn; lia|]. split; [cbn; lia|]. split; [split; reflexivity|]. split; [apply D|]. split; [apply D'|]. split; [apply D|]. split; [apply D'|].
  apply near_one; [lra|exact close_five].
Qed.

(** With speedups. *)
Definition jump : raster b64 := zrows [[10;10;3;10;10];[3;10;0;0;3];[0;0;3;3;3];[3;3;10;3;3]].
Definition jump' : raster b64 := rset jump 2 3 (f64 3071 (-10)).
Lemma close_three : (Rabs (B2R (at_ jump (2, 3)%Z) - B2R (f64 3071 (-10))) <= / 1000)%R.
Proof.
  change (at_ jump (2, 3)) with (f64_ofZ 3). rewrite (proj2 (ofZ_int 3 ltac:(lia))).
  assert (E : B2R (f64 3071 (-10)) = (3071 / 1024)%R).
  { rewrite B2R_rank by reflexivity. replace (rank (f64 3071 (-10))) with (3071 * 2 ^ 1064) by (vm_compute; reflexivity).
    rewrite mult_IZR. change 2 with (radix_val radix2) at 1. rewrite IZR_Zpower by lia. rewrite Rmult_assoc, <- bpow_plus.
    change (bpow radix2 (1064 + -1074)) with (/1024)%R. lra. }
  rewrite E. apply Rabs_le. lra.
Qed.
Lemma is_int_R : forall x k, (Z.abs k <= 2 ^ 53)%Z -> is_finite x = true -> Beqb x (f64_ofZ k) = true -> B2R x = IZR k.
Proof. intros x k K F H. destruct (ofZ_int k K) as (F' & E). rewrite <- E. apply eqb_R; auto. Qed.
Theorem compiled_jumps : exists dem dem' f f', size_ok true dem /\ dem32 dem /\ dem32 dem' /\ dem_finite dem /\ dem_finite dem' /\ same_shape dem dem' /\
  (forall c, inside (nrows dem) (ncols dem) c -> (Rabs (B2R (at_ dem c) - B2R (at_ dem' c)) <= / 1000)%R) /\
  fill64_cy 20 dem = Ok f /\ fill64_cy 20 dem' = Ok f' /\ B2R (at_ f (1, 3)) = 3%R /\ B2R (at_ f' (1, 3)) = 0%R.
Proof.
  assert (A : on_ok (fun f => is_finite (at_ f (1, 3)) && Beqb (at_ f (1, 3)) (f64_ofZ 3)) (fill64_cy 20 jump) = true) by (vm_compute; reflexivity).
  assert (B : on_ok (fun f => is_finite (at_ f (1, 3)) && Beqb (at_ f (1, 3)) (f64_ofZ 0)) (fill64_cy 20 jump') = true) by (vm_compute; reflexivity).
  apply on_ok_ex in A. destruct A as (f & F & A). apply on_ok_ex in B. destruct B as (f' & F' & B).
  apply andb_true_iff in A, B. destruct A as (A1 & A2), B as (B1 & B2).
  exists jump, jump', f, f'. assert (D : dem32 jump /\ dem_finite jump) by (apply dem_ok; vm_compute; reflexivity).
  assert (D' : dem32 jump' /\ dem_finite jump') by (apply dem_ok; vm_compute; reflexivity).
  split; [cbn; lia|]. split; [apply D|]. split; [apply D'|]. split; [apply D|]. split; [apply D'|]. split; [split; reflexivity|].
  split; [apply near_one; [lra|exact close_three]|]. split; [exact F|]. split; [exact F'|].
  split; apply is_int_R; auto; lia.
Qed.
