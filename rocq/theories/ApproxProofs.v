(** * Proofs about approximate water levels *)

From Coq Require Import QArith Lqa.
From Verif Require Import Base BaseProofs Num LabelModel LabelProofs CompProofs NetworkSpec NetworkThms HypsModel HypsSpec
  HypsProofs HypsThms ApproxModel ApproxSpec.
Local Open Scope Z_scope.
Local Arguments Qplus : simpl never.
Local Arguments Qmult : simpl never.
Local Arguments Qminus : simpl never.
Local Arguments Qdiv : simpl never.

(** ** Linear interpolation *)

Fixpoint points (x0 y0 : Q) (rest : list (Q * Q)) : Prop :=
  match rest with
  | [] => True
  | (x1, y1) :: t => (x0 < x1)%Q /\ (y0 <= y1)%Q /\ points x1 y1 t
  end.

Fixpoint last_y (y0 : Q) (rest : list (Q * Q)) : Q :=
  match rest with [] => y0 | (_, y1) :: t => last_y y1 t end.

Lemma last_y_ge : forall rest x0 y0, points x0 y0 rest -> (y0 <= last_y y0 rest)%Q.
Proof.
  induction rest as [|[x1 y1] t IH]; intros x0 y0 P; cbn in *; [lra|].
  destruct P as (A & B & C). specialize (IH _ _ C). lra.
Qed.

(** The value on one segment. *)
Lemma segment : forall x x0 y0 x1 y1, (x0 < x1)%Q -> (y0 <= y1)%Q -> (x0 <= x)%Q -> (x <= x1)%Q ->
  (y0 <= (y1 - y0) / (x1 - x0) * (x - x0) + y0 <= y1)%Q.
Proof.
  intros x x0 y0 x1 y1 A B C D.
  assert (E : ((y1 - y0) / (x1 - x0) * (x - x0) == (y1 - y0) * ((x - x0) / (x1 - x0)))%Q) by (field; lra).
  rewrite E. set (r := ((x - x0) / (x1 - x0))%Q).
  assert (0 <= r)%Q by (unfold r; apply Qle_shift_div_l; lra).
  assert (r <= 1)%Q by (unfold r; apply Qle_shift_div_r; lra).
  split; nra.
Qed.

Lemma segment_mono : forall x x' x0 y0 x1 y1, (x0 < x1)%Q -> (y0 <= y1)%Q -> (x <= x')%Q ->
  ((y1 - y0) / (x1 - x0) * (x - x0) + y0 <= (y1 - y0) / (x1 - x0) * (x' - x0) + y0)%Q.
Proof.
  intros x x' x0 y0 x1 y1 A B C.
  assert (S : (0 <= (y1 - y0) / (x1 - x0))%Q) by (apply Qle_shift_div_l; lra).
  set (s := ((y1 - y0) / (x1 - x0))%Q) in *. nra.
Qed.

Lemma interp_from_bounds : forall rest x x0 y0, points x0 y0 rest -> (x0 <= x)%Q ->
  (y0 <= interp_from QOps x x0 y0 rest <= last_y y0 rest)%Q.
Proof.
  induction rest as [|[x1 y1] t IH]; intros x x0 y0 P L; cbn [interp_from last_y]; [lra|].
  destruct P as (A & B & C). cbn [nleb neqb nadd nmul ndiv nsub QOps].
  pose proof (last_y_ge _ _ _ C) as G. destruct (Qle_bool x1 x) eqn:E.
  - apply Qle_bool_iff in E. specialize (IH x x1 y1 C E). lra.
  - apply Qle_bool_lt in E. destruct (Qeq_bool x0 x); [lra|].
    pose proof (segment x x0 y0 x1 y1 A B L ltac:(lra)). lra.
Qed.

Lemma interp_from_mono : forall rest x x' x0 y0, points x0 y0 rest -> (x0 <= x)%Q -> (x <= x')%Q ->
  (interp_from QOps x x0 y0 rest <= interp_from QOps x' x0 y0 rest)%Q.
Proof.
  induction rest as [|[x1 y1] t IH]; intros x x' x0 y0 P L M; cbn [interp_from]; [lra|].
  destruct P as (A & B & C). cbn [nleb neqb nadd nmul ndiv nsub QOps].
  destruct (Qle_bool x1 x) eqn:E; destruct (Qle_bool x1 x') eqn:E';
    repeat match goal with
    | H : Qle_bool _ _ = true |- _ => apply Qle_bool_iff in H
    | H : Qle_bool _ _ = false |- _ => apply Qle_bool_lt in H
    end.
  - apply IH; auto.
  - exfalso. lra.
  - pose proof (interp_from_bounds t x' x1 y1 C E') as (G & _).
    destruct (Qeq_bool x0 x); [lra|]. pose proof (segment x x0 y0 x1 y1 A B L ltac:(lra)). lra.
  - destruct (Qeq_bool x0 x') eqn:F'.
    + apply Qeq_bool_iff in F'. replace (Qeq_bool x0 x) with true; [lra|].
      symmetry. apply Qeq_bool_iff. lra.
    + destruct (Qeq_bool x0 x).
      * pose proof (segment x' x0 y0 x1 y1 A B ltac:(lra) ltac:(lra)). lra.
      * apply segment_mono; auto.
Qed.

Lemma interp_from_node : forall rest x0 y0 k x y, points x0 y0 rest -> nth_error ((x0, y0) :: rest) k = Some (x, y) ->
  (interp_from QOps x x0 y0 rest == y)%Q /\ (x0 <= x)%Q.
Proof.
  induction rest as [|[x1 y1] t IH]; intros x0 y0 k x y P H.
  - destruct k as [|[|]]; cbn in H; try discriminate. injection H as <- <-. cbn. split; lra.
  - destruct P as (A & B & C). destruct k as [|k].
    + cbn in H. injection H as <- <-. cbn [interp_from nleb neqb QOps].
      replace (Qle_bool x1 x0) with false by (symmetry; apply Qle_bool_lt; auto).
      replace (Qeq_bool x0 x0) with true by (symmetry; apply Qeq_bool_iff; reflexivity). split; lra.
    + change (nth_error ((x1, y1) :: t) k = Some (x, y)) in H. destruct (IH x1 y1 k x y C H) as (E & L).
      cbn [interp_from nleb QOps]. replace (Qle_bool x1 x) with true by (symmetry; apply Qle_bool_iff; auto).
      split; auto. lra.
Qed.

(** Consecutive points in order. *)
Lemma points_nth : forall rest x0 y0,
  (forall k a b c d, nth_error ((x0, y0) :: rest) k = Some (a, b) -> nth_error ((x0, y0) :: rest) (S k) = Some (c, d) ->
     (a < c)%Q /\ (b <= d)%Q) -> points x0 y0 rest.
Proof.
  induction rest as [|[x1 y1] t IH]; intros x0 y0 H; cbn; auto.
  destruct (H 0%nat x0 y0 x1 y1) as (A & B); auto. split; auto. split; auto.
  apply IH. intros k a b c d E1 E2. apply (H (S k)); auto.
Qed.

(** ** Sums *)

Lemma cumsum_from_nth : forall l acc k x, nth_error (cumsum_from QOps acc l) k = Some x ->
  (x == acc + Qsum (firstn (S k) l))%Q.
Proof.
  induction l as [|y l IH]; intros acc k x H; cbn [cumsum_from] in H; [destruct k; discriminate|].
  destruct k as [|k]; cbn [nth_error] in H.
  - injection H as <-. cbn. lra.
  - apply IH in H. cbn [firstn Qsum] in *. cbn [nadd QOps] in H. rewrite H. lra.
Qed.
Lemma cumsum_nth : forall l k x, nth_error (cumsum QOps l) k = Some x -> (x == Qsum (firstn (S k) l))%Q.
Proof.
  intros [|y l] k x H; cbn [cumsum] in H; [destruct k; discriminate|].
  destruct k as [|k]; cbn [nth_error] in H.
  - injection H as <-. cbn. lra.
  - apply cumsum_from_nth in H. rewrite H. cbn [firstn Qsum]. lra.
Qed.
Lemma cumsum_length : forall {T} (ops : NumOps T) l, length (cumsum ops l) = length l.
Proof.
  intros T ops. assert (G : forall l acc, length (cumsum_from ops acc l) = length l).
  { induction l as [|x l IH]; intros acc; cbn; auto. }
  intros [|x l]; cbn; auto.
Qed.

Lemma Qsum_inject : forall l, (Qsum (map inject_Z l) == inject_Z (zsum l))%Q.
Proof.
  induction l as [|x l IH]; cbn; [reflexivity|]. rewrite IH. rewrite <- inject_Z_plus. reflexivity.
Qed.
Lemma firstn_map : forall {A B} (f : A -> B) l k, firstn k (map f l) = map f (firstn k l).
Proof. intros A B f. induction l as [|x l IH]; intros [|k]; cbn; auto. rewrite IH. reflexivity. Qed.

Lemma removelast_nth : forall {A} (l : list A) k, (S k < length l)%nat -> nth_error (removelast l) k = nth_error l k.
Proof.
  intros A. induction l as [|x l IH]; intros k H; cbn [length] in H; [lia|].
  destruct l as [|y l]; [cbn in H; lia|]. change (removelast (x :: y :: l)) with (x :: removelast (y :: l)).
  destruct k as [|k]; cbn [nth_error]; auto. apply IH. cbn [length] in *. lia.
Qed.
Lemma removelast_length : forall {A} (l : list A), length (removelast l) = Nat.pred (length l).
Proof.
  intros A. induction l as [|x l IH]; cbn [length Nat.pred]; auto. destruct l as [|y l]; auto.
  change (removelast (x :: y :: l)) with (x :: removelast (y :: l)). cbn [length] in *. lia.
Qed.
Lemma inner_nth : forall {A} (l : list A) k, (S (S k) < length l)%nat -> nth_error (inner l) k = nth_error l (S k).
Proof.
  intros A [|x l] k H; [cbn in H; lia|]. unfold inner. cbn [tl length] in *. rewrite removelast_nth by lia. reflexivity.
Qed.
Lemma inner_length : forall {A} (l : list A), length (inner l) = (length l - 2)%nat.
Proof.
  intros A l. unfold inner. rewrite removelast_length. destruct l as [|x l]; cbn [tl length]; lia.
Qed.

Fixpoint csum (g : nat -> Q) (k : nat) : Q :=
  match k with O => 0%Q | S k' => (csum g k' + g k')%Q end.

Lemma firstn_snoc : forall {A} (l : list A) k y, nth_error l k = Some y -> firstn (S k) l = firstn k l ++ [y].
Proof.
  intros A. induction l as [|x l IH]; intros [|k] y H; cbn in H; try discriminate.
  - injection H as ->. reflexivity.
  - cbn [firstn]. change (firstn (S k) (x :: l)) with (x :: firstn k l). rewrite <- app_comm_cons. f_equal.
    apply IH; auto.
Qed.

Lemma Qsum_firstn : forall L g k, (k <= length L)%nat ->
  (forall j y, (j < k)%nat -> nth_error L j = Some y -> (y == g j)%Q) -> (Qsum (firstn k L) == csum g k)%Q.
Proof.
  intros L g. induction k as [|k IH]; intros Hk H; [reflexivity|].
  destruct (nth_error L k) as [y|] eqn:E; [|apply nth_error_None in E; lia].
  rewrite (firstn_snoc _ _ _ E), Qsum_app. cbn [csum Qsum]. rewrite IH by (intros; auto; lia).
  rewrite (H k y) by (auto; lia). lra.
Qed.

(** ** Volumes *)

Definition clamp (L z : Q) : Q := if Qlt_le_dec z L then (L - z)%Q else 0%Q.

Lemma clamp_mono : forall L1 L2 z, (L1 <= L2)%Q -> (clamp L1 z <= clamp L2 z)%Q.
Proof. intros L1 L2 z H. unfold clamp. destruct (Qlt_le_dec z L1), (Qlt_le_dec z L2); lra. Qed.
Lemma clamp_strict : forall L1 L2 z, (L1 < L2)%Q -> (z < L2)%Q -> (clamp L1 z < clamp L2 z)%Q.
Proof. intros L1 L2 z H H'. unfold clamp. destruct (Qlt_le_dec z L1), (Qlt_le_dec z L2); lra. Qed.
Lemma clamp_nonneg : forall L z, (0 <= clamp L z)%Q.
Proof. intros L z. unfold clamp. destruct (Qlt_le_dec z L); lra. Qed.
Lemma clamp_eq : forall L1 L2 z, (L1 == L2)%Q -> (clamp L1 z == clamp L2 z)%Q.
Proof. intros L1 L2 z H. pose proof (clamp_mono L1 L2 z ltac:(lra)). pose proof (clamp_mono L2 L1 z ltac:(lra)). lra. Qed.

Lemma vol_clamp : forall a zs L, volume_at a zs L = (a * Qsum (map (clamp L) zs))%Q.
Proof. reflexivity. Qed.

Lemma volume_mono : forall a zs L1 L2, (0 < a)%Q -> (L1 <= L2)%Q -> (volume_at a zs L1 <= volume_at a zs L2)%Q.
Proof.
  intros a zs L1 L2 A H. rewrite !vol_clamp.
  assert (Qsum (map (clamp L1) zs) <= Qsum (map (clamp L2) zs))%Q.
  { apply Qsum_le. intros; apply clamp_mono; auto. }
  nra.
Qed.
Lemma volume_eq : forall a zs L1 L2, (0 < a)%Q -> (L1 == L2)%Q -> (volume_at a zs L1 == volume_at a zs L2)%Q.
Proof.
  intros a zs L1 L2 A H. pose proof (volume_mono a zs L1 L2 A ltac:(lra)). pose proof (volume_mono a zs L2 L1 A ltac:(lra)). lra.
Qed.
Lemma volume_strict : forall a zs L1 L2 z, (0 < a)%Q -> (L1 < L2)%Q -> In z zs -> (z < L2)%Q ->
  (volume_at a zs L1 < volume_at a zs L2)%Q.
Proof.
  intros a zs L1 L2 z A H I Hz. rewrite !vol_clamp.
  assert (Qsum (map (clamp L1) zs) < Qsum (map (clamp L2) zs))%Q; [|nra].
  induction zs as [|y zs IH]; [destruct I|]. cbn [map Qsum].
  assert (LE : (Qsum (map (clamp L1) zs) <= Qsum (map (clamp L2) zs))%Q).
  { apply Qsum_le. intros; apply clamp_mono; lra. }
  pose proof (clamp_mono L1 L2 y ltac:(lra)). destruct I as [->|I].
  - pose proof (clamp_strict L1 L2 z H Hz). lra.
  - specialize (IH I). lra.
Qed.
Lemma volume_nonneg : forall a zs L, (0 < a)%Q -> (0 <= volume_at a zs L)%Q.
Proof.
  intros a zs L A. rewrite vol_clamp.
  assert (0 <= Qsum (map (clamp L) zs))%Q; [|nra].
  apply Qsum_nonneg. intros x Hx. apply in_map_iff in Hx. destruct Hx as (z & <- & _). apply clamp_nonneg.
Qed.
Lemma volume_zero : forall a zs L, (forall z, In z zs -> (L <= z)%Q) -> (volume_at a zs L == 0)%Q.
Proof.
  intros a zs L H. rewrite vol_clamp. rewrite (Qsum_ext _ (fun _ => 0%Q)).
  - rewrite Qsum_zero. lra.
  - intros z Hz. unfold clamp. destruct (Qlt_le_dec z L); [|lra]. specialize (H z Hz). lra.
Qed.

(** Raising the level by w adds between w times the cells below the old and w times the
    cells below the new level. *)
Lemma step_bounds : forall zs lo L w, (0 < w)%Q -> (forall z, In z zs -> (lo <= z)%Q) ->
  (w * inject_Z (Z.of_nat (length (between lo L zs))) <=
   Qsum (map (clamp (L + w)) zs) - Qsum (map (clamp L) zs) <=
   w * inject_Z (Z.of_nat (length (between lo (L + w) zs))))%Q.
Proof.
  intros zs lo L w W. induction zs as [|z zs IH]; intros H; cbn [map Qsum].
  - cbn [between filter length Z.of_nat]. change (inject_Z 0) with 0%Q. split; lra.
  - specialize (IH (fun z' Hz => H z' (or_intror Hz))). pose proof (H z (or_introl eq_refl)) as Hz.
    unfold between in *. cbn [filter].
    replace (Qle_bool lo z) with true by (symmetry; apply Qle_bool_iff; auto). cbn [andb].
    set (f1 := filter (fun z => Qle_bool lo z && Qltb z L) zs) in *.
    set (f2 := filter (fun z => Qle_bool lo z && Qltb z (L + w)) zs) in *.
    set (s1 := Qsum (map (clamp (L + w)) zs)) in *. set (s2 := Qsum (map (clamp L) zs)) in *.
    assert (I : forall l : list Q, (inject_Z (Z.of_nat (length (z :: l))) == inject_Z (Z.of_nat (length l)) + 1)%Q).
    { intros l. cbn [length]. rewrite Nat2Z.inj_succ. unfold Z.succ. apply inject_S. }
    unfold clamp. destruct (Qltb z L) eqn:E1; destruct (Qltb z (L + w)) eqn:E2;
      repeat match goal with
      | H : Qltb _ _ = true |- _ => apply Qltb_lt in H
      | H : Qltb _ _ = false |- _ => apply Qltb_ge in H
      end; destruct (Qlt_le_dec z L); destruct (Qlt_le_dec z (L + w)); rewrite ?I; try lra; try (split; nra).
Qed.

(** ** The interpolation points of one bluespot *)

Section Level.
Variables (zs : list Q) (w a spill : Q) (h : @hyps Q) (max_depth max_vol : Q).
Hypothesis W : (0 < w)%Q.
Hypothesis H : hypsometry_of zs w h.
Hypothesis B : bluespot_attributes zs a spill h max_depth max_vol.

Let lo := b_lower (h_bins (z_hist h)).
Let num := Z.to_nat (b_num (h_bins (z_hist h))).
Let l (i : nat) : Q := (lo + inject_Z (Z.of_nat i) * w)%Q.
Let below (i : nat) : Q := inject_Z (Z.of_nat (length (between lo (l i) zs))).
Let g (i : nat) : Q := (a * w * below i)%Q.
Let C (i : nat) : Q := csum g (S i).

Lemma num_pos : (1 <= num)%nat.
Proof. destruct H as (_ & _ & (_ & N & _) & _). unfold num. lia. Qed.

Lemma num_Z : Z.of_nat num = b_num (h_bins (z_hist h)).
Proof. destruct H as (_ & _ & (_ & N & _) & _). unfold num. lia. Qed.

Lemma l_S : forall i, (l (S i) == l i + w)%Q.
Proof. intros i. unfold l. rewrite Nat2Z.inj_succ. unfold Z.succ. rewrite inject_S. lra. Qed.

Lemma l_0 : (l 0 == lo)%Q.
Proof. unfold l. cbn [Z.of_nat]. change (inject_Z 0) with 0%Q. lra. Qed.

Lemma l_mono : forall i j, (i <= j)%nat -> (l i <= l j)%Q.
Proof.
  intros i j Hij. induction Hij as [|j Hij IH]; [lra|]. rewrite l_S. lra.
Qed.

Lemma lo_le : forall z, In z zs -> (lo <= z)%Q.
Proof.
  destruct H as ((_ & L) & _ & _ & (A & _) & _). intros z Hz. specialize (L z Hz). fold lo in A. lra.
Qed.

Lemma counts_map : h_counts (z_hist h) =
  map (fun i => Z.of_nat (length (between (lo + inject_Z i * w) (lo + inject_Z (i + 1) * w) zs))) (zseq 0 num).
Proof.
  destruct H as (_ & _ & (_ & N & Ln & _ & F) & _). apply LabelFloat.nth_error_ext. intros i.
  destruct (Nat.lt_ge_cases i num) as [L|L].
  - rewrite nth_error_map, nth_error_zseq by auto. cbn [option_map]. rewrite <- (Nat2Z.id i) at 1.
    rewrite F by (unfold num in L; lia). reflexivity.
  - rewrite (proj2 (nth_error_None _ _)) by (unfold num in L; lia).
    symmetry. apply nth_error_None. rewrite map_length, zseq_length. auto.
Qed.

Lemma zseq_firstn : forall n a k, (k <= n)%nat -> firstn k (zseq a n) = zseq a k.
Proof.
  induction n as [|n IH]; intros a0 k Hk; [replace k with 0%nat by lia; reflexivity|].
  destruct k as [|k]; [reflexivity|]. cbn [zseq firstn]. f_equal. apply IH. lia.
Qed.

Lemma cumulative_nth : forall k x, (k < num)%nat ->
  nth_error (cumsum QOps (map inject_Z (h_counts (z_hist h)))) k = Some x -> (x == below (S k))%Q.
Proof.
  intros k x Hk E. apply cumsum_nth in E. rewrite E, firstn_map, Qsum_inject, counts_map, firstn_map, zseq_firstn by lia.
  rewrite bins_total by auto. reflexivity.
Qed.

Lemma below_0 : (below 0 == 0)%Q.
Proof.
  unfold below. rewrite (between_ext zs lo lo (l 0) lo); [rewrite between_empty; reflexivity | reflexivity | apply l_0].
Qed.

Lemma below_nonneg : forall i, (0 <= below i)%Q.
Proof. intros i. apply inject_nonneg. lia. Qed.

Lemma counts_length : length (h_counts (z_hist h)) = num.
Proof. rewrite counts_map, map_length, zseq_length. reflexivity. Qed.

Lemma below_nth : forall k x, (k < num)%nat ->
  nth_error (nofZ QOps 0 :: removelast (cumsum QOps (map (nofZ QOps) (h_counts (z_hist h))))) k = Some x -> (x == below k)%Q.
Proof.
  intros [|k] x Hk E; cbn [nth_error] in E.
  - injection E as <-. rewrite below_0. reflexivity.
  - rewrite removelast_nth in E by (rewrite cumsum_length, map_length, counts_length; lia).
    apply cumulative_nth in E; auto. lia.
Qed.

Lemma res_w : b_resolution (h_bins (z_hist h)) = w.
Proof. destruct H as (_ & _ & (E & _) & _). exact E. Qed.

Lemma below_list_length :
  length (nofZ QOps 0 :: removelast (cumsum QOps (map (nofZ QOps) (h_counts (z_hist h))))) = num.
Proof.
  cbn [length]. rewrite removelast_length, cumsum_length, map_length, counts_length. pose proof num_pos. lia.
Qed.

Lemma cum_length : length (cumulative_volume QOps (z_hist h) a) = num.
Proof. unfold cumulative_volume. rewrite cumsum_length, map_length. apply below_list_length. Qed.

Lemma cum_nth : forall k x, (k < num)%nat -> nth_error (cumulative_volume QOps (z_hist h) a) k = Some x -> (x == C k)%Q.
Proof.
  intros k x Hk E. unfold cumulative_volume in E. apply cumsum_nth in E. rewrite E.
  unfold C. apply Qsum_firstn.
  - rewrite map_length, below_list_length. lia.
  - intros j y Hj Ey. rewrite nth_error_map in Ey.
    destruct (nth_error _ j) as [b|] eqn:Eb in Ey; cbn [option_map] in Ey; [|discriminate].
    apply below_nth in Eb; [|lia]. rewrite res_w in Ey. injection Ey as <-. cbn [nmul QOps]. rewrite Eb. reflexivity.
Qed.

Lemma binsz_nth : forall k y, (k < num)%nat -> nth_error (bin_waterlevel_z QOps (h_bins (z_hist h))) k = Some y ->
  (y == l k + (1 # 2) * w)%Q.
Proof.
  intros k y Hk E. unfold bin_waterlevel_z in E. rewrite pyrange_from0, nth_error_map, nth_error_zseq in E by auto.
  cbn [option_map] in E. injection E as <-. rewrite res_w. cbn [nadd nmul ndiv nofZ QOps]. unfold l.
  fold lo. cbn [Z.add]. change (inject_Z 1) with 1%Q. change (inject_Z 2) with 2%Q. field.
Qed.

Lemma binsz_length : length (bin_waterlevel_z QOps (h_bins (z_hist h))) = num.
Proof. unfold bin_waterlevel_z. rewrite map_length, pyrange_from0, zseq_length. reflexivity. Qed.

(** Exact volumes bracket the cumulative volumes. *)
Lemma area_pos : (0 < a)%Q.
Proof. apply B. Qed.

Lemma vol_step : forall i, (g i <= volume_at a zs (l (S i)) - volume_at a zs (l i) <= g (S i))%Q.
Proof.
  intros i. pose proof (step_bounds zs lo (l i) w W lo_le) as (S1 & S2).
  pose proof area_pos as A. pose proof (volume_eq a zs (l (S i)) (l i + w) A (l_S i)) as E.
  rewrite E, !vol_clamp. unfold g, below.
  rewrite (between_ext zs lo lo (l (S i)) (l i + w)) by (reflexivity || apply l_S).
  set (p := inject_Z (Z.of_nat (length (between lo (l i) zs)))) in *.
  set (q := inject_Z (Z.of_nat (length (between lo (l i + w) zs)))) in *.
  set (s1 := Qsum (map (clamp (l i + w)) zs)) in *. set (s2 := Qsum (map (clamp (l i)) zs)) in *.
  split; [setoid_replace (a * w * p)%Q with (a * (w * p))%Q by ring |
          setoid_replace (a * w * q)%Q with (a * (w * q))%Q by ring];
  setoid_replace (a * s1 - a * s2)%Q with (a * (s1 - s2))%Q by ring; apply Qmult_le_l; auto.
Qed.

Lemma g_0 : (g 0 == 0)%Q.
Proof. unfold g. rewrite below_0. ring. Qed.

Lemma vol_le_C : forall k, (volume_at a zs (l k) <= C k)%Q.
Proof.
  induction k as [|k IH].
  - rewrite (volume_zero a zs (l 0)).
    + unfold C. cbn [csum]. rewrite g_0. lra.
    + intros z Hz. rewrite l_0. apply lo_le; auto.
  - pose proof (vol_step k) as (_ & X). unfold C in *. change (csum g (S (S k))) with (csum g (S k) + g (S k))%Q. lra.
Qed.

Lemma C_le_vol : forall k, (C k <= volume_at a zs (l (S k)) - volume_at a zs (l 1))%Q.
Proof.
  induction k as [|k IH].
  - unfold C. cbn [csum]. rewrite g_0. lra.
  - pose proof (vol_step (S k)) as (X & _). unfold C in *. change (csum g (S (S k))) with (csum g (S k) + g (S k))%Q. lra.
Qed.

Lemma zmin_l1 : (lo <= z_min h)%Q /\ (z_min h < l 1)%Q /\ In (z_min h) zs.
Proof.
  destruct H as ((I & _) & _ & _ & (A1 & A2) & _). fold lo in A1, A2. split; auto. split; auto.
  pose proof (l_S 0) as E. rewrite l_0 in E. lra.
Qed.

Lemma below_pos : forall k, (1 <= k)%nat -> (1 <= below k)%Q.
Proof.
  intros k Hk. destruct zmin_l1 as (A1 & A2 & I). unfold below. change 1%Q with (inject_Z 1). rewrite <- Zle_Qle.
  assert (X : In (z_min h) (between lo (l k) zs)).
  { unfold between. apply filter_In. split; auto. apply andb_true_iff. rewrite Qle_bool_iff, Qltb_lt. split; auto.
    pose proof (l_mono 1 k Hk). lra. }
  destruct (between lo (l k) zs); [destruct X|]. cbn [length]. lia.
Qed.

Lemma C_step : forall k, (C k < C (S k))%Q.
Proof.
  intros k. unfold C. change (csum g (S (S k))) with (csum g (S k) + g (S k))%Q.
  pose proof (below_pos (S k) ltac:(lia)) as X. pose proof area_pos as A. unfold g at 3.
  assert (0 < a * w)%Q by nra. set (p := below (S k)) in *. set (q := (a * w)%Q) in *. nra.
Qed.

Lemma C_0 : (C 0 == 0)%Q.
Proof. unfold C. cbn [csum]. rewrite g_0. lra. Qed.

Lemma zmax_facts : (z_min h <= z_max h)%Q /\ (l (num - 1) <= z_max h)%Q /\ (z_max h <= spill)%Q.
Proof.
  destruct H as ((I & L) & (I' & G) & (_ & N & _ & U & _) & _ & (X1 & X2)).
  destruct B as (_ & SP & _ & _). split; auto. split; [|apply SP; auto].
  fold lo in U. pose proof num_pos as P.
  assert (E : (l (S (num - 1)) == b_upper (h_bins (z_hist h)))%Q).
  { rewrite U. unfold l. replace (S (num - 1)) with num by lia. rewrite num_Z. reflexivity. }
  rewrite l_S in E. lra.
Qed.

Definition pts : list (Q * Q) :=
  combine ((nofZ QOps 0 :: inner (cumulative_volume QOps (z_hist h) a)) ++ [max_vol])
          ((z_min h :: inner (bin_waterlevel_z QOps (h_bins (z_hist h)))) ++ [z_max h]).

Lemma combine_app : forall {X Y} (a1 a2 : list X) (b1 b2 : list Y), length a1 = length b1 ->
  combine (a1 ++ a2) (b1 ++ b2) = combine a1 b1 ++ combine a2 b2.
Proof.
  intros X Y. induction a1 as [|x a1 IH]; intros a2 [|y b1] b2 E; cbn in *; try discriminate; auto.
  f_equal. apply IH. lia.
Qed.

Lemma nth_combine_inv : forall {X Y} (l1 : list X) (l2 : list Y) k x y, nth_error (combine l1 l2) k = Some (x, y) ->
  nth_error l1 k = Some x /\ nth_error l2 k = Some y.
Proof.
  intros X Y. induction l1 as [|u l1 IH]; intros [|v l2] [|k] x y E; cbn in *; try discriminate; auto.
  injection E as -> ->. auto.
Qed.

Lemma pts_shape : exists rest, pts = (0%Q, z_min h) :: rest /\ rest =
  combine (inner (cumulative_volume QOps (z_hist h) a)) (inner (bin_waterlevel_z QOps (h_bins (z_hist h)))) ++ [(max_vol, z_max h)].
Proof.
  eexists. split; [|reflexivity]. unfold pts. rewrite combine_app.
  - reflexivity.
  - cbn [length]. rewrite !inner_length, cum_length, binsz_length. reflexivity.
Qed.

Lemma pts_length : length pts = S (S (num - 2)).
Proof.
  destruct pts_shape as (rest & -> & ->). cbn [length]. rewrite app_length, combine_length, !inner_length, cum_length, binsz_length.
  cbn [length]. lia.
Qed.

Lemma pts_cases : forall k x y, nth_error pts k = Some (x, y) ->
  (k = 0%nat /\ x = 0%Q /\ y = z_min h) \/
  ((1 <= k)%nat /\ (k + 2 <= num)%nat /\ (x == C k)%Q /\ (y == l k + (1 # 2) * w)%Q) \/
  (k = S (num - 2) /\ x = max_vol /\ y = z_max h).
Proof.
  intros k x y E. destruct pts_shape as (rest & EP & ER). rewrite EP in E. destruct k as [|k]; cbn [nth_error] in E.
  { injection E as <- <-. auto. }
  right. rewrite ER in E. set (mid := combine _ _) in *.
  assert (LM : length mid = (num - 2)%nat).
  { unfold mid. rewrite combine_length, !inner_length, cum_length, binsz_length. lia. }
  destruct (Nat.lt_ge_cases k (num - 2)) as [L|L].
  - left. rewrite nth_error_app1 in E by lia. apply nth_combine_inv in E. destruct E as (E1 & E2).
    rewrite inner_nth in E1 by (rewrite cum_length; lia). rewrite inner_nth in E2 by (rewrite binsz_length; lia).
    apply cum_nth in E1; [|lia]. apply binsz_nth in E2; [|lia]. split; [lia|]. split; [lia|]. auto.
  - right. rewrite nth_error_app2 in E by lia. rewrite LM in E. destruct (k - (num - 2))%nat as [|j] eqn:Ej; cbn in E.
    + injection E as <- <-. split; [lia|]. auto.
    + destruct j; discriminate.
Qed.

Hypothesis MV : ~ (max_vol == 0)%Q.

Lemma max_vol_pos : (0 < max_vol)%Q.
Proof.
  destruct B as (A & _ & _ & E). pose proof (volume_nonneg a zs spill A).
  destruct (Qlt_le_dec 0 max_vol) as [P|P]; auto. exfalso. apply MV. lra.
Qed.

Lemma V_l1_pos : (0 < volume_at a zs (l 1))%Q.
Proof.
  destruct zmin_l1 as (A1 & A2 & I). pose proof (volume_nonneg a zs (z_min h) area_pos) as P.
  pose proof (volume_strict a zs (z_min h) (l 1) (z_min h) area_pos A2 I A2). lra.
Qed.

Lemma pts_points : exists rest, pts = (0%Q, z_min h) :: rest /\ points 0 (z_min h) rest /\ last_y (z_min h) rest = z_max h.
Proof.
  destruct pts_shape as (rest & EP & ER). exists rest. split; auto. split.
  - apply points_nth. rewrite <- EP. intros k x y x' y' E1 E2. pose proof num_pos as NP.
    destruct zmin_l1 as (A1 & A2 & I). destruct zmax_facts as (M1 & M2 & M3).
    pose proof area_pos as A. pose proof max_vol_pos as MP.
    apply pts_cases in E1. apply pts_cases in E2.
    destruct E1 as [(-> & -> & ->)|[(K1 & K2 & X1 & Y1)|(K & -> & ->)]];
    destruct E2 as [(K' & _)|[(K1' & K2' & X2 & Y2)|(K' & -> & ->)]]; try discriminate; try lia.
    + pose proof (C_step 0) as S0. rewrite C_0 in S0. rewrite X2, Y2. split; lra.
    + split; auto.
    + pose proof (C_step k). rewrite X1, X2, Y1, Y2. rewrite l_S. split; lra.
    + rewrite X1, Y1. assert (k = num - 2)%nat by lia. subst k. split.
      * pose proof (C_le_vol (num - 2)) as CV. replace (S (num - 2)) with (num - 1)%nat in CV by lia.
        pose proof V_l1_pos. destruct B as (_ & _ & _ & E).
        pose proof (volume_mono a zs (l (num - 1)) spill A ltac:(lra)). lra.
      * pose proof (l_S (num - 2)) as E. replace (S (num - 2)) with (num - 1)%nat in E by lia. lra.
  - rewrite ER. generalize (combine (inner (cumulative_volume QOps (z_hist h) a)) (inner (bin_waterlevel_z QOps (h_bins (z_hist h))))).
    intros m. generalize (z_min h). induction m as [|[x y] m IH]; intros y0; cbn; auto.
Qed.

(** ** The water level *)

Definition nearly_full (v : Q) : Prop := (9999 # 10000 < v / max_vol)%Q.

Lemma water_level_cases : forall v,
  (nearly_full v /\ water_level QOps h a max_depth max_vol v = Ok (z_min h + max_depth)%Q) \/
  (~ nearly_full v /\ exists rest L, pts = (0%Q, z_min h) :: rest /\
     water_level QOps h a max_depth max_vol v = Ok L /\
     (if Qltb v 0%Q then L = z_min h else L = interp_from QOps v 0%Q (z_min h) rest)).
Proof.
  intros v. unfold water_level. cbn [neqb nltb ndiv nadd nofZ QOps].
  replace (Qeq_bool max_vol (inject_Z 0)) with false.
  2:{ symmetry. destruct (Qeq_bool max_vol (inject_Z 0)) eqn:E; auto. apply Qeq_bool_iff in E. exfalso. apply MV. exact E. }
  cbn [orb]. destruct (Qltb (inject_Z 9999 / inject_Z 10000) (v / max_vol)) eqn:E.
  - left. apply Qltb_lt in E. split; [exact E|reflexivity].
  - right. apply Qltb_ge in E. split.
    { unfold nearly_full. intros X. apply (Qlt_not_le _ _ X). exact E. }
    unfold interp. assert (LE : (length ((inject_Z 0 :: inner (cumulative_volume QOps (z_hist h) a)) ++ [max_vol]) =?
      length ((z_min h :: inner (bin_waterlevel_z QOps (h_bins (z_hist h)))) ++ [z_max h]))%nat = true).
    { apply Nat.eqb_eq. rewrite !app_length. cbn [length]. rewrite !inner_length, cum_length, binsz_length. reflexivity. }
    rewrite LE. cbn [negb].
    destruct pts_points as (rest & EP & _). pose proof EP as EP2. unfold pts in EP2. cbn [nofZ QOps] in EP2. rewrite EP2.
    exists rest. eexists. split; [exact EP|]. split; [reflexivity|].
    cbn [nltb QOps]. destruct (Qltb v 0%Q); reflexivity.
Qed.

Lemma level_ok : forall v, exists L, water_level QOps h a max_depth max_vol v = Ok L.
Proof. intros v. destruct (water_level_cases v) as [(_ & E)|(_ & r & L & _ & E & _)]; eauto. Qed.

Lemma not_full_bounds : forall v L, ~ nearly_full v -> water_level QOps h a max_depth max_vol v = Ok L ->
  (z_min h <= L <= z_max h)%Q.
Proof.
  intros v L N E. destruct (water_level_cases v) as [(X & _)|(_ & r & L' & EP & E' & F)]; [contradiction|].
  rewrite E in E'. injection E' as <-. destruct zmax_facts as (M1 & _).
  destruct pts_points as (r' & EP' & P & Y). rewrite EP in EP'. injection EP' as <-.
  destruct (Qltb v 0%Q) eqn:V; [subst L; lra|]. apply Qltb_ge in V. subst L.
  pose proof (interp_from_bounds r v 0%Q (z_min h) P V) as X. rewrite Y in X. exact X.
Qed.

Lemma full_level : (z_min h + max_depth == spill)%Q.
Proof. destruct B as (_ & _ & E & _). lra. Qed.

Lemma level_bounds : forall v L, water_level QOps h a max_depth max_vol v = Ok L -> (z_min h <= L <= spill)%Q.
Proof.
  intros v L E. destruct zmax_facts as (M1 & _ & M3). pose proof full_level.
  destruct (water_level_cases v) as [(X & E')|(X & _)].
  - rewrite E in E'. injection E' as ->. lra.
  - pose proof (not_full_bounds v L X E). lra.
Qed.

Lemma level_full : forall v L, (max_vol <= v)%Q -> water_level QOps h a max_depth max_vol v = Ok L -> (L == spill)%Q.
Proof.
  intros v L V E. pose proof max_vol_pos as MP. destruct (water_level_cases v) as [(X & E')|(X & _)].
  - rewrite E in E'. injection E' as ->. apply full_level.
  - exfalso. apply X. unfold nearly_full. apply Qlt_le_trans with 1%Q; [reflexivity|]. apply Qle_shift_div_l; lra.
Qed.

Lemma level_empty : forall v L, (v <= 0)%Q -> water_level QOps h a max_depth max_vol v = Ok L -> (L == z_min h)%Q.
Proof.
  intros v L V E. pose proof max_vol_pos as MP. destruct (water_level_cases v) as [(X & E')|(X & r & L' & EP & E' & F)].
  - exfalso. unfold nearly_full in X. assert (Y : (v / max_vol <= 0)%Q) by (apply Qle_shift_div_r; lra).
    assert (9999 # 10000 < 0)%Q by lra. discriminate H0.
  - rewrite E in E'. injection E' as <-. destruct (Qltb v 0%Q) eqn:V0; [subst L; lra|]. apply Qltb_ge in V0.
    destruct pts_points as (r' & EP' & P & Y). rewrite EP in EP'. injection EP' as <-.
    subst L. destruct (interp_from_node r 0%Q (z_min h) 0%nat 0%Q (z_min h) P eq_refl) as (N & _).
    pose proof (interp_from_bounds r v 0%Q (z_min h) P V0) as (G & _).
    pose proof (interp_from_mono r v 0%Q 0%Q (z_min h) P V0 V). lra.
Qed.

Lemma level_mono : forall v v' L L', (v <= v')%Q -> water_level QOps h a max_depth max_vol v = Ok L ->
  water_level QOps h a max_depth max_vol v' = Ok L' -> (L <= L')%Q.
Proof.
  intros v v' L L' V E E'. pose proof max_vol_pos as MP. pose proof full_level as FL.
  destruct (water_level_cases v') as [(X & E1)|(X & r & L1 & EP & E1 & F1)].
  - rewrite E' in E1. injection E1 as ->. pose proof (level_bounds v L E). lra.
  - rewrite E' in E1. injection E1 as <-.
    assert (X' : ~ nearly_full v).
    { intros Y. apply X. unfold nearly_full in *. eapply Qlt_le_trans; [exact Y|].
      apply Qmult_le_compat_r; auto. apply Qinv_le_0_compat. lra. }
    destruct (water_level_cases v) as [(Y & _)|(_ & r2 & L2 & EP2 & E2 & F2)]; [contradiction|].
    rewrite E in E2. injection E2 as <-. rewrite EP in EP2. injection EP2 as <-.
    pose proof (not_full_bounds v' L' X E') as BD.
    destruct pts_points as (r' & EP' & P & Y). rewrite EP in EP'. injection EP' as <-.
    destruct (Qltb v 0%Q) eqn:V0; [subst L; lra|]. apply Qltb_ge in V0.
    replace (Qltb v' 0%Q) with false in F1 by (symmetry; apply Qltb_ge; lra). subst L L'.
    apply interp_from_mono; auto.
Qed.

(** ** Error of the approximation *)

Lemma node_level : forall k x y v L, nth_error pts k = Some (x, y) -> (v == x)%Q -> ~ nearly_full v ->
  water_level QOps h a max_depth max_vol v = Ok L -> (L == y)%Q.
Proof.
  intros k x y v L N V NF E. destruct (water_level_cases v) as [(Y & _)|(_ & r & L2 & EP & E2 & F2)]; [contradiction|].
  rewrite E in E2. injection E2 as <-. destruct pts_points as (r' & EP' & P & Y). rewrite EP in EP'. injection EP' as <-.
  rewrite EP in N. destruct (interp_from_node _ _ _ _ _ _ P N) as (G & G0).
  replace (Qltb v 0%Q) with false in F2 by (symmetry; apply Qltb_ge; lra). subst L.
  pose proof (interp_from_mono r v x 0%Q (z_min h) P ltac:(lra) ltac:(lra)).
  pose proof (interp_from_mono r x v 0%Q (z_min h) P ltac:(lra) ltac:(lra)). lra.
Qed.

(** Between two points the level is between their levels. *)
Lemma between_points : forall k x y x' y' v L, nth_error pts k = Some (x, y) -> nth_error pts (S k) = Some (x', y') ->
  (x <= v)%Q -> (v <= x')%Q -> ~ nearly_full v -> water_level QOps h a max_depth max_vol v = Ok L -> (y <= L <= y')%Q.
Proof.
  intros k x y x' y' v L N N' V V' NF E. destruct (water_level_cases v) as [(Y & _)|(_ & r & L2 & EP & E2 & F2)]; [contradiction|].
  rewrite E in E2. injection E2 as <-. destruct pts_points as (r' & EP' & P & Y). rewrite EP in EP'. injection EP' as <-.
  rewrite EP in N, N'. destruct (interp_from_node _ _ _ _ _ _ P N) as (G & G0). destruct (interp_from_node _ _ _ _ _ _ P N') as (G' & G0').
  replace (Qltb v 0%Q) with false in F2 by (symmetry; apply Qltb_ge; lra). subst L.
  pose proof (interp_from_mono r x v 0%Q (z_min h) P ltac:(lra) ltac:(lra)).
  pose proof (interp_from_mono r v x' 0%Q (z_min h) P ltac:(lra) ltac:(lra)). lra.
Qed.

(** The level holding v lies between the bins. *)
Lemma exact_lower : forall k v L, (C k <= v)%Q -> (volume_at a zs L == v)%Q -> (1 <= k)%nat -> (l k <= L)%Q.
Proof.
  intros k v L V E K. destruct (Qlt_le_dec L (l k)) as [X|X]; auto. exfalso.
  destruct zmin_l1 as (A1 & A2 & I). pose proof (l_mono 1 k K).
  pose proof (volume_strict a zs L (l k) (z_min h) area_pos X I ltac:(lra)). pose proof (vol_le_C k). lra.
Qed.
Lemma exact_upper : forall k v L, (v <= C k)%Q -> (volume_at a zs L == v)%Q -> (z_min h <= L)%Q -> (L <= l (S k))%Q.
Proof.
  intros k v L V E ZL. destruct (Qlt_le_dec (l (S k)) L) as [X|X]; auto. exfalso.
  destruct zmin_l1 as (A1 & A2 & I). pose proof (l_mono 1 (S k) ltac:(lia)).
  pose proof (volume_strict a zs (l (S k)) L (z_min h) area_pos X I ltac:(lra)).
  pose proof (C_le_vol k). pose proof V_l1_pos. lra.
Qed.

Lemma pts_nth : forall k, (k < S (S (num - 2)))%nat -> exists x y, nth_error pts k = Some (x, y).
Proof.
  intros k Hk. destruct (nth_error pts k) as [[x y]|] eqn:E; eauto. apply nth_error_None in E. rewrite pts_length in E. lia.
Qed.

Lemma find_segment : forall v k, (0 <= v)%Q -> (v <= C k)%Q -> (1 <= k)%nat ->
  exists j, (j < k)%nat /\ (C j <= v)%Q /\ (v <= C (S j))%Q.
Proof.
  intros v k V. induction k as [|k IH]; intros L K; [lia|].
  destruct (Qlt_le_dec v (C k)) as [X|X].
  - destruct (Nat.eq_dec k 0) as [->|N].
    + rewrite C_0 in X. lra.
    + destruct IH as (j & J1 & J2 & J3); [lra|lia|]. exists j. split; [lia|auto].
  - exists k. split; [lia|]. auto.
Qed.

Lemma level_error : forall v L E, (3 <= num)%nat -> (0 <= v)%Q -> (v <= C (num - 2))%Q -> ~ nearly_full v ->
  water_level QOps h a max_depth max_vol v = Ok L -> (z_min h <= E)%Q -> (volume_at a zs E == v)%Q ->
  (L - E <= 2 * w /\ E - L <= 2 * w)%Q.
Proof.
  intros v L E N3 V VC NF EL ZE VE. destruct (find_segment v (num - 2) V VC ltac:(lia)) as (j & J & J1 & J2).
  destruct (pts_nth j) as (x & y & P1); [lia|]. destruct (pts_nth (S j)) as (x' & y' & P2); [lia|].
  pose proof (pts_cases _ _ _ P1) as C1. pose proof (pts_cases _ _ _ P2) as C2.
  assert (X' : (x' == C (S j))%Q /\ (y' == l (S j) + (1 # 2) * w)%Q).
  { destruct C2 as [(K & _)|[(_ & _ & X2 & Y2)|(K & _)]]; [lia|auto|lia]. }
  destruct X' as (X2 & Y2). pose proof (exact_upper (S j) v E J2 VE ZE) as U. rewrite !l_S in U.
  destruct zmin_l1 as (A1 & A2 & I).
  
  destruct C1 as [(-> & -> & ->)|[(K1 & K2 & X1 & Y1)|(K & _)]]; [| |lia].
  - rewrite C_0 in J1. pose proof (between_points _ _ _ _ _ v L P1 P2 V ltac:(lra) NF EL) as BD.
    pose proof l_0 as L0. pose proof (l_S 0) as L1. split; lra.
  - pose proof (between_points _ _ _ _ _ v L P1 P2 ltac:(lra) ltac:(lra) NF EL) as BD.
    pose proof (exact_lower j v E J1 VE K1) as LW. pose proof (l_S j) as LS. split; lra.
Qed.
End Level.
