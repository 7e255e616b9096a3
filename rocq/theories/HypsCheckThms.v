(** * Theorems about the checks of the hypsometry *)

From Coq Require Import QArith Qabs Lqa.
From Verif Require Import Base BaseProofs Num Float64 LabelModel LabelSpec CompProofs BluespotSpec VectorModel NetworkSpec HypsModel HypsSpec
  BluespotThms HypsProofs HypsThms ApproxModel ApproxProofs HypsCheckModel HypsCheckSpec.
Local Open Scope Z_scope.

Lemma produced_bins : forall {T} (ops : NumOps T) to_int pinf ninf lab dem w lm bg st l h,
  bluespot_hypsometry_stats ops to_int pinf ninf lab dem w lm bg = Ok st -> In (l, h) st ->
  l = bg /\ h_bins (z_hist h) = mkBins 0 (nofZ ops 0) (nofZ ops 0) (nofZ ops (-1)) \/
  histogram_bins ops to_int (z_min h) (z_max h) w = Ok (h_bins (z_hist h)) /\
  1 <= b_num (h_bins (z_hist h)) /\ nltb ops (b_upper (h_bins (z_hist h))) (b_lower (h_bins (z_hist h))) = false.
Proof.
  intros T ops to_int pinf ninf lab dem w lm bg st l h H Hin. unfold bluespot_hypsometry_stats in H.
  apply bind_ok in H. destruct H as (n & _ & H). apply bind_ok in H. destruct H as (zst & _ & H).
  apply bind_ok in H. destruct H as (ld & _ & H).
  destruct (mmap_nth _ _ _ H) as (Len & NTH). apply In_nth_error in Hin. destruct Hin as (i & Hi).
  assert (Hx : exists x, nth_error (combine (pyrange 0 (Z.of_nat (List.length ld)) 1) ld) i = Some x).
  { destruct (nth_error (combine _ ld) i) eqn:E; eauto. apply nth_error_None in E.
    assert (i < List.length st)%nat by (apply nth_error_Some; congruence). lia. }
  destruct Hx as ((label, data) & Hx). destruct (NTH _ _ Hx) as (y & Ey & Ny). rewrite Hi in Ny. injection Ny as <-.
  apply bind_ok in Ey. destruct Ey as (s & _ & Ey). apply bind_ok in Ey. destruct Ey as (hh & Eh & Ey).
  injection Ey as -> <-. cbn [z_hist z_min z_max]. destruct (Z.eqb_spec l bg).
  - injection Eh as <-. left. split; [assumption|reflexivity].
  - apply bind_ok in Eh. destruct Eh as (b & Eb & Eh). apply bind_ok in Eh. destruct Eh as (c & Ec & Eh).
    injection Eh as <-. cbn [h_counts h_bins]. unfold np_histogram in Ec. right.
    destruct (Z.ltb_spec (b_num b) 1); [discriminate|]. destruct (nltb ops _ _) eqn:R; [discriminate|].
    split; [exact Eb|]. split; [lia|]. reflexivity.
Qed.

Theorem produced_valid : forall pinf ninf (lab : raster Z) (dem : raster Q) w lm bg st l h, (0 < w)%Q ->
  bluespot_hypsometry_stats QOps Q_int pinf ninf lab dem w lm bg = Ok st -> In (l, h) st ->
  assert_hypsometrystats_valid QOps h = Ok tt.
Proof.
  intros pinf ninf lab dem w lm bg st l h W H Hin.
  pose proof (produced_counts _ _ _ _ _ _ _ _ _ _ _ _ H Hin) as L.
  unfold assert_hypsometrystats_valid. rewrite L, Z.eqb_refl. cbn [negb].
  destruct (produced_bins _ _ _ _ _ _ _ _ _ _ _ _ H Hin) as [(_ & E)|(E & N & _)].
  - rewrite E. reflexivity.
  - set (b := h_bins (z_hist h)) in *. clearbody b. clear H Hin L. unfold histogram_bins in E.
    apply bind_ok in E. destruct E as (mn & _ & E). apply bind_ok in E. destruct E as (mx & _ & E).
    injection E as <-. cbn [b_num b_lower b_upper b_resolution nmul nadd nofZ nsub ndiv nleb QOps] in *.
    set (n := (mx - mn + 1)%Z) in *.
    assert (NP : (0 < inject_Z n)%Q) by (change 0%Q with (inject_Z 0); rewrite <- Zlt_Qlt; lia).
    assert (P : (0 < inject_Z n * w)%Q) by (apply Qmult_lt_0_compat; assumption).
    assert (U : Qle_bool (inject_Z mn * w) (inject_Z mn * w + inject_Z n * w) = true) by (apply Qle_bool_iff; lra).
    rewrite U. cbn [negb]. unfold assert_almost_equal, nabs. cbn [nltb nsub ndiv nleb nofZ QOps].
    set (d := ((inject_Z mn * w + inject_Z n * w - inject_Z mn * w) / w - inject_Z n)%Q).
    assert (D : (d == 0)%Q) by (unfold d; field; lra).
    assert (B : (if Qltb d (inject_Z 0) then inject_Z 0 - d else d) == 0)
      by (destruct (Qltb d (inject_Z 0)); change (inject_Z 0) with 0%Q; lra).
    destruct (Qle_bool (inject_Z 15 / inject_Z 100000000) (if Qltb d (inject_Z 0) then inject_Z 0 - d else d)) eqn:F; [|reflexivity].
    apply Qle_bool_iff in F. rewrite B in F. exfalso. revert F. apply Qlt_not_le. reflexivity.
Qed.

Theorem produced_counts_bounds : forall {T} (ops : NumOps T) to_int pinf ninf lab dem w lm bg st l h,
  bluespot_hypsometry_stats ops to_int pinf ninf lab dem w lm bg = Ok st -> In (l, h) st -> l <> bg ->
  Z.of_nat (List.length (h_counts (z_hist h))) = b_num (h_bins (z_hist h)) /\
  nltb ops (b_upper (h_bins (z_hist h))) (b_lower (h_bins (z_hist h))) = false.
Proof.
  intros T ops to_int pinf ninf lab dem w lm bg st l h H Hin N. split; [eapply produced_counts; eauto|].
  destruct (produced_bins _ _ _ _ _ _ _ _ _ _ _ _ H Hin) as [(A & _)|(_ & _ & A)]; [contradiction|exact A].
Qed.

(** One cell at 8192 with bins of 1/200000: seven decimals are not met. *)
Definition high_dem : raster b64 := of_rows f64_zero [[f64_ofZ 8192]].
Definition fine : b64 := f64_div (f64_ofZ 1) (f64_ofZ 200000).

Theorem valid_refuted : exists (lab : raster Z) (dem : raster b64) w st h,
  same_shape dem lab /\ numbered lab 1 /\ largest_label lab 1 /\ lt64 f64_zero w /\
  (forall c, inside 1 1 c -> at_ dem c = f64_ofZ 8192) /\
  bluespot_hypsometry_stats F64Ops b64_int f64_inf f64_ninf lab dem w None 0 = Ok st /\
  nth_error st 1 = Some (1, h) /\ assert_hypsometrystats_valid F64Ops h = Exc AssertionError.
Proof.
  assert (C : on_ok (fun st : list (Z * @hyps b64) => match st with
     | [_; (1, h)] => match assert_hypsometrystats_valid F64Ops h with Exc AssertionError => true | _ => false end
     | _ => false end)
    (bluespot_hypsometry_stats F64Ops b64_int f64_inf f64_ninf one_lab high_dem fine None 0) = true)
    by (vm_compute; reflexivity).
  apply on_ok_ex in C. destruct C as (st & E & C).
  destruct st as [|s0 [|[l h] [|]]]; try discriminate C.
  2:{ destruct l as [|[| |]|]; discriminate C. }
  destruct l as [|[| |]|]; try discriminate C.
  destruct (assert_hypsometrystats_valid F64Ops h) as [|[]|] eqn:V; try discriminate C.
  exists one_lab, high_dem, fine, [s0; (1, h)], h.
  split; [split; reflexivity|]. split; [apply one_lab_ok|]. split; [apply one_lab_ok|].
  split; [vm_compute; reflexivity|].
  split. { intros (i, j) (A & B). assert (i = 0) by (cbn in *; lia). assert (j = 0) by (cbn in *; lia). subst. reflexivity. }
  split; [exact E|]. split; [reflexivity|]. exact V.
Qed.

(** ** The water below each bin *)

Lemma zsum_app : forall a b, zsum (a ++ b) = zsum a + zsum b.
Proof. induction a as [|x a IH]; intros b; cbn; [reflexivity|]. unfold zsum in *. rewrite IH. lia. Qed.

Lemma firstn_nth : forall (l : list Z) k, (k < List.length l)%nat -> firstn (S k) l = firstn k l ++ [nth k l 0].
Proof.
  induction l as [|x l IH]; intros [|k] H; cbn in *; try lia; [reflexivity|].
  rewrite <- IH by lia. reflexivity.
Qed.

(** One bin further up every cell below stands one bin deeper. *)
Lemma water_below_S : forall l k, (k < List.length l)%nat -> water_below l (S k) = water_below l k + zsum (firstn (S k) l).
Proof.
  intros l k H. unfold water_below.
  assert (G : forall m, (m <= List.length l)%nat ->
    zsum (map (fun j => (Z.of_nat (S k) - Z.of_nat j) * nth j l 0) (seq 0 m)) =
    zsum (map (fun j => (Z.of_nat k - Z.of_nat j) * nth j l 0) (seq 0 m)) + zsum (firstn m l)).
  { induction m as [|m IH]; intros Hm; [reflexivity|].
    rewrite seq_S, !map_app, !zsum_app, IH, firstn_nth, zsum_app by lia. cbn [map zsum fold_right plus]. lia. }
  rewrite G by lia. rewrite (seq_S k 0), map_app, zsum_app. cbn [map zsum fold_right plus]. lia.
Qed.

Lemma Qsum_snoc : forall a x, (Qsum (a ++ [x]) == Qsum a + x)%Q.
Proof. induction a as [|y a IH]; intros x; cbn; [lra|]. rewrite IH. lra. Qed.

Lemma firstn_nth_error : forall {A} (l : list A) k x, nth_error l k = Some x -> firstn (S k) l = firstn k l ++ [x].
Proof.
  intros A. induction l as [|y l IH]; intros [|k] x H; cbn in *; try discriminate; [congruence|].
  rewrite <- (IH k x H). reflexivity.
Qed.

(** The entries of a running total, when the summands are known. *)
Lemma cumsum_total : forall (l : list Q) (f : nat -> Q) k x,
  (forall i y, nth_error l i = Some y -> (y == f (S i) - f i)%Q) -> (f O == 0)%Q ->
  nth_error (cumsum QOps l) k = Some x -> (x == f (S k))%Q.
Proof.
  intros l f k x F F0 E.
  assert (Hk : (k < List.length l)%nat) by (rewrite <- (cumsum_length QOps); apply nth_error_Some; congruence).
  apply cumsum_nth in E. rewrite E. clear E x.
  assert (G : forall m, (m <= List.length l)%nat -> (Qsum (firstn m l) == f m)%Q).
  { induction m as [|m IH]; intros Hm; [rewrite F0; reflexivity|].
    destruct (nth_error l m) as [y|] eqn:E; [|apply nth_error_None in E; lia].
    rewrite (firstn_nth_error _ _ _ E), Qsum_snoc, IH by lia. rewrite (F _ _ E). lra. }
  apply G. lia.
Qed.

Lemma nth_map_inv : forall {A B} (f : A -> B) l k y, nth_error (map f l) k = Some y -> exists x, nth_error l k = Some x /\ y = f x.
Proof.
  intros A B f. induction l as [|a l IH]; intros [|k] y H; cbn in *; try discriminate; [|apply IH; exact H].
  exists a. split; congruence.
Qed.

Lemma cumulative_counts : forall (counts : list Z) i y,
  nth_error (cumsum QOps (map inject_Z counts)) i = Some y -> (y == inject_Z (zsum (firstn (S i) counts)))%Q.
Proof. intros counts i y H. apply cumsum_nth in H. rewrite H, firstn_map. apply Qsum_inject. Qed.

Theorem approx_below : forall (h : @histogram Q) area k x,
  nth_error (cumulative_volume QOps h area) k = Some x ->
  (k < List.length (h_counts h))%nat -> 
  (x == area * b_resolution (h_bins h) * inject_Z (water_below (h_counts h) k))%Q.
Proof.
  intros h area k x E Hk. unfold cumulative_volume in E.
  set (r := (area * b_resolution (h_bins h))%Q) in *. set (c := h_counts h) in *.
  change (nmul QOps (nmul QOps area (b_resolution (h_bins h)))) with (Qmult r) in E.
  change (nofZ QOps) with inject_Z in E.
  match type of E with nth_error (cumsum QOps ?q) _ = _ =>
    pose proof (cumsum_total q (fun n => r * inject_Z (water_below c (pred n)))%Q k x) as G end. cbv beta in G.
  rewrite G; [reflexivity| | |exact E]; [|cbn; change (inject_Z 0) with 0%Q; lra].
  clear G E. intros i y Ey. apply nth_map_inv in Ey. destruct Ey as (z & Ez & ->). cbn [pred].
  destruct i as [|i].
  - injection Ez as <-. cbn. change (inject_Z 0) with 0%Q. lra.
  - cbn [nth_error] in Ez.
    assert (Hi : (i < List.length (removelast (cumsum QOps (map inject_Z c))))%nat) by (apply nth_error_Some; congruence).
    assert (L : (S i < List.length c)%nat).
    { rewrite removelast_length, cumsum_length, map_length in Hi. lia. }
    rewrite removelast_nth in Ez by (rewrite cumsum_length, map_length; exact L).
    apply cumulative_counts in Ez. cbn [pred]. rewrite water_below_S by lia. rewrite inject_Z_plus, Ez. ring.
Qed.

Theorem hyps_below : forall (h : @histogram Q) area l k x,
  hyps_cumulative_volume QOps h area = Ok l -> nth_error l k = Some x ->
  (x == area * b_resolution (h_bins h) *
        inject_Z (water_below (h_counts h) (S k) - Z.of_nat (S k) * nth 0 (h_counts h) 0%Z))%Q.
Proof.
  intros h area l k x H E. unfold hyps_cumulative_volume in H.
  set (r := (area * b_resolution (h_bins h))%Q) in *. set (c := h_counts h) in *.
  change (nmul QOps (nmul QOps area (b_resolution (h_bins h)))) with (Qmult r) in H.
  change (nofZ QOps) with inject_Z in H.
  apply bind_ok in H. destruct H as (s0 & H0 & H). injection H as <-.
  assert (S0 : (s0 == r * inject_Z (nth 0 c 0%Z))%Q).
  { unfold list_rd in H0. destruct (pyidx _ 0) as [p|] eqn:P; [|discriminate].
    assert (p = 0) by (unfold pyidx in P; destruct c; cbn in P; [discriminate|]; repeat (destruct (_ : bool) in P); congruence).
    subst p. destruct (nth_error _ (Z.to_nat 0)) as [y|] eqn:Y; [|discriminate]. injection H0 as <-.
    apply nth_map_inv in Y. destruct Y as (z & Ez & ->). pose proof (cumulative_counts _ _ _ Ez) as A. rewrite A.
    destruct c as [|c0 c']; [discriminate Ez|]. cbn. rewrite Z.add_0_r. reflexivity. }
  match type of E with nth_error (cumsum QOps ?q) _ = _ =>
    pose proof (cumsum_total q (fun n => r * inject_Z (water_below c n - Z.of_nat n * nth 0 c 0%Z))%Q k x) as G end. cbv beta in G.
  apply G; [| |exact E]; [|cbn; change (inject_Z 0) with 0%Q; lra].
  intros i y Ey. apply nth_map_inv in Ey. destruct Ey as (z & Ez & ->).
  apply nth_map_inv in Ez. destruct Ez as (t & Et & ->).
  assert (Hi : (i < List.length c)%nat) by (rewrite <- (map_length inject_Z), <- (cumsum_length QOps); apply nth_error_Some; congruence).
  apply cumulative_counts in Et. cbn [nsub QOps]. rewrite S0, Et, water_below_S by exact Hi.
  assert (D : (inject_Z (water_below c i + zsum (firstn (S i) c) - Z.of_nat (S i) * nth 0 c 0%Z) ==
               inject_Z (water_below c i - Z.of_nat i * nth 0 c 0%Z) + (inject_Z (zsum (firstn (S i) c)) - inject_Z (nth 0 c 0%Z)))%Q).
  { unfold Qminus. rewrite <- !inject_Z_opp, <- !inject_Z_plus. replace (water_below c i + zsum (firstn (S i) c) - Z.of_nat (S i) * nth 0 c 0%Z)
      with (water_below c i - Z.of_nat i * nth 0 c 0 + (zsum (firstn (S i) c) + - nth 0 c 0%Z)) by lia. reflexivity. }
  rewrite D. ring.
Qed.

(** A flat bottom of four cells and one cell two bins higher. *)
Definition flat_hist : @histogram Q := mkHist [4; 0; 1] (mkBins 3 0%Q 3%Q 1%Q).

Theorem hyps_below_refuted : exists (h : @histogram Q) area l,
  hyps_cumulative_volume QOps h area = Ok l /\ (0 < area)%Q /\ (0 < b_resolution (h_bins h))%Q /\
  (exists x, nth_error l 1 = Some x /\ (x == 0)%Q) /\
  (exists x, nth_error (cumulative_volume QOps h area) 1 = Some x /\ (x == 4)%Q) /\
  water_below (h_counts h) 1 = 4.
Proof.
  exists flat_hist, 1%Q. eexists. split; [vm_compute; reflexivity|]. split; [reflexivity|]. split; [reflexivity|].
  split; [eexists; split; [vm_compute; reflexivity|reflexivity]|].
  split; [eexists; split; [vm_compute; reflexivity|reflexivity]|]. reflexivity.
Qed.
