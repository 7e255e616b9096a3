(** * C76, C77: the checks of the hypsometry

    assert_hypsometrystats_valid, hyps_cumulative_volume: hyps.py 78-86 and 122-126;
    QOps in exact, F64Ops in rounded arithmetic.  water_below counts k: the water below
    the k-th bin in units of cell area times bin width. *)

From Coq Require Import QArith.
From Verif Require Import Base Num Float64 LabelModel LabelSpec BluespotSpec BluespotThms HypsModel HypsSpec HypsThms
  ApproxModel HypsCheckModel HypsCheckSpec HypsCheckThms.
Local Open Scope Z_scope.

(** ** C76
    Full statement: every hypsometry that is generated passes the validity check of the
    module.  Proved in exact arithmetic, for any labels, DEM and positive resolution; in
    any arithmetic for the number of counts and the order of the bounds; refuted for the
    quotient in rounded arithmetic. *)

Theorem C76_valid_partial : forall pinf ninf (lab : raster Z) (dem : raster Q) resolution labels_max background st l h,
  (0 < resolution)%Q ->
  bluespot_hypsometry_stats QOps Q_int pinf ninf lab dem resolution labels_max background = Ok st -> In (l, h) st ->
  assert_hypsometrystats_valid QOps h = Ok tt.
Proof. exact produced_valid. Qed.
Print Assumptions C76_valid_partial.

Theorem C76_counts_and_bounds : forall {T} (ops : NumOps T) to_int pinf ninf lab dem resolution labels_max background st l h,
  bluespot_hypsometry_stats ops to_int pinf ninf lab dem resolution labels_max background = Ok st -> In (l, h) st ->
  l <> background ->
  Z.of_nat (List.length (h_counts (z_hist h))) = b_num (h_bins (z_hist h)) /\
  nltb ops (b_upper (h_bins (z_hist h))) (b_lower (h_bins (z_hist h))) = false.
Proof. exact (@produced_counts_bounds). Qed.
Print Assumptions C76_counts_and_bounds.

Theorem C76_rounded_refuted : exists (lab : raster Z) (dem : raster b64) resolution st h,
  same_shape dem lab /\ numbered lab 1 /\ largest_label lab 1 /\ lt64 f64_zero resolution /\
  (forall c, inside 1 1 c -> at_ dem c = f64_ofZ 8192) /\
  bluespot_hypsometry_stats F64Ops b64_int f64_inf f64_ninf lab dem resolution None 0 = Ok st /\
  nth_error st 1 = Some (1, h) /\ assert_hypsometrystats_valid F64Ops h = Exc AssertionError.
Proof. exact valid_refuted. Qed.
Print Assumptions C76_rounded_refuted.

Example C76_example : exists st,
  bluespot_hypsometry_stats QOps Q_int 1000%Q (-1000)%Q hy_lab hy_dem (1#4)%Q None 0 = Ok st /\
  map fst st = [0; 1; 2] /\ map (fun e => h_counts (z_hist (snd e))) st = [[]; [1; 0; 0; 0; 0; 1]; [1]].
Proof. eexists. split; [vm_compute; reflexivity|]. split; reflexivity. Qed.

(** ** C77
    Full statement: both functions that turn a histogram into cumulative volumes give the
    water below each bin.  The one of approx.py does; the one of hyps.py (78-86) leaves out
    the cells of the first bin and is one bin ahead. *)

Theorem C77_approx_volume : forall (h : @histogram Q) area k x,
  nth_error (cumulative_volume QOps h area) k = Some x -> (k < List.length (h_counts h))%nat ->
  (x == area * b_resolution (h_bins h) * inject_Z (water_below (h_counts h) k))%Q.
Proof. exact approx_below. Qed.
Print Assumptions C77_approx_volume.

Theorem C77_hyps_volume_partial : forall (h : @histogram Q) area l k x,
  hyps_cumulative_volume QOps h area = Ok l -> nth_error l k = Some x ->
  (x == area * b_resolution (h_bins h) *
        inject_Z (water_below (h_counts h) (S k) - Z.of_nat (S k) * nth 0 (h_counts h) 0%Z))%Q.
Proof. exact hyps_below. Qed.
Print Assumptions C77_hyps_volume_partial.

Theorem C77_hyps_volume_refuted : exists (h : @histogram Q) area l,
  hyps_cumulative_volume QOps h area = Ok l /\ (0 < area)%Q /\ (0 < b_resolution (h_bins h))%Q /\
  (exists x, nth_error l 1 = Some x /\ (x == 0)%Q) /\
  (exists x, nth_error (cumulative_volume QOps h area) 1 = Some x /\ (x == 4)%Q) /\
  water_below (h_counts h) 1 = 4.
Proof. exact hyps_below_refuted. Qed.
Print Assumptions C77_hyps_volume_refuted.

(** Four cells at the bottom, one cell two bins higher: below the third bin stand 4 * 2 units. *)
Example C77_example : water_below [4; 0; 1] 2 = 8 /\
  exists x, nth_error (cumulative_volume QOps flat_hist 1%Q) 2 = Some x /\ (x == 8)%Q.
Proof. split; [reflexivity|]. eexists. split; [vm_compute; reflexivity|reflexivity]. Qed.
