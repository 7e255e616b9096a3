(** * C41, C42, C57: hypsometry

    bluespot_hypsometry_stats QOps Q_int: hyps.py in exact arithmetic; pinf and ninf stand
    for the infinities the minimum and maximum start from. *)

From Coq Require Import QArith String.
From Verif Require Import Base Num Float64 FillSpec LabelModel LabelSpec BluespotSpec HypsModel HypsSpec HypsThms OwnHypsThms.
Local Open Scope Z_scope.

(** ** C41
    Full statement: for every bluespot the counts add up to its number of cells and
    [lower, upper] encloses [zmin, zmax].  Missing: bluespots with negative elevations
    (C41_negative_refuted) and rounded arithmetic (C41_rounding_refuted).  What holds for
    all signs: the upper bound is above all cells, the lower bound is less than one bin
    above the lowest cell, the counts are those of the cells between the bounds. *)

Theorem C41_histogram_partial : forall (lab : raster Z) (dem : raster Q) resolution n pinf ninf,
  same_shape dem lab -> numbered lab n -> largest_label lab n -> (0 < resolution)%Q ->
  (forall c, inside (nrows lab) (ncols lab) c -> (ninf < at_ dem c < pinf)%Q) ->
  exists st, bluespot_hypsometry_stats QOps Q_int pinf ninf lab dem resolution None 0 = Ok st /\
    bluespot_hypsometry_stats QOps Q_int pinf ninf lab dem resolution (Some n) 0 = Ok st /\
    Z.of_nat (List.length st) = n + 1 /\
    forall l, 1 <= l <= n -> exists h cs, nth_error st (Z.to_nat l) = Some (l, h) /\
      lists_cells (has_label lab l) cs /\
      let zs := map (at_ dem) cs in
      let b := h_bins (z_hist h) in
      least zs (z_min h) /\ greatest zs (z_max h) /\ histogram_of zs resolution (z_hist h) /\
      (z_max h < b_upper b)%Q /\ (b_lower b < z_min h + resolution)%Q /\ (z_min h < b_lower b + resolution)%Q /\
      zsum (h_counts (z_hist h)) = Z.of_nat (List.length (between (b_lower b) (b_upper b) zs)) /\
      ((0 <= z_min h)%Q -> (b_lower b <= z_min h)%Q /\ (b_upper b <= z_max h + resolution)%Q /\ zsum (h_counts (z_hist h)) = Z.of_nat (List.length cs)).
Proof. exact hypsometry_exact. Qed.
Print Assumptions C41_histogram_partial.

(** Elevations -1/2 and 1/2 with resolution 1: one of the two cells is lost. *)
Theorem C41_negative_refuted : exists (lab : raster Z) (dem : raster Q) st h,
  same_shape dem lab /\ numbered lab 1 /\ largest_label lab 1 /\ lists_cells (has_label lab 1) [(0, 0); (0, 1)] /\
  bluespot_hypsometry_stats QOps Q_int 1000%Q (-1000)%Q lab dem 1%Q None 0 = Ok st /\
  nth_error st 1 = Some (1, h) /\ zsum (h_counts (z_hist h)) = 1 /\ (z_min h < b_lower (h_bins (z_hist h)))%Q.
Proof. exact negative_refuted. Qed.
Print Assumptions C41_negative_refuted.

(** A single cell at 0.3 with resolution 0.1 in binary64 is not counted. *)
Theorem C41_rounding_refuted : exists (lab : raster Z) (dem : raster b64) w st h,
  same_shape dem lab /\ numbered lab 1 /\ largest_label lab 1 /\ lists_cells (has_label lab 1) [(0, 0)] /\
  lt64 f64_zero w /\ lt64 f64_zero (at_ dem (0, 0)) /\ lt64 (at_ dem (0, 0)) (f64_ofZ 1) /\
  bluespot_hypsometry_stats F64Ops b64_int f64_inf f64_ninf lab dem w None 0 = Ok st /\
  nth_error st 1 = Some (1, h) /\ zsum (h_counts (z_hist h)) = 0 /\ lt64 (z_min h) (b_lower (h_bins (z_hist h))).
Proof. exact rounding_refuted. Qed.
Print Assumptions C41_rounding_refuted.

Example C41_example : same_shape hy_dem hy_lab /\ numbered hy_lab 2 /\ largest_label hy_lab 2 /\
  match bluespot_hypsometry_stats QOps Q_int 1000%Q (-1000)%Q hy_lab hy_dem (1#4)%Q None 0 with
  | Ok [_; (_, h); _] => h_counts (z_hist h) = [1; 0; 0; 0; 0; 1]
  | _ => False
  end.
Proof.
  split; [split; reflexivity|]. split; [apply hy_lab_ok|]. split; [apply hy_lab_ok|]. vm_compute. reflexivity.
Qed.

(** ** C42 *)

Theorem C42_roundtrip : forall {T} (h : @hyps T),
  Z.of_nat (List.length (h_counts (z_hist h))) = b_num (h_bins (z_hist h)) ->
  hyps_from_flatdict (hyps_to_flatdict h) = Ok h.
Proof. exact (@flatdict_roundtrip). Qed.
Print Assumptions C42_roundtrip.

(** All histograms the code produces, with any arithmetic. *)
Theorem C42_produced_roundtrip : forall {T} (ops : NumOps T) to_int pinf ninf lab dem w labels_max background st l h,
  bluespot_hypsometry_stats ops to_int pinf ninf lab dem w labels_max background = Ok st -> In (l, h) st ->
  hyps_from_flatdict (hyps_to_flatdict h) = Ok h.
Proof. exact (@produced_roundtrip). Qed.
Print Assumptions C42_produced_roundtrip.

Example C42_example :
  let h := mkHyps (mkHist [12; 0; 305] (mkBins 3 0 3 1)) 0 2 in
  Z.of_nat (List.length (h_counts (z_hist h))) = b_num (h_bins (z_hist h)) /\
  d_counts (hyps_to_flatdict h) = "12|0|305"%string /\
  exists st l h', bluespot_hypsometry_stats QOps Q_int 1000%Q (-1000)%Q hy_lab hy_dem (1#4)%Q None 0 = Ok st /\ In (l, h') st.
Proof.
  split; [reflexivity|]. split; [reflexivity|]. do 3 eexists. split; [vm_compute; reflexivity|]. right. left. reflexivity.
Qed.

(** ** C57: every label gets its own histogram *)

Theorem C57_hypsometry_sound : forall {T} (ops : NumOps T) to_int pinf ninf (lab : raster Z) dem cell_res ids w n out,
  labels_in lab n -> largest_label lab n -> NoDup ids ->
  bluespot_hypsometry_io ops to_int pinf ninf lab dem cell_res ids w = Ok out ->
  same_shape dem lab /\ nltb ops (nofZ ops 0) w = true /\
  map hf_bspot out = ids /\ (forall l, 0 <= l <= n -> In l ids) /\ (forall id, In id ids -> id <= n) /\
  exists st, bluespot_hypsometry_stats ops to_int pinf ninf lab dem w (Some n) 0 = Ok st /\
  forall f, In f out -> 0 <= hf_bspot f -> exists h d, In (hf_bspot f, h) st /\ hf_dict f = Some d /\
    hyps_from_flatdict d = Ok h /\ hf_cell_area f = Some (nmul ops (fst cell_res) (snd cell_res)).
Proof. exact (@hypsometry_io_sound). Qed.
Print Assumptions C57_hypsometry_sound.

Theorem C57_hypsometry_total : forall {T} (ops : NumOps T) to_int pinf ninf (lab : raster Z) dem cell_res ids w n st,
  same_shape dem lab -> labels_in lab n -> largest_label lab n -> NoDup ids ->
  nltb ops (nofZ ops 0) w = true -> (forall l, In l ids <-> 0 <= l <= n) ->
  bluespot_hypsometry_stats ops to_int pinf ninf lab dem w (Some n) 0 = Ok st ->
  exists out, bluespot_hypsometry_io ops to_int pinf ninf lab dem cell_res ids w = Ok out.
Proof. exact (@hypsometry_io_total). Qed.
Print Assumptions C57_hypsometry_total.

(** In exact arithmetic: the histogram of the cells with that label and no others. *)
Theorem C57_own_histogram : forall (lab : raster Z) (dem : raster Q) cell_res ids w n pinf ninf out,
  numbered lab n -> largest_label lab n -> NoDup ids ->
  (forall c, inside (nrows lab) (ncols lab) c -> (ninf < at_ dem c < pinf)%Q) ->
  bluespot_hypsometry_io QOps Q_int pinf ninf lab dem cell_res ids w = Ok out ->
  forall f, In f out -> 1 <= hf_bspot f -> exists h d cs,
    hf_dict f = Some d /\ hyps_from_flatdict d = Ok h /\ lists_cells (has_label lab (hf_bspot f)) cs /\ cs <> [] /\
    let zs := map (at_ dem) cs in
    least zs (z_min h) /\ greatest zs (z_max h) /\ histogram_of zs w (z_hist h).
Proof. exact own_histogram. Qed.
Print Assumptions C57_own_histogram.

Example C57_example : labels_in hy_lab 2 /\ largest_label hy_lab 2 /\ NoDup [2; 0; 1] /\
  (forall l, In l [2; 0; 1] <-> 0 <= l <= 2) /\
  exists out, bluespot_hypsometry_io QOps Q_int 1000%Q (-1000)%Q hy_lab hy_dem (2%Q, 2%Q) [2; 0; 1] (1#4)%Q = Ok out /\
    map hf_bspot out = [2; 0; 1].
Proof.
  split; [apply hy_lab_ok|]. split; [apply hy_lab_ok|].
  split; [repeat constructor; cbn; lia|].
  split; [intros l; cbn; lia|].
  eexists. split; [vm_compute; reflexivity|]. reflexivity.
Qed.
