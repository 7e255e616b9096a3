(** * C74: raising the terrain by whole bins

    Exact arithmetic (QOps) for histograms and levels. *)

From Coq Require Import QArith.
From Verif Require Import Base Num Float64 DemModel DemProofs LabelModel LabelSpec BluespotModel BluespotSpec HypsModel HypsThms ApproxModel
  VectorModel CompProofs PipelineModel CompleteModel ShiftThms.
Local Open Scope Z_scope.

(** Full statement: when the terrain is raised by a whole number of bins, histograms stay the same, levels rise by
    the same amount, and depths and extents stay the same.  Missing: cells that change sign (refuted below). *)

Theorem C74_levels_rise_partial : forall (lab : raster Z) (dem dem' : raster Q) w n pinf ninf k st st' l h h',
  same_shape dem lab -> same_shape dem' lab -> numbered lab n -> largest_label lab n -> (0 < w)%Q ->
  (forall c, inside (nrows lab) (ncols lab) c -> (ninf < at_ dem c < pinf)%Q /\ (ninf < at_ dem' c < pinf)%Q) ->
  (forall c, inside (nrows lab) (ncols lab) c -> at_ dem' c == at_ dem c + inject_Z k * w)%Q ->
  (forall c, inside (nrows lab) (ncols lab) c -> (0 <= at_ dem c /\ 0 <= at_ dem' c) \/ (at_ dem c <= 0 /\ at_ dem' c <= 0))%Q ->
  bluespot_hypsometry_stats QOps Q_int pinf ninf lab dem w None 0 = Ok st ->
  bluespot_hypsometry_stats QOps Q_int pinf ninf lab dem' w None 0 = Ok st' ->
  1 <= l <= n -> nth_error st (Z.to_nat l) = Some (l, h) -> nth_error st' (Z.to_nat l) = Some (l, h') ->
  h_counts (z_hist h') = h_counts (z_hist h) /\
  (b_lower (h_bins (z_hist h')) == b_lower (h_bins (z_hist h)) + inject_Z k * w)%Q /\
  forall area max_depth max_vol v L, water_level QOps h area max_depth max_vol v = Ok L ->
  exists L', water_level QOps h' area max_depth max_vol v = Ok L' /\ (L' == L + inject_Z k * w)%Q.
Proof. exact levels_rise. Qed.
Print Assumptions C74_levels_rise_partial.

Theorem C74_depths_stay : forall (lab : raster Z) levels levels' (dem dem' : raster Q) s background lab1 depths lab1' depths',
  (forall c, inside (nrows lab) (ncols lab) c -> 0 <= at_ lab c) -> NoDup (map fst levels) ->
  Forall2 (fun x y => fst y = fst x /\ snd y == snd x + s)%Q levels levels' ->
  (forall c, inside (nrows lab) (ncols lab) c -> at_ dem' c == at_ dem c + s /\ -999 <= at_ dem c /\ -999 <= at_ dem' c)%Q ->
  approx_bluespots QOps lab levels dem background = Ok (lab1, depths) ->
  approx_bluespots QOps lab levels' dem' background = Ok (lab1', depths') ->
  forall c, inside (nrows lab) (ncols lab) c -> at_ lab1' c = at_ lab1 c /\ (at_ depths' c == at_ depths c)%Q.
Proof. exact depths_stay. Qed.
Print Assumptions C74_depths_stay.

(** The complete command on a terrain below zero and on the same terrain 80 m (ten bins) higher: after 32000 mm of
    rain a cell is under 68 m of water (its full depth is 67 m) in one and under 64 m in the other. *)
Theorem C74_below_zero_refuted : exists a a', low_run 32000%Q = Ok a /\ high_run 32000%Q = Ok a' /\
  (forall c, inside 3 4 c -> (b64_Q (at_ high_dem c) == b64_Q (at_ low_dem c) + inject_Z 10 * 8)%Q) /\
  (b64_Q (at_ (do_depths (ca_dem a)) (1, 1)%Z) == 67)%Q /\ (at_ (fo_depths (ca_finish a)) (1, 1)%Z == 68)%Q /\
  (b64_Q (at_ (do_depths (ca_dem a')) (1, 1)%Z) == 67)%Q /\ (at_ (fo_depths (ca_finish a')) (1, 1)%Z == 64)%Q.
Proof. exact below_zero. Qed.
Print Assumptions C74_below_zero_refuted.

Example C74_example :
  let dem' := mkRaster (nrows hy_dem) (ncols hy_dem) (fun i j => rget hy_dem i j + inject_Z 4 * (1 # 4))%Q in
  same_shape dem' hy_lab /\ numbered hy_lab 2 /\ largest_label hy_lab 2 /\
  (forall c, inside (nrows hy_lab) (ncols hy_lab) c -> 0 <= at_ hy_dem c /\ 0 <= at_ dem' c)%Q /\
  match bluespot_hypsometry_stats QOps Q_int 1000%Q (-1000)%Q hy_lab hy_dem (1 # 4)%Q None 0,
        bluespot_hypsometry_stats QOps Q_int 1000%Q (-1000)%Q hy_lab dem' (1 # 4)%Q None 0 with
  | Ok [_; (_, h); _], Ok [_; (_, h'); _] => h_counts (z_hist h) = [1; 0; 0; 0; 0; 1] /\ h_counts (z_hist h') = [1; 0; 0; 0; 0; 1] /\
      exists L, water_level QOps h 1%Q (3 # 2)%Q (7 # 4)%Q (1 # 2)%Q = Ok L /\ (L == 9 # 8)%Q
  | _, _ => False
  end /\
  exists r, approx_bluespots QOps hy_lab [(1, 2%Q); (2, 4%Q)] dem' 0 = Ok r.
Proof.
  split; [split; reflexivity|]. split; [apply hy_lab_ok|]. split; [apply hy_lab_ok|]. split.
  - apply shift_example_sign.
  - split; [|eexists; vm_compute; reflexivity].
    vm_compute. split; [reflexivity|]. split; [reflexivity|]. eexists. split; [reflexivity|]. reflexivity.
Qed.
