(** * C86-C89: the complete command in floats, up to the final rasters *)

From Coq Require Import QArith Qabs Qpower Permutation.
From Flocq Require Import IEEE754.BinarySingleNaN.
From Verif Require Import Base Num Float64 FillSpec DemModel DemProofs LabelSpec CompSpec CompProofs VectorModel BluespotModel PipelineModel
  NetworkModel NetworkFloatThms RainModel RainThms HypsModel ApproxModel FloatPipeModel FloatPipeSpec FloatFinishModel FloatFinishSpec
  FloatFinishThms HypsSpec FinishDry FloatFinishEx.
Local Open Scope Z_scope.

(** ** C86
    With floats throughout the complete command runs to its end on every sane input: nothing overflows, every
    bluespot gets a level of a finite height for the water the final state gives it, and every cell of a bluespot
    is either above that level, dry and background, or below it, under the difference, and keeps its label. *)
Theorem C86_floats_complete : forall cc, labels_components cc -> forall sp t dem f (use_accum : bool) mm zresolution,
  size_ok sp dem -> dem32 dem -> dem_finite dem -> sane_inputs t dem mm zresolution ->
  exists k, forall fuel, (fuel >= k)%nat -> exists o,
    complete_all64 sp cc fuel t dem f use_accum mm zresolution = Ok o /\
    complete64 sp cc fuel t dem f use_accum mm = Ok (c64_volumes o) /\ no_overflow (c64_volumes o) /\
    let lab := bo_labeled (c64_bluespots o) in let fin := c64_finish o in
    same_shape lab dem /\ same_shape (ff_labels fin) dem /\ same_shape (ff_depths fin) dem /\
    map hi_bspot (ff_hyps fin) = zseq 0 (Z.to_nat (bo_nlabels (c64_bluespots o) + 1)) /\
    Permutation (map lf_bspot (ff_levels fin)) (zseq 0 (Z.to_nat (bo_nlabels (c64_bluespots o) + 1))) /\
    (forall v, In v (ff_levels fin) ->
       nonneg64 (lf_v v) /\ (1 <= lf_bspot v -> finite64 (lf_z v)) /\
       exists nd e, In (nd, Some e) (fo_final (c64_volumes o)) /\ n_id nd = lf_bspot v /\ lf_v v = e_vol e) /\
    (forall c, inside (nrows dem) (ncols dem) c -> at_ lab c = 0 -> at_ (ff_labels fin) c = 0 /\
       (le64 (f64_ofZ (-999)) (at_ dem c) -> eq64 (at_ (ff_depths fin) c) f64_zero)) /\
    (forall c, inside (nrows dem) (ncols dem) c -> at_ lab c <> 0 -> exists v, In v (ff_levels fin) /\ lf_bspot v = at_ lab c /\
       nonneg64 (at_ (ff_depths fin) c) /\
       (lt64 (lf_z v) (at_ dem c) -> at_ (ff_depths fin) c = f64_zero /\ at_ (ff_labels fin) c = 0) /\
       (le64 (at_ dem c) (lf_z v) -> at_ (ff_depths fin) c = f64_sub (lf_z v) (at_ dem c) /\ at_ (ff_labels fin) c = at_ lab c)).
Proof. exact floats_complete. Qed.
Print Assumptions C86_floats_complete.

(** A hollow 0.7 m high at its lowest, given 20 mm of rain and partly filled. *)
Example C86_example : labels_components cc_memo /\ size_ok false dm_dem /\ dem32 dm_dem /\ dem_finite dm_dem /\
  sane_inputs dm_gt dm_dem (f64_ofZ 20) (tenth 1) /\
  exists o, complete_all64 false cc_memo 60 dm_gt dm_dem all_pass true (f64_ofZ 20) (tenth 1) = Ok o /\ partly_filled o = true.
Proof.
  destruct dm_ok as (A & B & C & D). split; [exact A|]. split; [exact B|]. split; [exact C|]. split; [exact D|].
  split; [apply dm_sane; left; reflexivity|]. exact dm_partly.
Qed.

(** ** C87
    A bluespot that holds no water is drawn dry. *)
(** False with a resolution of 0.1 m: the lowest cell, float32 0.7, lies a little below 7 steps, but on the rounded
    edge of the second bin.  The first bin is empty, and the level of no water is the middle of the second. *)
Theorem C87_dry_refuted : exists cc t dem f (use_accum : bool) mm zresolution fuel o v c,
  labels_components cc /\ size_ok false dem /\ dem32 dem /\ dem_finite dem /\ sane_inputs t dem mm zresolution /\
  complete_all64 false cc fuel t dem f use_accum mm zresolution = Ok o /\
  In v (ff_levels (c64_finish o)) /\ lf_bspot v = 1 /\ eq64 (lf_v v) f64_zero /\ at_ (bo_labeled (c64_bluespots o)) c = 1 /\
  lt64 (f64_div (f64_ofZ 4) (f64_ofZ 100)) (at_ (ff_depths (c64_finish o)) c).
Proof. exact dry_refuted. Qed.
Print Assumptions C87_dry_refuted.

(** True when the resolution is a power of two and no elevation exceeds 2^23 steps. *)
Theorem C87_dyadic_partial : forall cc, labels_components cc -> forall sp t dem f (use_accum : bool) mm w,
  size_ok sp dem -> dem32 dem -> dem_finite dem -> sane_inputs t dem mm w ->
  (exists j, -100 <= j <= 100 /\ (b64_Q w == Qpower 2 j)%Q) ->
  (forall c, inside (nrows dem) (ncols dem) c -> (b64_Q (at_ dem c) <= inject_Z (2 ^ 23) * b64_Q w)%Q) ->
  exists k, forall fuel, (fuel >= k)%nat -> exists o,
    complete_all64 sp cc fuel t dem f use_accum mm w = Ok o /\
    forall v, In v (ff_levels (c64_finish o)) -> 1 <= lf_bspot v -> eq64 (lf_v v) f64_zero ->
      (forall c, has_label (bo_labeled (c64_bluespots o)) (lf_bspot v) c -> le64 f64_zero (at_ dem c)) ->
      forall c, has_label (bo_labeled (c64_bluespots o)) (lf_bspot v) c -> eq64 (at_ (ff_depths (c64_finish o)) c) f64_zero.
Proof. exact dry_dyadic. Qed.
Print Assumptions C87_dyadic_partial.

(** The hollow of the refutation with steps of an eighth of a metre. *)
Example C87_dyadic_example : labels_components cc_memo /\ size_ok false dm_dem /\ dem32 dm_dem /\ dem_finite dm_dem /\
  sane_inputs dm_gt dm_dem (f64_ofZ 0) eighth /\ (b64_Q eighth == Qpower 2 (-3))%Q /\
  (forall c, inside (nrows dm_dem) (ncols dm_dem) c -> (b64_Q (at_ dm_dem c) <= inject_Z (2 ^ 23) * b64_Q eighth)%Q) /\
  exists o, complete_all64 false cc_memo 60 dm_gt dm_dem all_pass true (f64_ofZ 0) eighth = Ok o /\ no_water dm_dem o = true.
Proof. destruct dm_ok as (A & B & C & D). split; [exact A|]. split; [exact B|]. split; [exact C|]. split; [exact D|]. exact dm_eighth. Qed.

(** True when the lowest cell is not within a relative 2^-22 of a multiple of the resolution. *)
Theorem C87_away_partial : forall cc, labels_components cc -> forall sp t dem f (use_accum : bool) mm w,
  size_ok sp dem -> dem32 dem -> dem_finite dem -> sane_inputs t dem mm w ->
  exists k, forall fuel, (fuel >= k)%nat -> exists o,
    complete_all64 sp cc fuel t dem f use_accum mm w = Ok o /\
    forall v, In v (ff_levels (c64_finish o)) -> 1 <= lf_bspot v -> eq64 (lf_v v) f64_zero ->
      (forall c, has_label (bo_labeled (c64_bluespots o)) (lf_bspot v) c -> le64 f64_zero (at_ dem c)) ->
      (exists c, has_label (bo_labeled (c64_bluespots o)) (lf_bspot v) c /\
         (forall k, 1 <= k -> ((1 # 2 ^ 22) * (inject_Z k * b64_Q w) < Qabs (b64_Q (at_ dem c) - inject_Z k * b64_Q w))%Q) /\
         forall d, has_label (bo_labeled (c64_bluespots o)) (lf_bspot v) d -> le64 (at_ dem c) (at_ dem d)) ->
      forall c, has_label (bo_labeled (c64_bluespots o)) (lf_bspot v) c -> eq64 (at_ (ff_depths (c64_finish o)) c) f64_zero.
Proof. exact dry_away. Qed.
Print Assumptions C87_away_partial.

(** A hollow with its lowest cell at 0.75 m, steps of 0.1 m. *)
Example C87_away_example : labels_components cc_memo /\ size_ok false mid_dem /\ dem32 mid_dem /\ dem_finite mid_dem /\
  sane_inputs dm_gt mid_dem (f64_ofZ 0) (tenth 1) /\
  (forall k, 1 <= k -> ((1 # 2 ^ 22) * (inject_Z k * b64_Q (tenth 1)) < Qabs (b64_Q (at_ mid_dem (1, 1)%Z) - inject_Z k * b64_Q (tenth 1)))%Q) /\
  exists o, complete_all64 false cc_memo 60 dm_gt mid_dem all_pass true (f64_ofZ 0) (tenth 1) = Ok o /\ no_water mid_dem o = true.
Proof. destruct dm_ok as (A & _). destruct mid_ok as (B & C & D & E & F). split; [exact A|]. split; [exact B|]. split; [exact C|]. split; [exact D|]. split; [exact E|]. split; [exact mid_off|exact F]. Qed.

(** ** C88
    The hypsometry of each bluespot has the lowest and the highest of its cells.  Where no cell is below zero every
    cell is counted once, between edges within a relative 2^-23 of consecutive multiples of the resolution. *)
Theorem C88_every_cell_counted : forall cc, labels_components cc -> forall sp t dem f (use_accum : bool) mm zresolution,
  size_ok sp dem -> dem32 dem -> dem_finite dem -> sane_inputs t dem mm zresolution ->
  exists k, forall fuel, (fuel >= k)%nat -> exists o,
    complete_all64 sp cc fuel t dem f use_accum mm zresolution = Ok o /\
    forall i, In i (ff_hyps (c64_finish o)) -> 1 <= hi_bspot i -> exists h cs,
      hyps_from_flatdict (hi_dict i) = Ok h /\ lists_cells (has_label (bo_labeled (c64_bluespots o)) (hi_bspot i)) cs /\
      (exists c, In c cs /\ at_ dem c = z_min h) /\ (exists c, In c cs /\ at_ dem c = z_max h) /\
      (forall c, In c cs -> le64 (z_min h) (at_ dem c) /\ le64 (at_ dem c) (z_max h)) /\
      (forall x, In x (h_counts (z_hist h)) -> 0 <= x) /\
      ((forall c, In c cs -> le64 f64_zero (at_ dem c)) -> zsum (h_counts (z_hist h)) = Z.of_nat (length cs) /\
         exists m edge, counted_between dem (has_label (bo_labeled (c64_bluespots o)) (hi_bspot i)) (h_counts (z_hist h)) edge /\
           0 <= m /\ forall j, 0 <= j <= Z.of_nat (length (h_counts (z_hist h))) ->
           (Qabs (b64_Q (edge j) - inject_Z (m + j) * b64_Q zresolution) <= (1 # 2 ^ 23) * (inject_Z (m + j) * b64_Q zresolution))%Q).
Proof. exact every_cell_counted. Qed.
Print Assumptions C88_every_cell_counted.

(** Three cells above zero, in several bins. *)
Example C88_example : labels_components cc_memo /\ size_ok false dm_dem /\ dem32 dm_dem /\ dem_finite dm_dem /\
  sane_inputs dm_gt dm_dem (f64_ofZ 20) (tenth 1) /\
  exists o, complete_all64 false cc_memo 60 dm_gt dm_dem all_pass true (f64_ofZ 20) (tenth 1) = Ok o /\ three_counted dm_dem o = true.
Proof.
  destruct dm_ok as (A & B & C & D). split; [exact A|]. split; [exact B|]. split; [exact C|]. split; [exact D|].
  split; [apply dm_sane; left; reflexivity|]. exact dm_counted.
Qed.

(** ** C89
    On terrain that is nowhere below zero a level lies between the lowest cell of the bluespot and the filled
    terrain, up to a relative 2^-23; without the compiled code the final depths are at most the depths of the
    completely filled bluespot, up to a relative 2^-22 of the elevation. *)
Theorem C89_levels_below : forall cc, labels_components cc -> forall sp t dem f (use_accum : bool) mm zresolution,
  size_ok sp dem -> dem32 dem -> dem_finite dem -> sane_inputs t dem mm zresolution ->
  exists k, forall fuel, (fuel >= k)%nat -> exists o,
    complete_all64 sp cc fuel t dem f use_accum mm zresolution = Ok o /\
    let filled := do_filled (c64_dem o) in let depths := ff_depths (c64_finish o) in
    forall v, In v (ff_levels (c64_finish o)) -> 1 <= lf_bspot v ->
      (forall c, has_label (bo_labeled (c64_bluespots o)) (lf_bspot v) c -> le64 f64_zero (at_ dem c)) ->
      (exists c, has_label (bo_labeled (c64_bluespots o)) (lf_bspot v) c /\ le64 (at_ dem c) (lf_z v)) /\
      (exists c, has_label (bo_labeled (c64_bluespots o)) (lf_bspot v) c /\ (b64_Q (lf_z v) <= b64_Q (at_ filled c) * (1 + (1 # 2 ^ 23)))%Q) /\
      (sp = false -> forall c, has_label (bo_labeled (c64_bluespots o)) (lf_bspot v) c ->
         (b64_Q (lf_z v) <= b64_Q (at_ filled c) * (1 + (1 # 2 ^ 23)))%Q /\
         (b64_Q (at_ depths c) <= b64_Q (at_ filled c) - b64_Q (at_ dem c) + (1 # 2 ^ 22) * b64_Q (at_ filled c))%Q).
Proof. exact levels_below. Qed.
Print Assumptions C89_levels_below.

(** The partly filled hollow of C86 lies above zero. *)
Example C89_example : labels_components cc_memo /\ size_ok false dm_dem /\ dem32 dm_dem /\ dem_finite dm_dem /\
  sane_inputs dm_gt dm_dem (f64_ofZ 20) (tenth 1) /\
  exists o, complete_all64 false cc_memo 60 dm_gt dm_dem all_pass true (f64_ofZ 20) (tenth 1) = Ok o /\ three_counted dm_dem o && partly_filled o = true.
Proof.
  destruct dm_ok as (A & B & C & D). split; [exact A|]. split; [exact B|]. split; [exact C|]. split; [exact D|].
  split; [apply dm_sane; left; reflexivity|]. exact dm_above.
Qed.
