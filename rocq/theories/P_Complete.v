(** * C63-C67: the complete command from the DEM to the final rasters

    Rasters, flow and labels are computed on IEEE numbers as in the code; volumes, levels and
    final depths exactly (QOps).  [cc] is any labelling function meeting SciPy's contract; [sp]
    says whether the compiled functions are switched in; [t] is the geotransform. *)

From Coq Require Import Permutation QArith Qabs.
From Verif Require Import Base Num Float64 FillModel FillSpec FlowModel FlowSpec DemModel DemProofs LabelModel LabelSpec BaseProofs
  CompSpec CompProofs VectorModel BluespotModel BluespotSpec BluespotThms NetModel NetSpec NetworkModel NetworkSpec RainModel PipelineModel
  RainProofs RainThms HypsModel ApproxModel CompleteModel GridProofs CompleteThms ShiftThms.
Local Open Scope Z_scope.

(** ** C63 *)

(** The command succeeds.  Every bluespot and the background get one level, that of their
    final volume; final depths and bluespots follow from the levels. *)
Theorem C63_complete_succeeds : forall cc, labels_components cc -> forall sp t dem f (use_accum : bool),
  size_ok sp dem -> dem32 dem -> dem_finite dem -> nrows dem * ncols dem <= 2 ^ 53 ->
  square_cells (gt1 t) (gt5 t) = true ->
  exists k, forall fuel, (fuel >= k)%nat -> forall mm zres, (0 < zres)%Q ->
  exists a, complete_all sp cc fuel t dem f use_accum mm zres = Ok a /\
    complete sp cc fuel t dem f use_accum mm = Ok (ca_volumes a) /\
    let lab := bo_labeled (ca_bluespots a) in let fo := ca_finish a in
    Permutation (map lf_bspot (fo_levels fo)) (zseq 0 (Z.to_nat (bo_nlabels (ca_bluespots a) + 1))) /\
    (forall o, In o (fo_levels fo) -> exists nd e, In (nd, Some e) (co_final (ca_volumes a)) /\ n_id nd = lf_bspot o /\ lf_v o = e_vol e) /\
    same_shape dem (fo_labels fo) /\ same_shape dem (fo_depths fo) /\
    forall c, inside (nrows dem) (ncols dem) c ->
      (at_ lab c = 0 -> at_ (fo_labels fo) c = 0 /\ (-999 <= b64_Q (at_ dem c) -> at_ (fo_depths fo) c == 0)%Q) /\
      (at_ lab c <> 0 -> exists o, In o (fo_levels fo) /\ lf_bspot o = at_ lab c /\
         ((lf_z o < b64_Q (at_ dem c))%Q -> (at_ (fo_depths fo) c == 0)%Q /\ at_ (fo_labels fo) c = 0) /\
         ((b64_Q (at_ dem c) <= lf_z o)%Q -> (at_ (fo_depths fo) c == lf_z o - b64_Q (at_ dem c))%Q /\ at_ (fo_labels fo) c = at_ lab c)).
Proof. exact complete_succeeds. Qed.
Print Assumptions C63_complete_succeeds.

(** 5 m of rain on two bluespots of one cell: both full. *)
Example C63_example : labels_components cc_memo /\ square_cells (gt1 ex_gt) (gt5 ex_gt) = true /\ size_ok false rain_dem /\ dem32 rain_dem /\
  at_run (dry_run 5000%Q) (fun a =>
    Qeq_bool (at_ (fo_depths (ca_finish a)) (1, 1)) 2 && Qeq_bool (at_ (fo_depths (ca_finish a)) (1, 3)) 2 &&
    Qeq_bool (at_ (fo_depths (ca_finish a)) (1, 2)) 0 && (at_ (fo_labels (ca_finish a)) (1, 3) =? 2)) = true.
Proof.
  split; [apply cc_memo_ok|]. split; [vm_compute; reflexivity|]. split; [cbn; lia|]. split; [apply rain_dem_ok|].
  vm_compute. reflexivity.
Qed.

(** ** C64
    For DEMs of whole multiples of 2^-k (0 <= elevation < 2^24 units), where float32 depths are
    exact. *)

Theorem C64_final_depths : forall cc, labels_components cc -> forall t dem f (use_accum : bool) g,
  size_ok false dem -> dem32 dem -> dem_finite dem -> nrows dem * ncols dem <= 2 ^ 53 ->
  square_cells (gt1 t) (gt5 t) = true -> grid_dem g dem -> (0 < Qabs (b64_Q (gt5 t)) * Qabs (b64_Q (gt1 t)))%Q ->
  exists k, forall fuel, (fuel >= k)%nat -> forall mm zres, (0 < zres)%Q ->
  exists a, complete_all false cc fuel t dem f use_accum mm zres = Ok a /\
  forall c, inside (nrows dem) (ncols dem) c ->
    let depth := at_ (fo_depths (ca_finish a)) c in let full := b64_Q (at_ (do_depths (ca_dem a)) c) in
    (0 <= depth <= full)%Q /\
    forall nd e, In (nd, Some e) (co_final (ca_volumes a)) -> at_ (bo_labeled (ca_bluespots a)) c <> 0 ->
      n_id nd = at_ (bo_labeled (ca_bluespots a)) c ->
      (n_cap nd <= e_vol e -> depth == full)%Q /\ (e_vol e <= 0 -> depth == 0)%Q.
Proof. exact final_depths_bounds. Qed.
Print Assumptions C64_final_depths.

(** On other DEMs the bound fails: depths are rounded to float32, and the level of a full
    bluespot is its bottom plus the rounded depth. *)
Theorem C64_rounding_refuted : exists a, dem32 round_dem /\ dem_finite round_dem /\ size_ok false round_dem /\ round_run = Ok a /\
  (b64_Q (at_ (do_depths (ca_dem a)) (1, 2)%Z) == inject_Z (2 ^ 25))%Q /\
  (at_ (fo_depths (ca_finish a)) (1, 2)%Z == inject_Z (2 ^ 25 + 1))%Q.
Proof. exact rounding_overflow. Qed.
Print Assumptions C64_rounding_refuted.

(** Below zero the bins are shifted by one, and the level of a bluespot that is not full can be above its spill
    level: 68 m of water where the full depth is 67 m. *)
Theorem C64_below_zero_refuted : exists a, dem32 low_dem /\ dem_finite low_dem /\ size_ok false low_dem /\ low_run 32000%Q = Ok a /\
  (b64_Q (at_ (do_depths (ca_dem a)) (1, 1)%Z) == 67)%Q /\ (at_ (fo_depths (ca_finish a)) (1, 1)%Z == 68)%Q.
Proof. exact below_zero_bounds. Qed.
Print Assumptions C64_below_zero_refuted.

Example C64_example : grid_dem 0 rain_dem /\ (0 < Qabs (b64_Q (gt5 ex_gt)) * Qabs (b64_Q (gt1 ex_gt)))%Q.
Proof. split; [exact rain_grid|]. vm_compute. reflexivity. Qed.

(** ** C65
    Full statement: more rain, no smaller final depth, for every DEM and both variants of the functions.
    What holds: the pure Python functions, terrain above zero without rounded depths (missing: rounded
    depths, terrain below zero and the compiled functions, the last two refuted below). *)

Theorem C65_more_rain_deeper_partial : forall cc, labels_components cc -> forall t dem f (use_accum : bool) g,
  size_ok false dem -> dem32 dem -> dem_finite dem -> nrows dem * ncols dem <= 2 ^ 53 ->
  square_cells (gt1 t) (gt5 t) = true -> grid_dem g dem -> (0 < Qabs (b64_Q (gt5 t)) * Qabs (b64_Q (gt1 t)))%Q ->
  exists k, forall fuel, (fuel >= k)%nat -> forall mm mm' zres, (0 < zres)%Q -> (mm <= mm')%Q ->
  exists a a', complete_all false cc fuel t dem f use_accum mm zres = Ok a /\
    complete_all false cc fuel t dem f use_accum mm' zres = Ok a' /\
  forall c, inside (nrows dem) (ncols dem) c ->
    (at_ (fo_depths (ca_finish a)) c <= at_ (fo_depths (ca_finish a')) c)%Q /\
    (at_ (fo_labels (ca_finish a)) c <> 0 -> at_ (fo_labels (ca_finish a')) c = at_ (fo_labels (ca_finish a)) c).
Proof. exact more_rain_deeper. Qed.
Print Assumptions C65_more_rain_deeper_partial.

(** With the compiled functions a bluespot need not have one level.  Here a cell ends under 4.48 m of
    water after 1990 mm of rain and under 3 m, its full depth, after 5000 mm. *)
Theorem C65_compiled_refuted : exists a a', shallow_run 1990%Q = Ok a /\ shallow_run 5000%Q = Ok a' /\
  inside 4 4 (1, 2) /\ (b64_Q (at_ (do_depths (ca_dem a)) (1, 2)%Z) == 3)%Q /\
  (at_ (fo_depths (ca_finish a)) (1, 2)%Z == 448 # 100)%Q /\ (at_ (fo_depths (ca_finish a')) (1, 2)%Z == 3)%Q.
Proof. exact more_rain_shallower. Qed.
Print Assumptions C65_compiled_refuted.

(** Terrain below zero, Python functions: 68 m after 32000 mm of rain, 67 m after 33000 mm. *)
Theorem C65_below_zero_refuted : exists a a', dem32 low_dem /\ dem_finite low_dem /\ size_ok false low_dem /\
  low_run 32000%Q = Ok a /\ low_run 33000%Q = Ok a' /\
  (at_ (fo_depths (ca_finish a)) (1, 1)%Z == 68)%Q /\ (at_ (fo_depths (ca_finish a')) (1, 1)%Z == 67)%Q.
Proof. exact below_zero_more_rain. Qed.
Print Assumptions C65_below_zero_refuted.

Example C65_compiled_example : size_ok true shallow_dem /\ dem32 shallow_dem /\ dem_finite shallow_dem /\ grid_dem 0 shallow_dem.
Proof. split; [split; cbn; lia|]. split; [exact (proj1 shallow_dem_ok)|]. split; [exact (proj2 shallow_dem_ok)|exact shallow_grid]. Qed.

Example C65_example : grid_dem 0 rain_dem /\ (100 <= 5000)%Q /\
  at_run (dry_run 100%Q) (fun a => Qeq_bool (at_ (fo_depths (ca_finish a)) (1, 1)) 0) = true /\
  at_run (dry_run 5000%Q) (fun a => Qeq_bool (at_ (fo_depths (ca_finish a)) (1, 1)) 2) = true.
Proof. split; [exact rain_grid|]. split; [discriminate|]. split; vm_compute; reflexivity. Qed.

(** ** C66
    Full statement: the final depths of a bluespot add up to its final volume.  Refuted: 0.8 m3
    in a bluespot of one cell and capacity 8 m3, and a depth of 0 in every cell. *)

Theorem C66_water_lost_refuted : exists a, dry_run 100%Q = Ok a /\
  (exists nd e, In (nd, Some e) (co_final (ca_volumes a)) /\ n_id nd = 1 /\ (e_vol e == 4 # 5)%Q /\ (n_cap nd == 8)%Q) /\
  forall c, inside 3 6 c -> (at_ (fo_depths (ca_finish a)) c == 0)%Q.
Proof. exact water_lost. Qed.
Print Assumptions C66_water_lost_refuted.

(** What holds: never more than the capacity, and the right amount in full and in empty
    bluespots (missing: partly filled ones). *)
Theorem C66_full_and_empty_partial : forall cc, labels_components cc -> forall t dem f (use_accum : bool) g,
  size_ok false dem -> dem32 dem -> dem_finite dem -> nrows dem * ncols dem <= 2 ^ 53 ->
  square_cells (gt1 t) (gt5 t) = true -> grid_dem g dem -> (0 < Qabs (b64_Q (gt5 t)) * Qabs (b64_Q (gt1 t)))%Q ->
  exists k, forall fuel, (fuel >= k)%nat -> forall mm zres, (0 < zres)%Q ->
  exists a, complete_all false cc fuel t dem f use_accum mm zres = Ok a /\
  forall nd e cs, In (nd, Some e) (co_final (ca_volumes a)) -> 1 <= n_id nd <= bo_nlabels (ca_bluespots a) ->
    lists_cells (has_label (bo_labeled (ca_bluespots a)) (n_id nd)) cs ->
    let water := (Qabs (b64_Q (gt5 t)) * Qabs (b64_Q (gt1 t)) * Qsum (map (at_ (fo_depths (ca_finish a))) cs))%Q in
    (0 <= water <= n_cap nd)%Q /\ (n_cap nd <= e_vol e -> water == n_cap nd)%Q /\ (e_vol e <= 0 -> water == 0)%Q.
Proof. exact water_within_capacity. Qed.
Print Assumptions C66_full_and_empty_partial.

Example C66_example : grid_dem 0 rain_dem /\ at_run (dry_run 5000%Q) (fun a => bo_nlabels (ca_bluespots a) =? 2) = true.
Proof. split; [exact rain_grid|]. vm_compute. reflexivity. Qed.

(** ** C67
    Full statement: the final bluespots raster marks the cells under water.  Refuted: without
    any rain the lowest cells of the bluespots are marked. *)

Theorem C67_dry_cells_marked_refuted : exists a, dry_run 0%Q = Ok a /\ at_ (fo_labels (ca_finish a)) (1, 1) = 1 /\
  (at_ (fo_depths (ca_finish a)) (1, 1)%Z == 0)%Q /\ forall nd e, In (nd, Some e) (co_final (ca_volumes a)) -> (e_vol e == 0)%Q.
Proof. exact dry_marked. Qed.
Print Assumptions C67_dry_cells_marked_refuted.

(** What holds: cells under water are marked with their bluespot, marked cells belong to it
    (missing: that marked cells are under water). *)
Theorem C67_wet_cells_marked_partial : forall cc, labels_components cc -> forall sp t dem f (use_accum : bool),
  size_ok sp dem -> dem32 dem -> dem_finite dem -> nrows dem * ncols dem <= 2 ^ 53 ->
  square_cells (gt1 t) (gt5 t) = true ->
  exists k, forall fuel, (fuel >= k)%nat -> forall mm zres, (0 < zres)%Q ->
  exists a, complete_all sp cc fuel t dem f use_accum mm zres = Ok a /\
  forall c, inside (nrows dem) (ncols dem) c ->
    ((0 < at_ (fo_depths (ca_finish a)) c)%Q -> (-999 <= b64_Q (at_ dem c))%Q ->
       at_ (bo_labeled (ca_bluespots a)) c <> 0 /\ at_ (fo_labels (ca_finish a)) c = at_ (bo_labeled (ca_bluespots a)) c) /\
    (at_ (fo_labels (ca_finish a)) c <> 0 -> at_ (fo_labels (ca_finish a)) c = at_ (bo_labeled (ca_bluespots a)) c).
Proof. exact wet_marked. Qed.
Print Assumptions C67_wet_cells_marked_partial.

Example C67_example : square_cells (gt1 ex_gt) (gt5 ex_gt) = true /\
  at_run (dry_run 5000%Q) (fun a => Qltb 0 (at_ (fo_depths (ca_finish a)) (1, 1)) && (at_ (fo_labels (ca_finish a)) (1, 1) =? 1)) = true.
Proof. split; vm_compute; reflexivity. Qed.
