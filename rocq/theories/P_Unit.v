(** * C103: the size of the cells only scales the results *)

From Coq Require Import QArith Qabs Lia List Bool.
From Verif Require Import Base Num Float64 DemModel LabelModel CompSpec CompProofs VectorModel BluespotModel BluespotThms NetworkModel RainModel RainThms
  PipelineModel ApproxModel CompleteModel CompleteThms UnitSpec UnitThms.
Import ListNotations.
Local Open Scope Z_scope.

(** The same terrain with cells of r times the area: the complete command finds the same flow,
    bluespots, watersheds and network, r times the volumes, the same percentages and the same
    water levels and depths. *)
Theorem C103_cell_size : forall cc sp fuel (t t' : geotransform b64) dem f f' (use_accum : bool) mm zres r a,
  (0 < r)%Q -> times r (area_of t) (area_of t') -> square_cells (gt1 t') (gt5 t') = true ->
  (forall mn mx sm n, f' (mkUnit mn mx sm n (f64_mul sm (cell_area F64Ops t')) (f64_mul (f64_ofZ n) (cell_area F64Ops t'))) =
                      f (mkUnit mn mx sm n (f64_mul sm (cell_area F64Ops t)) (f64_mul (f64_ofZ n) (cell_area F64Ops t)))) ->
  complete_all sp cc fuel t dem f use_accum mm zres = Ok a ->
  exists a', complete_all sp cc fuel t' dem f' use_accum mm zres = Ok a' /\
  ca_dem a' = ca_dem a /\
  bo_labeled (ca_bluespots a') = bo_labeled (ca_bluespots a) /\ bo_nlabels (ca_bluespots a') = bo_nlabels (ca_bluespots a) /\
  bo_watersheds (ca_bluespots a') = bo_watersheds (ca_bluespots a) /\
  Forall2 (pp_times r) (ca_pourpoints a) (ca_pourpoints a') /\
  Forall2 (node_times r) (co_nodes (ca_volumes a)) (co_nodes (ca_volumes a')) /\
  Forall2 (final_times r) (co_final (ca_volumes a)) (co_final (ca_volumes a')) /\
  Forall2 (level_times r) (fo_levels (ca_finish a)) (fo_levels (ca_finish a')) /\
  equal_raster (fo_depths (ca_finish a)) (fo_depths (ca_finish a')) /\
  nrows (fo_labels (ca_finish a')) = nrows (fo_labels (ca_finish a)) /\ ncols (fo_labels (ca_finish a')) = ncols (fo_labels (ca_finish a)) /\
  (forall c, inside (nrows (fo_labels (ca_finish a))) (ncols (fo_labels (ca_finish a))) c ->
     at_ (fo_labels (ca_finish a')) c = at_ (fo_labels (ca_finish a)) c).
Proof. exact complete_times. Qed.
Print Assumptions C103_cell_size.

(** Cells of 2 m and of 6 m on the terrain of C39: nine times the water. *)
Example C103_example :
  let t' := mkGT (f64_ofZ 7) (f64_ofZ 6) f64_zero (f64_ofZ 5) f64_zero (f64_ofZ (-6)) in
  times 9 (area_of ex_gt) (area_of t') /\ square_cells (gt1 t') (gt5 t') = true /\
  at_run (complete_all false cc_memo 20 ex_gt rain_dem all_pass true 500%Q 1%Q) (fun a =>
    at_run (complete_all false cc_memo 20 t' rain_dem all_pass true 500%Q 1%Q) (fun a' =>
      let tot x := fold_right (fun p s => match snd p with Some e => (e_vol e + s)%Q | None => s end) 0%Q (co_final (ca_volumes x)) in
      Z.ltb 0 (bo_nlabels (ca_bluespots a)) && Qltb 0 (tot a) && Qeq_bool (tot a') (9 * tot a))) = true.
Proof. cbv zeta. split; [vm_compute; reflexivity|]. split; [vm_compute; reflexivity|]. vm_compute. reflexivity. Qed.

(** A filter on the area must be scaled with it: more than 5 m2 keeps fewer bluespots of 2 m cells
    than of 6 m cells. *)
Theorem C103_fixed_filter_refuted : exists cc sp fuel (t t' : geotransform b64) dem f (use_accum : bool) mm zres r a a',
  (0 < r)%Q /\ times r (area_of t) (area_of t') /\ square_cells (gt1 t') (gt5 t') = true /\ labels_components cc /\
  complete_all sp cc fuel t dem f use_accum mm zres = Ok a /\ complete_all sp cc fuel t' dem f use_accum mm zres = Ok a' /\
  bo_nlabels (ca_bluespots a') <> bo_nlabels (ca_bluespots a).
Proof. exact fixed_filter. Qed.
Print Assumptions C103_fixed_filter_refuted.
