(** * C106: a stricter filter only enlarges the watersheds it keeps *)

From Coq Require Import QArith.
From Verif Require Import Base BaseProofs Num Float64 FillSpec DemModel DemProofs NetworkModel NetworkSpec NetworkThms RainModel PipelineModel LocalSpec CutSpec FlowSpec LabelModel LabelSpec VectorModel BluespotModel BluespotSpec BluespotThms CompSpec CompProofs GrowThms.
Local Open Scope Z_scope.

(** Two runs on the same rasters, the second with a stricter filter. Labels are renumbered, so bluespots are named by a cell d
    of theirs. A bluespot both keep has the same area and volume, and its watershed in the first run is part of its watershed in the second.
    Cells in no watershed stay so. *)
Theorem C106_stricter_filter_enlarges : forall cc, labels_components cc ->
  forall sp sp' fuel fuel' t depths flowdir f f' accum accum' dem dem' out out',
  (forall s, f' s = true -> f s = true) -> 1 <= nrows depths -> 1 <= ncols depths -> same_shape depths flowdir -> fully_draining flowdir ->
  bluespot_process sp cc fuel t depths flowdir (Some f) accum dem = Ok out ->
  bluespot_process sp' cc fuel' t depths flowdir (Some f') accum' dem' = Ok out' ->
  (forall c d, inside (nrows depths) (ncols depths) c -> inside (nrows depths) (ncols depths) d -> at_ (bo_labeled out') d <> 0 ->
     at_ (bo_watersheds out) c = at_ (bo_labeled out) d -> at_ (bo_watersheds out') c = at_ (bo_labeled out') d) /\
  (forall c, inside (nrows depths) (ncols depths) c -> at_ (bo_watersheds out) c = 0 -> at_ (bo_watersheds out') c = 0) /\
  (forall d, inside (nrows depths) (ncols depths) d -> at_ (bo_labeled out') d <> 0 -> exists p p' ws ws',
     nth_error (bo_pourpoints out) (Z.to_nat (at_ (bo_labeled out) d)) = Some p /\
     nth_error (bo_pourpoints out') (Z.to_nat (at_ (bo_labeled out') d)) = Some p' /\
     pp_area p = pp_area p' /\ pp_vol p = pp_vol p' /\
     lists_cells (has_label (bo_watersheds out) (at_ (bo_labeled out) d)) ws /\
     lists_cells (has_label (bo_watersheds out') (at_ (bo_labeled out') d)) ws' /\
     incl ws ws' /\ (length ws <= length ws')%nat /\
     pp_wshed p = f64_mul (f64_ofZ (Z.of_nat (length ws))) (cell_area F64Ops t) /\
     pp_wshed p' = f64_mul (f64_ofZ (Z.of_nat (length ws'))) (cell_area F64Ops t)).
Proof. exact watersheds_grow. Qed.
Print Assumptions C106_stricter_filter_enlarges.

(** A 3x8 terrain with three bluespots in a row; the filter drops the middle one and both others gain half of its watershed. *)
Example C106_example : labels_components cc_memo /\ fully_draining grow_flow /\ same_shape grow_depths grow_flow /\
  (forall s, keep_small s = true -> keep_all s = true) /\ grow_rasters = true /\
  on_ok (grow_is [0;1;0;2;2;0;3;0] [0;1;1;2;2;3;3;0]) (grow_run keep_all) = true /\
  on_ok (grow_is [0;1;0;0;0;0;2;0] [0;1;1;1;2;2;2;0]) (grow_run keep_small) = true.
Proof. exact grow_ok. Qed.

(** Not so: that the watershed of a dropped bluespot passes to another one as a whole. *)
Theorem C106_dropped_whole_refuted : exists cc t depths flowdir f f' dem out out' c d,
  labels_components cc /\ (forall s, f' s = true -> f s = true) /\ same_shape depths flowdir /\ fully_draining flowdir /\
  bluespot_process false cc 40 t depths flowdir (Some f) None (Some dem) = Ok out /\
  bluespot_process false cc 40 t depths flowdir (Some f') None (Some dem) = Ok out' /\
  inside (nrows depths) (ncols depths) c /\ inside (nrows depths) (ncols depths) d /\
  at_ (bo_watersheds out) c = at_ (bo_watersheds out) d /\ at_ (bo_watersheds out) c <> 0 /\
  at_ (bo_watersheds out') c <> at_ (bo_watersheds out') d /\ at_ (bo_watersheds out') c <> 0 /\ at_ (bo_watersheds out') d <> 0.
Proof. exact dropped_refuted. Qed.
Print Assumptions C106_dropped_whole_refuted.

(** Nor that fewer bluespots hold back less water: the water of a dropped bluespot takes another way, here to one that is not full,
    and the background node (C25) takes over its capacity. *)
Theorem C106_runoff_refuted : exists cc t dem f f' mm o o',
  labels_components cc /\ (forall s, f' s = true -> f s = true) /\
  size_ok false dem /\ dem32 dem /\ dem_finite dem /\ square_cells (gt1 t) (gt5 t) = true /\
  complete false cc 40 t dem f true mm = Ok o /\ complete false cc 40 t dem f' true mm = Ok o' /\
  (length (co_final o') < length (co_final o))%nat /\
  (Qsum (map out_spill (filter (fun p => is_root (fst p)) (co_final o'))) < Qsum (map out_spill (filter (fun p => is_root (fst p)) (co_final o))))%Q.
Proof. exact less_runoff. Qed.
Print Assumptions C106_runoff_refuted.
