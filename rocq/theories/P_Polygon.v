(** * C94, C95: polygons

    [polygonized ids ps]: ps meets the contract of gdal.Polygonize on the raster ids. *)

From Coq Require Import Permutation QArith Qabs.
From Verif Require Import Base Num Float64 FillSpec DemModel DemProofs LabelModel LabelSpec CompSpec CompProofs VectorModel BluespotModel BluespotSpec
  BluespotThms RainThms NetModel NetworkModel RainModel PipelineModel
  CompleteModel GridProofs CompleteThms PolygonSpec PolygonThms PolygonFinal PolygonFull.
Local Open Scope Z_scope.

(** ** C94: one polygon per bluespot and per watershed *)

Theorem C94_bluespot_polygons : forall cc, labels_components cc ->
  forall sp fuel t depths flowdir f accum dem out ps, 1 <= nrows depths -> 1 <= ncols depths ->
  bluespot_process sp cc fuel t depths flowdir (Some f) accum dem = Ok out -> polygonized (bo_labeled out) ps ->
  Permutation (map fst ps) (zseq 1 (Z.to_nat (bo_nlabels out))) /\
  forall i cs, In (i, cs) ps -> forall c, In c cs <-> has_label (bo_labeled out) i c.
Proof. exact bluespot_polygons. Qed.
Print Assumptions C94_bluespot_polygons.

Theorem C94_watershed_polygons : forall cc, labels_components cc ->
  forall sp fuel fuel' t1 t5 dem dout t f accum out ps, size_ok sp dem -> dem32 dem -> dem_finite dem ->
  dem_process sp fuel t1 t5 dem = Ok dout ->
  bluespot_process sp cc fuel' t (do_depths dout) (do_flowdir dout) (Some f) accum (Some dem) = Ok out ->
  polygonized (bo_watersheds out) ps ->
  Permutation (map fst ps) (zseq 1 (Z.to_nat (bo_nlabels out))) /\
  forall i cs, In (i, cs) ps -> forall c, In c cs <-> has_label (bo_watersheds out) i c.
Proof. exact watershed_polygons. Qed.
Print Assumptions C94_watershed_polygons.

(** Every raster of ids has such polygons: the components of each id. *)
Theorem C94_polygons_exist : forall cc, labels_components cc -> forall ids, polygonized ids (polygons_of cc ids).
Proof. exact polygons_exist. Qed.
Print Assumptions C94_polygons_exist.

(** The terrain of C24 with two bluespots, and a raster with an id in two places. *)
Example C94_example : labels_components cc_memo /\ size_ok false bs_dem /\ dem32 bs_dem /\ dem_finite bs_dem /\
  on_ok (fun o => (bo_nlabels o =? 2) &&
     (Z.of_nat (length (polygons_of cc_memo (bo_watersheds o))) =? 2) && (Z.of_nat (length (polygons_of cc_memo (bo_labeled o))) =? 2))
    (chain false false (Some (fun _ => true)) bs_dem) = true /\
  map fst (polygons_of cc_memo (of_rows 0 [[1; 0; 1]; [0; 0; 0]; [2; 2; 1]])) = [2; 1; 1; 1].
Proof.
  split; [apply cc_memo_ok|]. split; [cbn; lia|]. split; [apply bs_dem_ok|]. split; [apply bs_dem_ok|].
  split; vm_compute; reflexivity.
Qed.

(** ** C95
    Claim: the final bluespots layer has one polygon per flooded bluespot.  It is wrong: a
    bluespot with two hollows has two while the sill between them is dry. *)

Theorem C95_final_split_refuted : exists a, size_ok false twin_dem /\ dem32 twin_dem /\ dem_finite twin_dem /\ twin_run = Ok a /\
  bo_nlabels (ca_bluespots a) = 1 /\
  forall ps, polygonized (fo_labels (ca_finish a)) ps ->
  exists j k cs cs', j <> k /\ nth_error ps j = Some (1, cs) /\ nth_error ps k = Some (1, cs').
Proof. exact final_split. Qed.
Print Assumptions C95_final_split_refuted.

(** What holds: a final polygon lies in the polygon of its bluespot, and cells under water are
    covered (missing: that there is only one). *)
Theorem C95_final_inside_partial : forall cc, labels_components cc -> forall sp t dem f (use_accum : bool),
  size_ok sp dem -> dem32 dem -> dem_finite dem -> nrows dem * ncols dem <= 2 ^ 53 ->
  square_cells (gt1 t) (gt5 t) = true ->
  exists k, forall fuel, (fuel >= k)%nat -> forall mm zres, (0 < zres)%Q ->
  exists a, complete_all sp cc fuel t dem f use_accum mm zres = Ok a /\
  forall ps qs, polygonized (bo_labeled (ca_bluespots a)) ps -> polygonized (fo_labels (ca_finish a)) qs ->
    (forall i cs, In (i, cs) qs -> exists ds, In (i, ds) ps /\ incl cs ds) /\
    (forall c, inside (nrows dem) (ncols dem) c -> (0 < at_ (fo_depths (ca_finish a)) c)%Q -> (-999 <= b64_Q (at_ dem c))%Q ->
       exists cs, In (at_ (bo_labeled (ca_bluespots a)) c, cs) qs /\ In c cs).
Proof. exact final_inside. Qed.
Print Assumptions C95_final_inside_partial.

Example C95_example : square_cells (gt1 ex_gt) (gt5 ex_gt) = true /\ size_ok false twin_dem /\ dem32 twin_dem /\ dem_finite twin_dem /\
  at_run twin_run (fun a => (Z.of_nat (length (polygons_of cc_memo (fo_labels (ca_finish a)))) =? 2) && Qltb 0 (at_ (fo_depths (ca_finish a)) (1, 1))) = true.
Proof. split; [vm_compute; reflexivity|]. split; [cbn; lia|]. split; [apply twin_ok|]. split; [apply twin_ok|]. vm_compute. reflexivity. Qed.

(** A full bluespot has one final polygon, and it covers the bluespot (for the DEMs of C64). *)
Theorem C95_final_full_partial : forall cc, labels_components cc -> forall t dem f (use_accum : bool) g,
  size_ok false dem -> dem32 dem -> dem_finite dem -> nrows dem * ncols dem <= 2 ^ 53 ->
  square_cells (gt1 t) (gt5 t) = true -> grid_dem g dem -> (0 < Qabs (b64_Q (gt5 t)) * Qabs (b64_Q (gt1 t)))%Q ->
  exists k, forall fuel, (fuel >= k)%nat -> forall mm zres, (0 < zres)%Q ->
  exists a, complete_all false cc fuel t dem f use_accum mm zres = Ok a /\
  forall nd e qs, In (nd, Some e) (co_final (ca_volumes a)) -> 1 <= n_id nd <= bo_nlabels (ca_bluespots a) -> (n_cap nd <= e_vol e)%Q ->
    polygonized (fo_labels (ca_finish a)) qs ->
    exists j cs, nth_error qs j = Some (n_id nd, cs) /\ (forall c, In c cs <-> has_label (bo_labeled (ca_bluespots a)) (n_id nd) c) /\
      forall k ds, nth_error qs k = Some (n_id nd, ds) -> k = j.
Proof. exact final_full. Qed.
Print Assumptions C95_final_full_partial.

Example C95_full_example : grid_dem 0 rain_dem /\
  at_run (dry_run 5000%Q) (fun a => (bo_nlabels (ca_bluespots a) =? 2) &&
    (2 <=? Z.of_nat (length (filter (fun p => match snd p with Some e => (1 <=? n_id (fst p)) && Qle_bool (n_cap (fst p)) (e_vol e) | None => false end)
      (co_final (ca_volumes a))))) &&
    (Z.of_nat (length (polygons_of cc_memo (fo_labels (ca_finish a)))) =? 2)) = true.
Proof. split; [exact rain_grid|]. vm_compute. reflexivity. Qed.
