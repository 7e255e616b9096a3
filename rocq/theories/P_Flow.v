(** * C10-C19, C55: flow directions, accumulated flow, watersheds

    flowdir64 / flowdir64_cy: flow.terrain_flowdirection, pure Python / compiled;
    dem_process: DemTool.process. *)

From Flocq Require Import IEEE754.BinarySingleNaN.
From Verif Require Import Base Num Float64 FillModel FillSpec FillThms FlowModel FlowSpec FlowProofs AccumProofs
  WatershedProofs FlowDirProofs DemModel DemProofs FlowThms.

(** ** C10 *)

Theorem C10_flowdir_total : forall (t : raster b64) edges, 1 <= nrows t -> 1 <= ncols t ->
  exists f, flowdir64 t edges = Ok f.
Proof. exact py_flowdir_total. Qed.
Print Assumptions C10_flowdir_total.

Theorem C10_steepest : forall (t : raster b64) edges f,
  dem_finite t -> 1 <= nrows t -> 1 <= ncols t -> flowdir64 t edges = Ok f ->
  same_shape t f /\ codes_ok f /\
  (forall c, interior (nrows t) (ncols t) c ->
     (at_ f c = 8 /\ forall n, adjacent c n -> le64 (at_ t c) (at_ t n)) \/
     (steepest (fun x => f64_div x f64_sqrt2) t c (at_ f c) /\ downhill f t c)) /\
  (forall c, on_edge (nrows t) (ncols t) c -> if edges then flows_off f c else at_ f c = 8).
Proof. exact py_steepest. Qed.
Print Assumptions C10_steepest.

(** The compiled version: the same with the multiplication by the rounded inverse. *)
Theorem C10_steepest_compiled : forall (t : raster b64) edges f,
  dem_finite t -> 1 <= nrows t -> 1 <= ncols t -> flowdir64_cy t edges = Ok f ->
  same_shape t f /\ codes_ok f /\
  (forall c, interior (nrows t) (ncols t) c ->
     (at_ f c = 8 /\ forall n, adjacent c n -> le64 (at_ t c) (at_ t n)) \/
     (steepest (fun x => f64_mul x f64_inv_sqrt2) t c (at_ f c) /\ downhill f t c)) /\
  (forall c, on_edge (nrows t) (ncols t) c -> if edges then flows_off f c else at_ f c = 8).
Proof. exact cy_steepest. Qed.
Print Assumptions C10_steepest_compiled.

Example C10_example : dem_finite ex_dem /\ 1 <= nrows ex_dem /\ 1 <= ncols ex_dem /\
  exists f, flowdir64 ex_dem true = Ok f /\ at_ f (1, 1) = 3 /\ at_ f (2, 2) = 4 /\ at_ f (3, 2) = 8.
Proof.
  split; [apply ex_dem_ok|]. split; [vm_compute; discriminate|]. split; [vm_compute; discriminate|].
  eexists. split; [vm_compute; reflexivity|]. split; [vm_compute; reflexivity|].
  split; vm_compute; reflexivity.
Qed.

(** ** C11 *)

Theorem C11_edges_flow_off : forall f : raster Z, 1 <= nrows f -> 1 <= ncols f ->
  exists f', set_edges_flow_outward f = Ok f' /\ nrows f' = nrows f /\ ncols f' = ncols f /\
    (forall c, on_edge (nrows f) (ncols f) c -> flows_off f' c) /\
    (forall c, interior (nrows f) (ncols f) c -> at_ f' c = at_ f c).
Proof. exact edges_ok. Qed.
Print Assumptions C11_edges_flow_off.

(** Straight across the edge, and diagonally at the corners. *)
Theorem C11_edges_straight : forall f f' : raster Z, 2 <= nrows f -> 2 <= ncols f ->
  set_edges_flow_outward f = Ok f' -> forall c, on_edge (nrows f) (ncols f) c ->
  offset (at_ f' c) = Some (outward (nrows f) (fst c), outward (ncols f) (snd c)).
Proof. exact edges_outward. Qed.
Print Assumptions C11_edges_straight.

Example C11_example : 1 <= nrows ex_flow /\ 1 <= ncols ex_flow /\ on_edge (nrows ex_flow) (ncols ex_flow) (0, 2).
Proof. vm_compute. repeat split; try discriminate; auto. Qed.

(** ** C12 *)

(** Pure Python (false): 2 rows and columns up to 2^50 columns; compiled (true): from 4x4. *)
Theorem C12_dem_drains : forall (sp : bool) fuel t1 t5 (dem : raster b64) out,
  (if sp then 4 <= nrows dem <= 2 ^ 50 /\ 4 <= ncols dem else 2 <= nrows dem /\ 2 <= ncols dem <= 2 ^ 50) ->
  dem32 dem -> dem_finite dem -> dem_process sp fuel t1 t5 dem = Ok out ->
  fully_draining (do_flowdir out) /\ same_shape dem (do_flowdir out) /\
  (exists short diag nf, minimum_safe_short_and_diag dem = Ok (short, diag) /\
     (if sp then fill_nf64_cy else fill_nf64) short diag fuel dem = Ok nf /\
     forall c d, flows (do_flowdir out) c d -> lt64 (at_ nf d) (at_ nf c)) /\
  (forall c, inside (nrows dem) (ncols dem) c ->
   exists path, NoDup path /\ (forall d, In d path <-> passes (do_flowdir out) c d) /\
     (forall d, In d path -> at_ (do_flowdir out) d <> 8) /\
     forall fuel, (length path <= fuel)%nat -> trace_downstream fuel (do_flowdir out) c = Ok path).
Proof. exact dem_drains. Qed.
Print Assumptions C12_dem_drains.

Theorem C12_dem_terminates : forall (sp : bool) t1 t5 (dem : raster b64), square_cells t1 t5 = true ->
  (if sp then 4 <= nrows dem <= 2 ^ 50 /\ 4 <= ncols dem else 2 <= nrows dem /\ 2 <= ncols dem <= 2 ^ 50) ->
  dem32 dem -> dem_finite dem ->
  exists k, forall fuel, (fuel >= k)%nat -> exists out, dem_process sp fuel t1 t5 dem = Ok out.
Proof. exact dem_terminates. Qed.
Print Assumptions C12_dem_terminates.

Example C12_example : dem32 ex_dem /\ dem_finite ex_dem /\ square_cells (f64_ofZ 2) (f64_ofZ (-2)) = true /\
  exists out, dem_process false 30 (f64_ofZ 2) (f64_ofZ (-2)) ex_dem = Ok out.
Proof.
  split; [apply ex_dem_ok|]. split; [apply ex_dem_ok|]. split; [vm_compute; reflexivity|].
  apply is_ok_ex. vm_compute. reflexivity.
Qed.

(** ** C13 *)

Theorem C13_upstream_is_converse : forall (f : raster Z) c, exists l, upstream_cells f c = Ok l /\ NoDup l /\
  forall u, In u l <-> inside (nrows f) (ncols f) u /\ target f u = Some c.
Proof. exact upstream_exact. Qed.
Print Assumptions C13_upstream_is_converse.

Example C13_example : upstream_cells ex_flow (1, 2) = Ok [(2, 2)] /\ upstream_cells ex_flow (2, 2) = Ok [(2, 1)].
Proof. split; vm_compute; reflexivity. Qed.

(** ** C14 *)

Theorem C14_accum_terminates : forall f : raster Z, fully_draining f ->
  forall fuel, (Z.to_nat (nrows f * ncols f) <= fuel)%nat -> exists a, accumulated_flow fuel f = Ok a.
Proof. exact accum_terminates. Qed.
Print Assumptions C14_accum_terminates.

Theorem C14_accum_counts_upstream : forall (f : raster Z) fuel a, fully_draining f ->
  accumulated_flow fuel f = Ok a ->
  same_shape f a /\
  forall c, inside (nrows f) (ncols f) c -> counts (fun d => passes f d c) (at_ a c).
Proof. exact accum_counts. Qed.
Print Assumptions C14_accum_counts_upstream.

(** Over the cells that flow off the raster the values add up to the number of cells. *)
Theorem C14_accum_total : forall (f : raster Z) fuel a, fully_draining f -> accumulated_flow fuel f = Ok a ->
  forall offs, NoDup offs -> (forall c, In c offs <-> flows_off f c) ->
  zsum (map (at_ a) offs) = Z.max 0 (nrows f) * Z.max 0 (ncols f).
Proof. exact accum_total_cells. Qed.
Print Assumptions C14_accum_total.

Example C14_example : fully_draining ex_flow /\
  exists a, accumulated_flow 16 ex_flow = Ok a /\ at_ a (1, 0) = 5 /\ at_ a (2, 2) = 2.
Proof.
  split; [apply ex_flow_ok|]. eexists. split; [vm_compute; reflexivity|]. split; vm_compute; reflexivity.
Qed.

(** ** C15 *)

Theorem C15_accum_increases : forall (f : raster Z) fuel a c d, fully_draining f ->
  accumulated_flow fuel f = Ok a -> flows f c d -> at_ a c < at_ a d.
Proof. exact accum_increases. Qed.
Print Assumptions C15_accum_increases.

Example C15_example : fully_draining ex_flow /\ flows ex_flow (2, 1) (2, 2).
Proof. split; [apply ex_flow_ok|]. vm_compute. repeat split; try discriminate; auto. Qed.

(** ** C16 *)

Theorem C16_accum_compiled_terminates : forall f : raster Z, fully_draining f ->
  forall fuel, (Z.to_nat (nrows f * ncols f) <= fuel)%nat -> exists a, accumulated_flow_cy fuel f = Ok a.
Proof. exact accum_cy_terminates. Qed.
Print Assumptions C16_accum_compiled_terminates.

Theorem C16_accum_compiled_agrees : forall (f : raster Z) fuel fuel' a a', fully_draining f ->
  accumulated_flow fuel f = Ok a -> accumulated_flow_cy fuel' f = Ok a' ->
  forall c, inside (nrows f) (ncols f) c -> at_ a c = at_ a' c.
Proof. exact accum_cy_agrees. Qed.
Print Assumptions C16_accum_compiled_agrees.

Theorem C16_accum_compiled_counts : forall (f : raster Z) fuel a, fully_draining f ->
  accumulated_flow_cy fuel f = Ok a ->
  same_shape f a /\
  forall c, inside (nrows f) (ncols f) c -> counts (fun d => passes f d c) (at_ a c).
Proof. exact accum_cy_counts. Qed.
Print Assumptions C16_accum_compiled_counts.

Example C16_example : fully_draining ex_flow /\
  exists a, accumulated_flow_cy 16 ex_flow = Ok a /\ at_ a (1, 0) = 5.
Proof.
  split; [apply ex_flow_ok|]. eexists. split; [vm_compute; reflexivity|]. vm_compute; reflexivity.
Qed.

(** ** C17: false *)

Theorem C17_nodir_raises_refuted : exists f : raster Z, codes_ok f /\
  forall fuel, (fuel > 0)%nat -> accumulated_flow fuel f = Exc TypeError.
Proof. exact c17_refuted. Qed.
Print Assumptions C17_nodir_raises_refuted.

(** Not a corner case: one cell without direction anywhere and no raster is returned. *)
Theorem C17_nodir_never_returns : forall (f : raster Z) x, codes_ok f ->
  inside (nrows f) (ncols f) x -> at_ f x = 8 -> forall fuel a, accumulated_flow fuel f <> Ok a.
Proof. exact accum_nodir_fails. Qed.
Print Assumptions C17_nodir_never_returns.

(** ** C18 *)

Theorem C18_watersheds_terminate : forall (f lab : raster Z) un, fully_draining f -> same_shape f lab ->
  1 <= nrows f -> 1 <= ncols f ->
  forall fuel, (Z.to_nat (nrows f * ncols f) <= fuel)%nat ->
  exists w, watersheds_from_labels fuel f lab un = Ok w.
Proof. exact watersheds_terminate. Qed.
Print Assumptions C18_watersheds_terminate.

Theorem C18_watersheds_first_label : forall (f lab : raster Z) un fuel w,
  fully_draining f -> same_shape f lab -> 1 <= nrows f -> 1 <= ncols f ->
  watersheds_from_labels fuel f lab un = Ok w ->
  same_shape f w /\
  (forall c, inside (nrows f) (ncols f) c -> at_ lab c <> un -> at_ w c = at_ lab c) /\
  (forall c, inside (nrows f) (ncols f) c -> first_label f lab un c (at_ w c)).
Proof. exact watersheds_first_label. Qed.
Print Assumptions C18_watersheds_first_label.

(** The first label downstream is unique, so the result is determined. *)
Theorem C18_first_label_unique : forall (f lab : raster Z) un c l, first_label f lab un c l ->
  forall l', first_label f lab un c l' -> l = l'.
Proof. exact first_label_unique. Qed.
Print Assumptions C18_first_label_unique.

Theorem C18_watersheds_compiled_same : forall (f lab : raster Z) un fuel,
  fully_draining f -> same_shape f lab -> 1 <= nrows f -> 1 <= ncols f ->
  watersheds_from_labels_cy fuel f lab un = watersheds_from_labels fuel f lab un.
Proof. exact watersheds_cy_same. Qed.
Print Assumptions C18_watersheds_compiled_same.

Example C18_example : fully_draining ex_flow /\ same_shape ex_flow ex_labels /\
  exists w, watersheds_from_labels 16 ex_flow ex_labels 0 = Ok w /\
    at_ w (2, 1) = 5 /\ at_ w (1, 0) = 0 /\ at_ w (3, 1) = 0.
Proof.
  split; [apply ex_flow_ok|]. split; [split; reflexivity|].
  eexists. split; [vm_compute; reflexivity|]. split; [vm_compute; reflexivity|]. split; vm_compute; reflexivity.
Qed.

(** ** C19 *)

Theorem C19_edge_cells : forall rows cols c, 1 <= rows -> 1 <= cols ->
  (In c (edge_cell_indexes rows cols) <-> on_edge rows cols c).
Proof. exact edge_cells_spec. Qed.
Print Assumptions C19_edge_cells.

Theorem C19_edge_cells_once : forall rows cols, 2 <= rows -> 2 <= cols ->
  NoDup (edge_cell_indexes rows cols).
Proof. exact edge_cells_nodup. Qed.
Print Assumptions C19_edge_cells_once.

Example C19_example : on_edge 3 4 (2, 1) /\ length (edge_cell_indexes 3 4) = 10%nat.
Proof. vm_compute. repeat split; try discriminate; auto. Qed.

(** ** C55: false *)

(** A finite terrain whose centre cell flows up-right in Python, up in the compiled version. *)
Theorem C55_compiled_directions_refuted : exists t f g : _,
  nrows t = 3 /\ ncols t = 3 /\ dem_finite t /\
  flowdir64 t true = Ok f /\ flowdir64_cy t true = Ok g /\ at_ f (1, 1) = 1 /\ at_ g (1, 1) = 0.
Proof. exact flowdir_cy_differs. Qed.
Print Assumptions C55_compiled_directions_refuted.
