(** * C01-C09: filling

    [fill64] / [fill64_cy]: fill_terrain with the Python / the compiled sweeps.
    [fill_nf64] / [fill_nf64_cy]: fill_terrain_no_flats likewise. *)

From Flocq Require Import IEEE754.BinarySingleNaN.
From Verif Require Import Base Num Float64 FillModel FillSpec FillThms GridProofs.

(** ** C01 *)

(** Filling terminates: one result, reached with any sufficient fuel. *)
Theorem C01_fill_terminates : forall dtm : raster b64,
  2 <= nrows dtm -> 2 <= ncols dtm -> dem32 dtm ->
  exists f k, forall fuel, (fuel >= k)%nat -> fill64 fuel dtm = Ok f.
Proof. exact fill64_total. Qed.
Print Assumptions C01_fill_terminates.

(** Whatever it returns has the shape of the DEM, is nowhere below it and equals it on the edge. *)
Theorem C01_fill_never_lowers : forall dtm : raster b64,
  2 <= nrows dtm -> 2 <= ncols dtm -> dem32 dtm ->
  forall fuel f, fill64 fuel dtm = Ok f ->
  nrows f = nrows dtm /\ ncols f = ncols dtm /\ dem32 f /\
  (forall c, inside (nrows dtm) (ncols dtm) c -> le64 (at_ dtm c) (at_ f c)) /\
  (forall c, on_edge (nrows dtm) (ncols dtm) c -> at_ f c = at_ dtm c).
Proof. exact fill64_basic. Qed.
Print Assumptions C01_fill_never_lowers.

Example C01_example : 2 <= nrows ex_dem /\ 2 <= ncols ex_dem /\ dem32 ex_dem /\
  value_is (fill64 20 ex_dem) (2, 2) 2 = true /\ value_is (fill64 20 ex_dem) (3, 2) 2 = true.
Proof.
  split; [vm_compute; discriminate|]. split; [vm_compute; discriminate|].
  split; [apply ex_dem_ok|]. vm_compute. auto.
Qed.

(** ** C02 *)

(** The filled level at c is at most L exactly when water at level L escapes from c. *)
Theorem C02_fill_is_escape_level : forall dtm : raster b64,
  2 <= nrows dtm -> 2 <= ncols dtm -> dem32 dtm ->
  forall fuel f, fill64 fuel dtm = Ok f ->
  forall c L, inside (nrows dtm) (ncols dtm) c -> not_nan L ->
  (le64 (at_ f c) L <-> escapes le64 (nrows dtm) (ncols dtm) (at_ dtm) L c).
Proof. exact FillProofs.fill64_level. Qed.
Print Assumptions C02_fill_is_escape_level.

(** The least depressionless surface not below the DEM. *)
Theorem C02_fill_is_least : forall dtm : raster b64,
  2 <= nrows dtm -> 2 <= ncols dtm -> dem32 dtm ->
  forall fuel f, fill64 fuel dtm = Ok f ->
  forall g : cell -> b64,
  (forall c, inside (nrows dtm) (ncols dtm) c -> not_nan (g c) /\ le64 (at_ dtm c) (g c)) ->
  (forall c, inside (nrows dtm) (ncols dtm) c -> drains le64 (nrows dtm) (ncols dtm) g c) ->
  forall c, inside (nrows dtm) (ncols dtm) c -> le64 (at_ f c) (g c).
Proof. exact fill64_least. Qed.
Print Assumptions C02_fill_is_least.

(** Every filled level is the elevation of some cell: no new numbers. *)
Theorem C02_fill_is_elevation : forall dtm : raster b64,
  2 <= nrows dtm -> 2 <= ncols dtm -> dem32 dtm ->
  forall fuel f, fill64 fuel dtm = Ok f -> forall c, inside (nrows dtm) (ncols dtm) c ->
  exists d, inside (nrows dtm) (ncols dtm) d /\ eq64 (at_ f c) (at_ dtm d).
Proof. exact GridProofs.filled_is_elevation. Qed.
Print Assumptions C02_fill_is_elevation.

Example C02_example : inside (nrows ex_dem) (ncols ex_dem) (3, 2) /\
  escapes le64 (nrows ex_dem) (ncols ex_dem) (at_ ex_dem) (f64_ofZ 2) (3, 2).
Proof.
  split; [unfold inside; cbn; lia|].
  apply esc_step with (4, 2); [unfold inside; cbn; lia | vm_compute; reflexivity | | ].
  - unfold adjacent. cbn. split; [discriminate | lia].
  - apply esc_edge; [unfold on_edge, inside; cbn; lia | vm_compute; reflexivity].
Qed.

(** ** C03 *)

Theorem C03_fill_depressionless : forall dtm : raster b64,
  2 <= nrows dtm -> 2 <= ncols dtm -> dem32 dtm ->
  forall fuel f, fill64 fuel dtm = Ok f ->
  forall c, inside (nrows dtm) (ncols dtm) c -> drains le64 (nrows dtm) (ncols dtm) (at_ f) c.
Proof. exact FillProofs.fill64_drains. Qed.
Print Assumptions C03_fill_depressionless.

Example C03_example : exists f, fill64 20 ex_dem = Ok f.
Proof. apply is_ok_ex. vm_compute. reflexivity. Qed.

(** ** C04 *)

Theorem C04_fill_idempotent : forall dtm : raster b64,
  2 <= nrows dtm -> 2 <= ncols dtm -> dem32 dtm ->
  forall fuel f fuel' g, fill64 fuel dtm = Ok f -> fill64 fuel' f = Ok g ->
  forall c, inside (nrows dtm) (ncols dtm) c -> eq64 (at_ g c) (at_ f c).
Proof. exact fill64_idem. Qed.
Print Assumptions C04_fill_idempotent.

Theorem C04_fill_monotone : forall dtm dtm' : raster b64,
  2 <= nrows dtm -> 2 <= ncols dtm -> dem32 dtm -> dem32 dtm' -> same_shape dtm dtm' ->
  (forall c, inside (nrows dtm) (ncols dtm) c -> le64 (at_ dtm c) (at_ dtm' c)) ->
  forall fuel f fuel' g, fill64 fuel dtm = Ok f -> fill64 fuel' dtm' = Ok g ->
  forall c, inside (nrows dtm) (ncols dtm) c -> le64 (at_ f c) (at_ g c).
Proof. exact fill64_mono. Qed.
Print Assumptions C04_fill_monotone.

Example C04_example : dem32 ex_dem /\ dem32 ex_dem' /\ same_shape ex_dem ex_dem' /\
  (forall c, inside (nrows ex_dem) (ncols ex_dem) c -> le64 (at_ ex_dem c) (at_ ex_dem' c)) /\
  (exists f, fill64 20 ex_dem = Ok f) /\ (exists g, fill64 20 ex_dem' = Ok g).
Proof.
  split; [apply ex_dem_ok|]. split; [apply ex_dem'_ok|]. split; [split; reflexivity|].
  split; [apply leb_cells_ok; vm_compute; reflexivity|].
  split; apply is_ok_ex; vm_compute; reflexivity.
Qed.

(** ** C05: false for float64 DEMs *)

(** A finite float64 DEM on which fill_terrain never returns. *)
Theorem C05_float64_refuted : exists dtm : raster b64,
  nrows dtm = 3 /\ ncols dtm = 3 /\ dem_finite dtm /\ forall fuel, fill64 fuel dtm = Timeout.
Proof. exact c05_refuted. Qed.
Print Assumptions C05_float64_refuted.

(** What holds: float32 representable elevations (missing: all other float64 elevations). *)
Theorem C05_float32_partial : forall dtm : raster b64,
  2 <= nrows dtm -> 2 <= ncols dtm -> dem32 dtm ->
  exists f k, forall fuel, (fuel >= k)%nat -> fill64 fuel dtm = Ok f.
Proof. exact fill64_total. Qed.
Print Assumptions C05_float32_partial.

(** ** C06: the compiled sweeps give other results *)

Theorem C06_speedups_differ_refuted : exists dtm f g c,
  nrows dtm = 4 /\ ncols dtm = 4 /\ dem32 dtm /\ dem_finite dtm /\
  (exists k, forall fuel, (fuel >= k)%nat -> fill64 fuel dtm = Ok f) /\
  (exists k, forall fuel, (fuel >= k)%nat -> fill64_cy fuel dtm = Ok g) /\
  inside 4 4 c /\ eq64 (at_ f c) (f64_ofZ 0) /\ eq64 (at_ g c) (f64_ofZ 100).
Proof. exact c06_refuted. Qed.
Print Assumptions C06_speedups_differ_refuted.

Theorem C06_no_flats_differ_refuted : exists dtm short diag c,
  nrows dtm = 4 /\ ncols dtm = 4 /\ dem32 dtm /\ dem_finite dtm /\
  minimum_safe_short_and_diag dtm = Ok (short, diag) /\ inside 4 4 c /\
  exists f g, fill_nf64 short diag 20 dtm = Ok f /\ fill_nf64_cy short diag 20 dtm = Ok g /\
  lt64 (at_ f c) (f64_ofZ 1) /\ le64 (f64_ofZ 100) (at_ g c).
Proof. exact c06_nf_refuted. Qed.
Print Assumptions C06_no_flats_differ_refuted.

(** On three-row rasters the compiled variant raises, whatever the elevations. *)
Theorem C06_compiled_three_rows_raise : forall (dtm : raster b64) fuel,
  nrows dtm = 3 -> 2 <= ncols dtm \/ ncols dtm = 3 -> (fuel > 0)%nat ->
  fill64_cy fuel dtm = Exc ValueError.
Proof. exact cy_three. Qed.
Print Assumptions C06_compiled_three_rows_raise.

(** ** C07 *)

Theorem C07_compiled_terminates : forall dtm : raster b64,
  4 <= nrows dtm -> 4 <= ncols dtm -> dem32 dtm -> dem_finite dtm ->
  exists g k, forall fuel, (fuel >= k)%nat -> fill64_cy fuel dtm = Ok g.
Proof. exact cy_total. Qed.
Print Assumptions C07_compiled_terminates.

Theorem C07_compiled_safe : forall dtm : raster b64,
  4 <= nrows dtm -> 4 <= ncols dtm -> dem32 dtm -> dem_finite dtm ->
  forall fuel g, fill64_cy fuel dtm = Ok g ->
  nrows g = nrows dtm /\ ncols g = ncols dtm /\ dem32 g /\ dem_finite g /\
  (forall c, inside (nrows dtm) (ncols dtm) c ->
     le64 (at_ dtm c) (at_ g c) /\ drains le64 (nrows dtm) (ncols dtm) (at_ g) c) /\
  (forall c, on_edge (nrows dtm) (ncols dtm) c -> at_ g c = at_ dtm c) /\
  (forall fuel' f, fill64 fuel' dtm = Ok f ->
     forall c, inside (nrows dtm) (ncols dtm) c -> le64 (at_ f c) (at_ g c)).
Proof. exact cy_safe. Qed.
Print Assumptions C07_compiled_safe.

Example C07_example : 4 <= nrows ex_dem /\ 4 <= ncols ex_dem /\ dem32 ex_dem /\ dem_finite ex_dem /\
  value_is (fill64_cy 20 ex_dem) (2, 2) 2 = true.
Proof.
  split; [vm_compute; discriminate|]. split; [vm_compute; discriminate|].
  split; [apply ex_dem_ok|]. split; [apply ex_dem_ok|]. vm_compute. reflexivity.
Qed.

(** ** C08 *)

(** Pure Python: up to 2^50 columns, elevations up to 2^1000 in magnitude. *)
Theorem C08_no_flats_strict : forall dtm : raster b64,
  2 <= nrows dtm -> 2 <= ncols dtm <= 2 ^ 50 -> dem_finite dtm -> dem_max1000 dtm ->
  exists short diag f k, minimum_safe_short_and_diag dtm = Ok (short, diag) /\
  (forall fuel, (fuel >= k)%nat -> fill_nf64 short diag fuel dtm = Ok f) /\
  nrows f = nrows dtm /\ ncols f = ncols dtm /\ dem_finite f /\
  (forall c, inside (nrows dtm) (ncols dtm) c -> le64 (at_ dtm c) (at_ f c)) /\
  (forall c, interior (nrows dtm) (ncols dtm) c -> exists d, adjacent c d /\
     inside (nrows dtm) (ncols dtm) d /\ lt64 (at_ f d) (at_ f c)) /\
  (forall c, inside (nrows dtm) (ncols dtm) c -> drains_strictly (nrows dtm) (ncols dtm) lt64 (at_ f) c).
Proof. exact nf_safe. Qed.
Print Assumptions C08_no_flats_strict.

(** Speedups enabled: the same from 4x4 on. *)
Theorem C08_no_flats_strict_compiled : forall dtm : raster b64,
  4 <= nrows dtm <= 2 ^ 50 -> 4 <= ncols dtm -> dem_finite dtm -> dem_max1000 dtm ->
  exists short diag f k, minimum_safe_short_and_diag dtm = Ok (short, diag) /\
  (forall fuel, (fuel >= k)%nat -> fill_nf64_cy short diag fuel dtm = Ok f) /\
  nrows f = nrows dtm /\ ncols f = ncols dtm /\ dem_finite f /\
  (forall c, inside (nrows dtm) (ncols dtm) c -> le64 (at_ dtm c) (at_ f c)) /\
  (forall c, interior (nrows dtm) (ncols dtm) c -> exists d, adjacent c d /\
     inside (nrows dtm) (ncols dtm) d /\ lt64 (at_ f d) (at_ f c)) /\
  (forall c, inside (nrows dtm) (ncols dtm) c -> drains_strictly (nrows dtm) (ncols dtm) lt64 (at_ f) c).
Proof. exact nf_cy_safe. Qed.
Print Assumptions C08_no_flats_strict_compiled.

(** Every finite float32 DEM meets the magnitude hypothesis. *)
Theorem C08_float32_in_range : forall dtm : raster b64, dem32 dtm -> dem_finite dtm -> dem_max1000 dtm.
Proof. exact dem32_max1000. Qed.
Print Assumptions C08_float32_in_range.

Example C08_example : 4 <= nrows ex_dem <= 2 ^ 50 /\ 4 <= ncols ex_dem <= 2 ^ 50 /\
  dem_finite ex_dem /\ dem_max1000 ex_dem.
Proof.
  split; [vm_compute; split; discriminate|]. split; [vm_compute; split; discriminate|].
  split; [apply ex_dem_ok|]. apply dem32_max1000; apply ex_dem_ok.
Qed.

(** ** C09 *)

Theorem C09_no_flats_terminates : forall (dtm : raster b64) short diag,
  2 <= nrows dtm -> 2 <= ncols dtm -> dem64 dtm -> nonneg64 short -> nonneg64 diag ->
  exists f k, forall fuel, (fuel >= k)%nat -> fill_nf64 short diag fuel dtm = Ok f.
Proof. exact nf_total. Qed.
Print Assumptions C09_no_flats_terminates.

(** The cheapest raised route: attained by a route, and below every route. *)
Theorem C09_no_flats_cheapest : forall (dtm : raster b64) short diag,
  2 <= nrows dtm -> 2 <= ncols dtm -> dem64 dtm -> nonneg64 short -> nonneg64 diag ->
  forall fuel f, fill_nf64 short diag fuel dtm = Ok f ->
  nrows f = nrows dtm /\ ncols f = ncols dtm /\ dem64 f /\
  forall c, inside (nrows dtm) (ncols dtm) c ->
  le64 (at_ dtm c) (at_ f c) /\
  (on_edge (nrows dtm) (ncols dtm) c -> at_ f c = at_ dtm c) /\
  (exists v, route_cost (nrows dtm) (ncols dtm) (pymax F64Ops) (raise_by short diag) (at_ dtm) c v /\ eq64 v (at_ f c)) /\
  (forall v, route_cost (nrows dtm) (ncols dtm) (pymax F64Ops) (raise_by short diag) (at_ dtm) c v -> le64 (at_ f c) v).
Proof. exact nf_cheapest. Qed.
Print Assumptions C09_no_flats_cheapest.

Theorem C09_no_flats_above_fill : forall (dtm : raster b64) short diag,
  2 <= nrows dtm -> 2 <= ncols dtm -> dem32 dtm -> nonneg64 short -> nonneg64 diag ->
  forall fuel f fuel' g, fill64 fuel dtm = Ok f -> fill_nf64 short diag fuel' dtm = Ok g ->
  forall c, inside (nrows dtm) (ncols dtm) c -> le64 (at_ f c) (at_ g c).
Proof. exact nf_above_fill. Qed.
Print Assumptions C09_no_flats_above_fill.

Theorem C09_no_flats_zero_is_fill : forall dtm : raster b64,
  2 <= nrows dtm -> 2 <= ncols dtm -> dem32 dtm ->
  forall fuel f fuel' g, fill64 fuel dtm = Ok f -> fill_nf64 f64_zero f64_zero fuel' dtm = Ok g ->
  forall c, inside (nrows dtm) (ncols dtm) c -> eq64 (at_ f c) (at_ g c).
Proof. exact nf_zero. Qed.
Print Assumptions C09_no_flats_zero_is_fill.

Example C09_example : dem64 ex_dem /\ nonneg64 (f64_ofZ 1) /\
  value_is (fill_nf64 (f64_ofZ 1) (f64_ofZ 1) 20 ex_dem) (2, 2) 4 = true /\
  value_is (fill_nf64 (f64_ofZ 1) (f64_ofZ 1) 20 ex_dem) (3, 2) 3 = true.
Proof.
  split; [intros c Hc; apply ex_dem_ok; auto|].
  split; [split; vm_compute; reflexivity|]. vm_compute. auto.
Qed.
