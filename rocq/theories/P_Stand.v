(** * C112: water standing in the terrain

    d is the bare terrain, e the same with water standing in its hollows, nowhere above the filled surface. *)

From Flocq Require Import IEEE754.BinarySingleNaN.
From Verif Require Import Base Num Float64 FillModel FillSpec FillThms DemModel LevelProofs DemProofs StandThms.
Local Open Scope Z_scope.

(** Filling e takes as long as filling d and gives the same surface, with and without speedups. *)
Theorem C112_fill : forall (sp : bool) d e, (if sp then 4 <= nrows d /\ 4 <= ncols d else 2 <= nrows d /\ 2 <= ncols d) -> same_shape d e -> dem32 d -> dem32 e ->
  forall fuel f, (if sp then fill64_cy else fill64) fuel d = Ok f ->
  (forall c, inside (nrows d) (ncols d) c -> le64 (at_ d c) (at_ e c) /\ le64 (at_ e c) (at_ f c)) ->
  exists g, (if sp then fill64_cy else fill64) fuel e = Ok g /\ forall c, inside (nrows d) (ncols d) c -> eq64 (at_ g c) (at_ f c).
Proof. exact fill_standing. Qed.
Print Assumptions C112_fill.

(** The same for filling without flats, with the same increments. *)
Theorem C112_no_flats : forall (sp : bool) d e short diag, (if sp then 4 <= nrows d /\ 4 <= ncols d else 2 <= nrows d /\ 2 <= ncols d) -> same_shape d e -> dem64 d -> dem64 e ->
  nonneg64 short -> nonneg64 diag ->
  forall fuel f, (if sp then fill_nf64_cy else fill_nf64) short diag fuel d = Ok f ->
  (forall c, inside (nrows d) (ncols d) c -> le64 (at_ d c) (at_ e c) /\ le64 (at_ e c) (at_ f c)) ->
  exists g, (if sp then fill_nf64_cy else fill_nf64) short diag fuel e = Ok g /\ forall c, inside (nrows d) (ncols d) c -> eq64 (at_ g c) (at_ f c).
Proof. exact no_flats_standing. Qed.
Print Assumptions C112_no_flats.

(** The DEM tool: the same surface, no larger depths, and water exactly where e is below the surface; so none at all if e is the filled terrain. *)
Theorem C112_depths : forall (sp : bool) d e, size_ok sp d -> same_shape d e -> dem32 d -> dem32 e -> dem_finite d -> dem_finite e ->
  forall fuel fuel' t1 t5 t1' t5' out out', dem_process sp fuel t1 t5 d = Ok out -> dem_process sp fuel' t1' t5' e = Ok out' ->
  (forall c, inside (nrows d) (ncols d) c -> le64 (at_ d c) (at_ e c) /\ le64 (at_ e c) (at_ (do_filled out) c)) ->
  forall c, inside (nrows d) (ncols d) c ->
  eq64 (at_ (do_filled out') c) (at_ (do_filled out) c) /\
  le64 (at_ (do_depths out') c) (at_ (do_depths out) c) /\
  (lt64 f64_zero (at_ (do_depths out') c) <-> lt64 (at_ e c) (at_ (do_filled out) c)).
Proof. exact depths_standing. Qed.
Print Assumptions C112_depths.

(** A hollow, bare and with 2 of water in it. *)
Example C112_example : (dem32 bare /\ dem_finite bare) /\ (dem32 wetter /\ dem_finite wetter) /\ same_shape bare wetter /\
  (forall c, inside (nrows bare) (ncols bare) c -> le64 (at_ bare c) (at_ wetter c)) /\
  (forall sp, fills sp bare [[9;9;9;9];[9;6;6;9];[9;9;6;6];[9;9;9;9]] = true /\ fills sp wetter [[9;9;9;9];[9;6;6;9];[9;9;6;6];[9;9;9;9]] = true).
Proof. exact bare_wetter. Qed.
