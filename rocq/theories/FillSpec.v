(** * Specifications for filling

    Independent of the model: geometry of the raster, routes, water levels. *)

From Flocq Require Import IEEE754.BinarySingleNaN.
From Verif Require Import Base Num Float64.

(** The 8-neighbourhood. *)
Definition adjacent (a b : cell) : Prop :=
  a <> b /\ Z.abs (fst a - fst b) <= 1 /\ Z.abs (snd a - snd b) <= 1.

(** Neighbours sharing a corner only. *)
Definition diagonal (a b : cell) : Prop :=
  fst a <> fst b /\ snd a <> snd b.

Definition diagonalb (c d : cell) : bool :=
  negb (fst c =? fst d) && negb (snd c =? snd d).

(** On the edge of the raster. *)
Definition on_edge (rows cols : Z) (c : cell) : Prop :=
  inside rows cols c /\
  (fst c = 0 \/ snd c = 0 \/ fst c = rows - 1 \/ snd c = cols - 1).

Definition interior (rows cols : Z) (c : cell) : Prop :=
  1 <= fst c <= rows - 2 /\ 1 <= snd c <= cols - 2.

Section Routes.

Context {T : Type}.
Variable le : T -> T -> Prop.      (* the order of elevations *)
Variables rows cols : Z.

(** [escapes dem L c]: water standing at level L at cell c can run off the
    raster: there is an 8-connected route from c to an edge cell along which the
    terrain nowhere exceeds L. *)
Inductive escapes (dem : cell -> T) (L : T) : cell -> Prop :=
| esc_edge : forall c, on_edge rows cols c -> le (dem c) L -> escapes dem L c
| esc_step : forall c d, inside rows cols c -> le (dem c) L ->
    adjacent c d -> escapes dem L d -> escapes dem L c.

(** [drains f c]: a path from c to an edge cell that never goes uphill in f. *)
Inductive drains (f : cell -> T) : cell -> Prop :=
| dr_edge : forall c, on_edge rows cols c -> drains f c
| dr_step : forall c d, inside rows cols c -> adjacent c d ->
    le (f d) (f c) -> drains f d -> drains f c.

(** [drains_strictly f c]: a strictly downslope path from c to an edge cell. *)
Inductive drains_strictly (lt : T -> T -> Prop) (f : cell -> T) : cell -> Prop :=
| drs_edge : forall c, on_edge rows cols c -> drains_strictly lt f c
| drs_step : forall c d, inside rows cols c -> adjacent c d ->
    lt (f d) (f c) -> drains_strictly lt f d -> drains_strictly lt f c.

(** [route_cost dem climb c v]: v is the cost of some 8-connected route from c to
    an edge cell.  At the edge the cost is the terrain; one step further inwards
    the water must stand [climb c d] above the cost at d, and not below the
    terrain. *)
Variable max : T -> T -> T.
Variable climb : cell -> cell -> T -> T.
Inductive route_cost (dem : cell -> T) : cell -> T -> Prop :=
| rc_edge : forall c, on_edge rows cols c -> route_cost dem c (dem c)
| rc_step : forall c d v, interior rows cols c -> adjacent c d ->
    route_cost dem d v -> route_cost dem c (max (climb c d v) (dem c)).

End Routes.

(** ** Elevation models *)

(** A float32 DEM without NaN. *)
Definition dem32 (dtm : raster b64) : Prop :=
  forall c, inside (nrows dtm) (ncols dtm) c -> not_nan (at_ dtm c) /\ is_f32 (at_ dtm c).
(** A float64 DEM without NaN. *)
Definition dem64 (dtm : raster b64) : Prop :=
  forall c, inside (nrows dtm) (ncols dtm) c -> not_nan (at_ dtm c).
Definition dem_finite (dtm : raster b64) : Prop :=
  forall c, inside (nrows dtm) (ncols dtm) c -> finite64 (at_ dtm c).
(** No elevation beyond 2^1000 in magnitude. *)
Definition dem_max1000 (dtm : raster b64) : Prop :=
  forall c, inside (nrows dtm) (ncols dtm) c -> le64 (Babs (at_ dtm c)) (f64 1 1000).

(** Water standing at [v] in cell d needs this level in cell c to be able to run
    down from c to d. *)
Definition raise_by (short diag : b64) (c d : cell) (v : b64) : b64 :=
  f64_add v (if diagonalb c d then diag else short).

Definition nonneg64 (x : b64) : Prop := finite64 x /\ le64 f64_zero x.
