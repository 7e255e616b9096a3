(** * Specifications for flow

    Directions as compass offsets, routes of water, watersheds: stated on the
    direction raster, independent of the code that walks it. *)

From Verif Require Import Base Float64 FillSpec.

(** Offset of a direction code; [None] for anything but 0..7. *)
Definition offset (d : Z) : option (Z * Z) :=
  match d with
  | 0 => Some (-1, 0) | 1 => Some (-1, 1) | 2 => Some (0, 1) | 3 => Some (1, 1)
  | 4 => Some (1, 0) | 5 => Some (1, -1) | 6 => Some (0, -1) | 7 => Some (-1, -1)
  | _ => None
  end.

Definition shift (c : cell) (o : Z * Z) : cell := (fst c + fst o, snd c + snd o).

(** The cell that c flows to (possibly outside the raster). *)
Definition target (f : raster Z) (c : cell) : option cell :=
  match offset (at_ f c) with Some o => Some (shift c o) | None => None end.

Definition codes_ok (f : raster Z) : Prop :=
  forall c, inside (nrows f) (ncols f) c -> 0 <= at_ f c <= 8.

(** [flows f c d]: c and d are cells of the raster and c flows directly to d. *)
Definition flows (f : raster Z) (c d : cell) : Prop :=
  inside (nrows f) (ncols f) c /\ inside (nrows f) (ncols f) d /\ target f c = Some d.

(** c flows directly off the raster. *)
Definition flows_off (f : raster Z) (c : cell) : Prop :=
  inside (nrows f) (ncols f) c /\
  exists d, target f c = Some d /\ ~ inside (nrows f) (ncols f) d.

(** The step in one dimension that leaves a raster of [n] rows (columns) at row (column) [i]; 0 inside. *)
Definition outward (n i : Z) : Z := if i =? 0 then -1 else if i =? n - 1 then 1 else 0.

(** Following the directions from c leads off the raster. *)
Inductive drains_off (f : raster Z) : cell -> Prop :=
| do_off : forall c, flows_off f c -> drains_off f c
| do_step : forall c d, flows f c d -> drains_off f d -> drains_off f c.

Definition fully_draining (f : raster Z) : Prop :=
  codes_ok f /\ forall c, inside (nrows f) (ncols f) c -> drains_off f c.

(** The downstream trace of a passes through b (a itself included). *)
Inductive passes (f : raster Z) : cell -> cell -> Prop :=
| pa_here : forall a, inside (nrows f) (ncols f) a -> passes f a a
| pa_step : forall a b c, flows f a b -> passes f b c -> passes f a c.

(** n is the number of cells satisfying P. *)
Definition counts (P : cell -> Prop) (n : Z) : Prop :=
  exists l, NoDup l /\ (forall c, In c l <-> P c) /\ n = Z.of_nat (length l).

(** [first_label f lab u c l]: l is the first label other than u met on the
    downstream trace of c, or u when there is none. *)
Inductive first_label (f lab : raster Z) (u : Z) : cell -> Z -> Prop :=
| fl_here : forall c, inside (nrows f) (ncols f) c -> at_ lab c <> u -> first_label f lab u c (at_ lab c)
| fl_step : forall c d l, at_ lab c = u -> flows f c d -> first_label f lab u d l ->
    first_label f lab u c l
| fl_off : forall c, at_ lab c = u -> flows_off f c -> first_label f lab u c u.

(** Slope from c in direction d as computed in float64; [on_diag] is what a
    diagonal drop is turned into. *)
Definition slope (on_diag : b64 -> b64) (t : raster b64) (c : cell) (d : Z) : b64 :=
  match offset d with
  | Some o => let drop := f64_sub (at_ t c) (at_ t (shift c o)) in
              if Z.odd d then on_diag drop else drop
  | None => f64_zero
  end.

(** d is the first direction attaining the largest slope, which is positive. *)
Definition steepest (on_diag : b64 -> b64) (t : raster b64) (c : cell) (d : Z) : Prop :=
  0 <= d <= 7 /\ lt64 f64_zero (slope on_diag t c d) /\
  (forall k, 0 <= k <= 7 -> le64 (slope on_diag t c k) (slope on_diag t c d)) /\
  (forall k, 0 <= k < d -> lt64 (slope on_diag t c k) (slope on_diag t c d)).

(** [downhill f t c]: c flows to a strictly lower neighbour in the raster. *)
Definition downhill (f : raster Z) (t : raster b64) (c : cell) : Prop :=
  exists d, flows f c d /\ adjacent c d /\ lt64 (at_ t d) (at_ t c).
