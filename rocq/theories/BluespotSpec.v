(** * Specifications for bluespots *)

From Verif Require Import Base Num Float64 FillSpec FlowSpec LabelModel LabelSpec CompSpec BluespotModel.

(** The bluespot around c: the cells connected to c through non-zero depths. *)
Definition bluespot (depths : raster b64) (c : cell) : cell -> Prop := connected (nonzero depths) c.

(** s describes the depths over the cells satisfying P: number of cells, sum in
    raster order, least and largest depth; volume and area in metric units. *)
Definition describes (depths : raster b64) (P : cell -> Prop) (area : b64) (s : @unit_stats b64) : Prop :=
  exists cs, lists_cells P cs /\
    u_count s = Z.of_nat (length cs) /\
    u_sum s = fold_left f64_add (map (at_ depths) cs) (f64_ofZ 0) /\
    extreme le64 f64_inf P depths (u_min s) /\
    extreme (fun a b => le64 b a) f64_ninf P depths (u_max s) /\
    u_volume s = f64_mul (u_sum s) area /\
    u_area s = f64_mul (f64_ofZ (u_count s)) area.

(** labels are numbered 1..n, every number in use, 0 elsewhere *)
Definition numbered (lab : raster Z) (n : Z) : Prop :=
  labels_in lab n /\ 0 <= n /\ forall l, 1 <= l <= n -> exists c, has_label lab l c.

(** c lies in the area labelled l, and water leaving c never comes back to that
    area: c is the only cell of the area on its downstream trace. *)
Definition pour_ok (f lab : raster Z) (l : Z) (c : cell) : Prop :=
  has_label lab l c /\ forall d, passes f c d -> at_ lab d = l -> d = c.
