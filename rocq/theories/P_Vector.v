(** * C52, C61: cell coordinates and cell area (exact arithmetic)

    image t px ln: the world coordinates GDAL documents for pixel coordinates (px, ln). *)

From Coq Require Import QArith.
From Verif Require Import Base Num VectorModel VectorThms.
Local Open Scope Z_scope.

(** ** C52: the middle of the images of opposite corners *)

Theorem C52_cell_centre : forall (t : geotransform Q) r c,
  let p := image t (inject_Z c) (inject_Z r) in
  let q := image t (inject_Z (c + 1)) (inject_Z (r + 1)) in
  qpair_eq (transform_cell_to_world QOps (r, c) t) ((1 # 2) * (fst p + fst q), (1 # 2) * (snd p + snd q))%Q.
Proof. exact cell_centre. Qed.
Print Assumptions C52_cell_centre.

Theorem C52_injective : forall (t : geotransform Q) a b, ~ (gt1 t * gt5 t - gt2 t * gt4 t == 0)%Q ->
  qpair_eq (transform_cell_to_world QOps a t) (transform_cell_to_world QOps b t) -> a = b.
Proof. exact cells_distinct. Qed.
Print Assumptions C52_injective.

Example C52_example : let t := mkGT 500000%Q (2#5)%Q 0%Q 6200000%Q 0%Q (-2#5)%Q in
  ~ (gt1 t * gt5 t - gt2 t * gt4 t == 0)%Q /\
  qpair_eq (transform_cell_to_world QOps (1, 2) t) (500001%Q, (61999994#10)%Q).
Proof. cbv zeta. split; [vm_compute; discriminate|]. split; reflexivity. Qed.

(** ** C61
    Full statement: the cell area used for volumes, abs(transform[1]) * abs(transform[5]),
    is the area of a cell.  Missing: transforms with both rotation terms. *)

Theorem C61_cell_area_partial : forall (t : geotransform Q) r c, (gt2 t == 0)%Q \/ (gt4 t == 0)%Q ->
  (cell_area QOps t == true_area t r c)%Q.
Proof. exact area_unrotated. Qed.
Print Assumptions C61_cell_area_partial.

Theorem C61_rotated_refuted : exists (t : geotransform Q), ~ (gt1 t * gt5 t - gt2 t * gt4 t == 0)%Q /\
  (cell_area QOps t == 1)%Q /\ forall r c, (true_area t r c == 2)%Q.
Proof. exact area_refuted. Qed.
Print Assumptions C61_rotated_refuted.

Example C61_example : let t := mkGT 500000%Q (2#5)%Q 0%Q 6200000%Q 0%Q (-2#5)%Q in
  (gt2 t == 0)%Q /\ (cell_area QOps t == 4#25)%Q.
Proof. split; reflexivity. Qed.
