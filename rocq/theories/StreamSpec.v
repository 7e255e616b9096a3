(** * Specifications for the lines of the streams *)

From Coq Require Import QArith.
From Verif Require Import Base FlowSpec NetSpec VectorModel.

(** A path that starts at c, follows the flow directions from cell to cell and visits no cell twice. *)
Definition drawn (f : raster Z) (c : cell) (path : list cell) : Prop :=
  hd_error path = Some c /\ NoDup path /\ forall x y, step_in path x y -> flows f x y.

(** (x, y) is the middle of the cell in world coordinates. *)
Definition centre (t : geotransform Q) (c : cell) (w : Q * Q) : Prop :=
  (fst w == gt0 t + gt1 t * (inject_Z (snd c) + (1 # 2)) + gt2 t * (inject_Z (fst c) + (1 # 2)) /\
   snd w == gt3 t + gt4 t * (inject_Z (snd c) + (1 # 2)) + gt5 t * (inject_Z (fst c) + (1 # 2)))%Q.
