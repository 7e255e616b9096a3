(** * Directions of flow for part of a raster *)

From Verif Require Import Base FillSpec FlowSpec WindowSpec.

(** g: directions for a part of f that starts at row r0, column c0; the same inside, off the part on its edge. *)
Definition flow_part (r0 c0 : Z) (f g : raster Z) : Prop :=
  (0 <= r0 /\ 0 <= c0 /\ r0 + nrows g <= nrows f /\ c0 + ncols g <= ncols f) /\
  (forall c, on_edge (nrows g) (ncols g) c -> flows_off g c) /\
  (forall c, interior (nrows g) (ncols g) c -> at_ g c = at_ f (moved r0 c0 c)).
