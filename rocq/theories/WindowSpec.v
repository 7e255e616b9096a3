(** * A window cut out of a raster *)

From Verif Require Import Base.

(** Cell c of a window that starts at row r0, column c0, in the whole raster. *)
Definition moved (r0 c0 : Z) (c : cell) : cell := (r0 + fst c, c0 + snd c).

(** w is the part of r starting at row r0, column c0. *)
Definition window {A} (r0 c0 : Z) (r w : raster A) : Prop :=
  0 <= r0 /\ 0 <= c0 /\ r0 + nrows w <= nrows r /\ c0 + ncols w <= ncols r /\
  forall c, inside (nrows w) (ncols w) c -> at_ w c = at_ r (moved r0 c0 c).
