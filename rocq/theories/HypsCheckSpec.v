(** * Specifications for the checks of the hypsometry *)

From Verif Require Import Base HypsSpec.
Local Open Scope Z_scope.

(** The water below the k-th bin of a histogram, in units of cell area times bin width:
    the cells of bin j < k stand k - j bins below it. *)
Definition water_below (counts : list Z) (k : nat) : Z :=
  zsum (map (fun j => (Z.of_nat k - Z.of_nat j) * nth j counts 0) (seq 0 k)).
