(** * Specifications for hypsometry *)

From Coq Require Import QArith.
From Verif Require Import Base Num HypsModel.
Local Open Scope Z_scope.

(** m is the least (greatest) of the numbers zs. *)
Definition least (zs : list Q) (m : Q) : Prop := In m zs /\ forall z, In z zs -> (m <= z)%Q.
Definition greatest (zs : list Q) (m : Q) : Prop := In m zs /\ forall z, In z zs -> (z <= m)%Q.

(** The numbers in [a, b). *)
Definition between (a b : Q) (zs : list Q) : list Q := filter (fun z => Qle_bool a z && Qltb z b) zs.

Definition zsum (l : list Z) : Z := fold_right Z.add 0 l.

(** h is the histogram of zs with bins of width res: adjacent bins from the lower to the
    upper bound, the i-th count is the number of elevations in the i-th bin. *)
Definition histogram_of (zs : list Q) (resolution : Q) (h : @histogram Q) : Prop :=
  let b := h_bins h in
  b_resolution b = resolution /\ 1 <= b_num b /\ Z.of_nat (length (h_counts h)) = b_num b /\
  (b_upper b == b_lower b + inject_Z (b_num b) * resolution)%Q /\
  forall i, 0 <= i < b_num b ->
    nth_error (h_counts h) (Z.to_nat i) =
    Some (Z.of_nat (length (between (b_lower b + inject_Z i * resolution)
                                    (b_lower b + inject_Z (i + 1) * resolution) zs))).
