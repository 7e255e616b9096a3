(** * Specifications for approximate water levels *)

From Coq Require Import QArith.
From Verif Require Import Base Num NetworkSpec HypsModel HypsSpec.
Local Open Scope Z_scope.

(** The water standing over cells at elevations zs when the level is L. *)
Definition volume_at (area : Q) (zs : list Q) (L : Q) : Q :=
  (area * Qsum (map (fun z => if Qlt_le_dec z L then L - z else 0) zs))%Q.

(** The hypsometry h of the elevations zs: its histogram starts in the bin of the lowest
    and ends in the bin of the highest cell. *)
Definition hypsometry_of (zs : list Q) (resolution : Q) (h : @hyps Q) : Prop :=
  let b := h_bins (z_hist h) in
  least zs (z_min h) /\ greatest zs (z_max h) /\ histogram_of zs resolution (z_hist h) /\
  (b_lower b <= z_min h < b_lower b + resolution)%Q /\ (b_upper b - resolution <= z_max h < b_upper b)%Q.

(** The attributes of a bluespot: water over cells zs up to the spill level S. *)
Definition bluespot_attributes (zs : list Q) (area S : Q) (h : @hyps Q) (max_depth max_vol : Q) : Prop :=
  (0 < area)%Q /\ (forall z, In z zs -> (z <= S)%Q) /\
  (max_depth == S - z_min h)%Q /\ (max_vol == volume_at area zs S)%Q.
