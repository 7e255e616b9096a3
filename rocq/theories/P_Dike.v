(** * C111: raising the ground

    dem' is the terrain dem after building: nowhere lower, or higher in some cells. *)

From Flocq Require Import IEEE754.BinarySingleNaN.
From Verif Require Import Base Num Float64 FillModel FillSpec FillThms DemModel LevelProofs DemProofs DikeThms.
Local Open Scope Z_scope.

(** Where the ground is as before, the water the terrain can hold does not get shallower. *)
Theorem C111_depths : forall dem dem', size_ok false dem -> same_shape dem dem' -> dem32 dem -> dem32 dem' -> dem_finite dem -> dem_finite dem' ->
  (forall c, inside (nrows dem) (ncols dem) c -> le64 (at_ dem c) (at_ dem' c)) ->
  forall fuel fuel' t1 t5 t1' t5' out out', dem_process false fuel t1 t5 dem = Ok out -> dem_process false fuel' t1' t5' dem' = Ok out' ->
  forall c, inside (nrows dem) (ncols dem) c -> eq64 (at_ dem' c) (at_ dem c) -> le64 (at_ (do_depths out) c) (at_ (do_depths out') c).
Proof. exact raised_depths. Qed.
Print Assumptions C111_depths.

(** If no changed cell ends up above the surface at a cell c, the surface at c does not rise. *)
Theorem C111_level_kept : forall dem dem', 2 <= nrows dem -> 2 <= ncols dem -> same_shape dem dem' -> dem32 dem -> dem32 dem' ->
  forall fuel fuel' f f', fill64 fuel dem = Ok f -> fill64 fuel' dem' = Ok f' ->
  forall c, inside (nrows dem) (ncols dem) c ->
  (forall x, inside (nrows dem) (ncols dem) x -> eq64 (at_ dem' x) (at_ dem x) \/ le64 (at_ dem' x) (at_ f c)) ->
  le64 (at_ f' c) (at_ f c).
Proof. exact level_kept. Qed.
Print Assumptions C111_level_kept.

(** A hollow; with a dike of 2 it holds 2 more, with its bottom raised by 2 the surface stays. *)
Example C111_example : (dem32 hollow /\ dem_finite hollow) /\ (dem32 diked /\ dem_finite diked) /\ (dem32 raised /\ dem_finite raised) /\
  (forall c, inside (nrows hollow) (ncols hollow) c -> le64 (at_ hollow c) (at_ diked c)) /\
  hollow_run hollow [0;4;3;0] = true /\ hollow_run diked [0;6;5;0] = true /\ hollow_run raised [0;4;1;0] = true.
Proof. exact hollows. Qed.

(** Not with the compiled functions: raising a corner by 1 may lower the surface elsewhere. *)
Theorem C111_compiled_refuted : exists dem dem' f f' c, size_ok true dem /\ same_shape dem dem' /\ dem32 dem /\ dem32 dem' /\ dem_finite dem /\ dem_finite dem' /\
  (forall c, inside (nrows dem) (ncols dem) c -> le64 (at_ dem c) (at_ dem' c)) /\
  fill64_cy 20 dem = Ok f /\ fill64_cy 20 dem' = Ok f' /\ inside (nrows dem) (ncols dem) c /\ eq64 (at_ dem' c) (at_ dem c) /\ lt64 (at_ f' c) (at_ f c).
Proof. exact compiled_far. Qed.
Print Assumptions C111_compiled_refuted.
