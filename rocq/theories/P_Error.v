(** * C109: errors in the terrain

    B2R x: the number x; dem and dem' are two measurements of a terrain that differ by at most e at each cell. *)

From Coq Require Import Reals.
From Flocq Require Import IEEE754.BinarySingleNaN.
From Verif Require Import Base Num Float64 FillModel FillSpec FillThms DemModel LevelProofs DemProofs FlowModel ErrorThms.
Local Open Scope Z_scope.

(** The filled surfaces differ by at most e too. *)
Theorem C109_fill : forall dem dem' e, 2 <= nrows dem -> 2 <= ncols dem -> same_shape dem dem' -> dem32 dem -> dem32 dem' -> dem_finite dem -> dem_finite dem' ->
  (forall c, inside (nrows dem) (ncols dem) c -> (Rabs (B2R (at_ dem c) - B2R (at_ dem' c)) <= e)%R) ->
  forall fuel fuel' f f', fill64 fuel dem = Ok f -> fill64 fuel' dem' = Ok f' ->
  forall c, inside (nrows dem) (ncols dem) c -> (Rabs (B2R (at_ f c) - B2R (at_ f' c)) <= e)%R.
Proof. exact fill_near. Qed.
Print Assumptions C109_fill.

(** A cell under more than 2 e of water in one run of the DEM tool is under water in the other. *)
Theorem C109_deep_water : forall dem dem' e, size_ok false dem -> same_shape dem dem' -> dem32 dem -> dem32 dem' -> dem_finite dem -> dem_finite dem' ->
  (forall c, inside (nrows dem) (ncols dem) c -> (Rabs (B2R (at_ dem c) - B2R (at_ dem' c)) <= e)%R) ->
  forall fuel fuel' t1 t5 t1' t5' out out', dem_process false fuel t1 t5 dem = Ok out -> dem_process false fuel' t1' t5' dem' = Ok out' ->
  forall c, inside (nrows dem) (ncols dem) c ->
  (2 * e < B2R (at_ (do_filled out) c) - B2R (at_ dem c))%R -> lt64 f64_zero (at_ (do_depths out') c).
Proof. exact depth_near. Qed.
Print Assumptions C109_deep_water.

(** Two terrains that differ by less than a millionth. *)
Example C109_example : 2 <= nrows ridge /\ 2 <= ncols ridge /\ same_shape ridge ridge' /\ dem32 ridge /\ dem32 ridge' /\ dem_finite ridge /\ dem_finite ridge' /\
  (forall c, inside (nrows ridge) (ncols ridge) c -> (Rabs (B2R (at_ ridge c) - B2R (at_ ridge' c)) <= / 1000000)%R).
Proof. exact ridge_example. Qed.

(** Not the directions: a millionth may turn the flow around. *)
Theorem C109_directions_refuted : exists dem dem' out out', dem32 dem /\ dem32 dem' /\ dem_finite dem /\ dem_finite dem' /\ same_shape dem dem' /\
  (forall c, inside (nrows dem) (ncols dem) c -> (Rabs (B2R (at_ dem c) - B2R (at_ dem' c)) <= / 1000000)%R) /\
  dem_process false 20 (f64_ofZ 1) (f64_ofZ 1) dem = Ok out /\ dem_process false 20 (f64_ofZ 1) (f64_ofZ 1) dem' = Ok out' /\
  at_ (do_flowdir out) (1, 1) = 2 /\ at_ (do_flowdir out') (1, 1) = 6.
Proof. exact ridge_tips. Qed.
Print Assumptions C109_directions_refuted.

(** Not with the compiled functions: a thousandth may change the filled surface by 3. *)
Theorem C109_compiled_refuted : exists dem dem' f f', size_ok true dem /\ dem32 dem /\ dem32 dem' /\ dem_finite dem /\ dem_finite dem' /\ same_shape dem dem' /\
  (forall c, inside (nrows dem) (ncols dem) c -> (Rabs (B2R (at_ dem c) - B2R (at_ dem' c)) <= / 1000)%R) /\
  fill64_cy 20 dem = Ok f /\ fill64_cy 20 dem' = Ok f' /\ B2R (at_ f (1, 3)) = 3%R /\ B2R (at_ f' (1, 3)) = 0%R.
Proof. exact compiled_jumps. Qed.
Print Assumptions C109_compiled_refuted.
