(** * Specifications for turned and mirrored rasters *)

From Flocq Require Import IEEE754.BinarySingleNaN.
From Verif Require Import Base Num Float64 FillSpec BluespotModel.

(** [symmetry r c r' c' s]: s turns or mirrors a raster of r rows and c columns into one of
    r' rows and c' columns.  The three generators give all eight symmetries of the grid. *)
Inductive symmetry : Z -> Z -> Z -> Z -> (cell -> cell) -> Prop :=
| sy_rows : forall r c, symmetry r c r c (fun x => (r - 1 - fst x, snd x))
| sy_cols : forall r c, symmetry r c r c (fun x => (fst x, c - 1 - snd x))
| sy_swap : forall r c, symmetry r c c r (fun x => (snd x, fst x))
| sy_comp : forall r c r' c' r'' c'' s s', symmetry r c r' c' s -> symmetry r' c' r'' c'' s' ->
    symmetry r c r'' c'' (fun x => s' (s x)).

(** b shows the numbers of a, turned by s. *)
Definition turned (s : cell -> cell) (a b : raster b64) : Prop :=
  symmetry (nrows a) (ncols a) (nrows b) (ncols b) s /\
  forall x, inside (nrows a) (ncols a) x -> eq64 (at_ b (s x)) (at_ a x).

(** The filter reads number of cells, area, least and largest depth, not the sum of depths. *)
Definition reads_no_sum (f : @unit_stats b64 -> bool) : Prop :=
  forall a b, u_count a = u_count b -> u_area a = u_area b -> eq64 (u_min a) (u_min b) -> eq64 (u_max a) (u_max b) -> f a = f b.

(** The drop from c to a neighbour n, on a diagonal turned into [on_diag] of it. *)
Definition slope_to (on_diag : b64 -> b64) (t : raster b64) (c n : cell) : b64 :=
  let drop := f64_sub (at_ t c) (at_ t n) in if diagonalb c n then on_diag drop else drop.

(** n is the one steepest way down from c. *)
Definition only_steepest (on_diag : b64 -> b64) (t : raster b64) (c n : cell) : Prop :=
  adjacent c n /\ forall m, adjacent c m -> m <> n -> lt64 (slope_to on_diag t c m) (slope_to on_diag t c n).

(** The areas of lab and lab' are the same up to their numbers, turned by s. *)
Definition same_areas (s : cell -> cell) (lab lab' : raster Z) : Prop :=
  symmetry (nrows lab) (ncols lab) (nrows lab') (ncols lab') s /\
  (forall x, inside (nrows lab) (ncols lab) x -> (at_ lab x = 0 <-> at_ lab' (s x) = 0)) /\
  (forall x y, inside (nrows lab) (ncols lab) x -> inside (nrows lab) (ncols lab) y -> (at_ lab x = at_ lab y <-> at_ lab' (s x) = at_ lab' (s y))).
