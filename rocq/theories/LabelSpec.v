(** * Specifications for labelled rasters *)

From Coq Require Import Sorted.
From Verif Require Import Base Num Float64 FillSpec.

(** Raster (row-major) order of cells. *)
Definition before (a b : cell) : Prop := fst a < fst b \/ (fst a = fst b /\ snd a < snd b).

(** cs lists the cells that satisfy P, each once, in raster order. *)
Definition lists_cells (P : cell -> Prop) (cs : list cell) : Prop :=
  StronglySorted before cs /\ forall c, In c cs <-> P c.

(** c is a cell of the raster with label l. *)
Definition has_label (lab : raster Z) (l : Z) (c : cell) : Prop :=
  inside (nrows lab) (ncols lab) c /\ at_ lab c = l.

(** All labels are in 0..n. *)
Definition labels_in (lab : raster Z) (n : Z) : Prop :=
  forall c, inside (nrows lab) (ncols lab) c -> 0 <= at_ lab c <= n.

(** n is the largest label of a raster. *)
Definition largest_label (lab : raster Z) (n : Z) : Prop :=
  (exists c, has_label lab n c) /\ forall c, inside (nrows lab) (ncols lab) c -> at_ lab c <= n.

(** What the nlabels argument stands for: omitted or 0 means the largest label. *)
Definition nlabels_is (lab : raster Z) (nlabels : option Z) (n : Z) : Prop :=
  (nlabels = Some n /\ n <> 0) \/ ((nlabels = None \/ nlabels = Some 0) /\ largest_label lab n).

(** m is the least value of data over the cells satisfying P, NaNs ignored
    (m = [top] when there is none).  [le] is the order. *)
Definition extreme (le : b64 -> b64 -> Prop) (top : b64) (P : cell -> Prop) (data : raster b64) (m : b64)
  : Prop :=
  ((exists c, P c /\ not_nan (at_ data c) /\ m = at_ data c) \/
   (m = top /\ forall c, P c -> ~ not_nan (at_ data c))) /\
  forall c, P c -> not_nan (at_ data c) -> le m (at_ data c).

(** c is the first cell in raster order among those satisfying P with the extreme
    value v. *)
Definition first_extreme (le lt : b64 -> b64 -> Prop) (P : cell -> Prop) (data : raster b64)
    (v : b64) (c : cell) : Prop :=
  P c /\ v = at_ data c /\
  (forall d, P d -> not_nan (at_ data d) -> le v (at_ data d)) /\
  (forall d, P d -> before d c -> not_nan (at_ data d) -> lt v (at_ data d)).
