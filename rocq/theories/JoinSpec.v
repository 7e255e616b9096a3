(** * Ids in the layers: what can be joined *)

From Coq Require Import QArith String Permutation.
From Verif Require Import Base Dict OgrModel CmdModel CmdSpec OutdirModel PolygonSpec.
Local Open Scope list_scope.

(** The attribute [att] of the features of a layer, one after the other. *)
Definition column (ds : store) (layer att : string) (vs : list (option value)) : Prop :=
  exists gs, read_features ds (Some layer) = Ok gs /\ map (fun g => dget String.eqb g att) gs = map Some vs.

(** An attribute that is a key: ids, none of them twice, in any order. *)
Definition keys (ds : store) (layer att : string) (ids : list Z) : Prop :=
  exists l, column ds layer att (map int_ l) /\ Permutation l ids /\ NoDup l.

(** gdal.Polygonize meets its contract; [o_polygons] keeps the ids of the features. *)
Definition polygons_ok (p : options) : Prop :=
  forall ids, exists ps, polygonized ids ps /\ o_polygons p ids = map fst ps.

(** The command with more fuel for the loops of the model. *)
Definition with_fuel (p : options) (fuel : nat) : options :=
  mkOptions (o_speedups p) (o_cc p) fuel (o_gt p) (o_dem p) (o_filter p) (o_accum p) (o_vector p) (o_mm p) (o_zresolution p) (o_polygons p).
