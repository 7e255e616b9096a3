(** * Model of malstroem/vector.py (cell coordinates)

    Vectorisation of label rasters (GDAL polygonize) is not modelled. *)

From Verif Require Import Base Num.

(** GDAL geotransform: six numbers. *)
Record geotransform (T : Type) := mkGT { gt0 : T; gt1 : T; gt2 : T; gt3 : T; gt4 : T; gt5 : T }.
Arguments mkGT {T}.
Arguments gt0 {T}.
Arguments gt1 {T}.
Arguments gt2 {T}.
Arguments gt3 {T}.
Arguments gt4 {T}.
Arguments gt5 {T}.

Section Vector.
Context {T : Type}.
Variable ops : NumOps T.

(** [gdal.ApplyGeoTransform], as documented by GDAL. *)
Definition apply_geotransform (t : geotransform T) (px ln : T) : T * T :=
  (nadd ops (nadd ops (gt0 t) (nmul ops px (gt1 t))) (nmul ops ln (gt2 t)),
   nadd ops (nadd ops (gt3 t) (nmul ops px (gt4 t))) (nmul ops ln (gt5 t))).

(** 0.5 *)
Definition nhalf : T := ndiv ops (nofZ ops 1) (nofZ ops 2).

(** vector.py 21-39, [transform_cell_to_world] *)
Definition transform_cell_to_world (c : cell) (t : geotransform T) : T * T :=
  apply_geotransform t (nadd ops (nofZ ops (snd c)) nhalf) (nadd ops (nofZ ops (fst c)) nhalf).

(** Python [abs] (up to the sign of zero). *)
Definition nabs (x : T) : T := if nltb ops x (nofZ ops 0) then nsub ops (nofZ ops 0) x else x.

(** [cell_area = abs(transform[1]) * abs(transform[5])] (bluespots.py 69-71, 147-149) *)
Definition cell_area (t : geotransform T) : T := nmul ops (nabs (gt1 t)) (nabs (gt5 t)).
End Vector.
