(** * Polygons: the contract of gdal.Polygonize

    vector.py 42-87 and 89-124 call gdal.Polygonize with 8-connectedness and the mask of the
    band; the rasters of ids are written with nodata 0 (bluespot.py 45, 80, complete.py 85, 87,
    140, finalstate.py 112), so cells with 0 are masked.  GDAL is not modelled; a polygonization
    is any list of features that meets its documented contract: one polygon for each connected
    region of equal value.  A polygon is given by its value and the cells it covers. *)

From Verif Require Import Base FillSpec LabelSpec CompSpec.

(** Connected through 8-adjacent cells with the same id. *)
Inductive linked (ids : raster Z) : cell -> cell -> Prop :=
| ln_here : forall c, inside (nrows ids) (ncols ids) c -> at_ ids c <> 0 -> linked ids c c
| ln_step : forall a b c, linked ids a b -> adjacent b c -> inside (nrows ids) (ncols ids) c ->
    at_ ids c = at_ ids b -> linked ids a c.

Record polygonized (ids : raster Z) (ps : list (Z * list cell)) : Prop := {
  (** a polygon covers one region, and all of it *)
  pg_region : forall i cs, In (i, cs) ps ->
    exists c, has_label ids i c /\ i <> 0 /\ forall d, In d cs <-> linked ids c d;
  (** each cell with an id is covered *)
  pg_covered : forall c, inside (nrows ids) (ncols ids) c -> at_ ids c <> 0 -> exists i cs, In (i, cs) ps /\ In c cs;
  (** no region has two polygons *)
  pg_once : forall j k i cs i' cs' c, nth_error ps j = Some (i, cs) -> nth_error ps k = Some (i', cs') ->
    In c cs -> In c cs' -> j = k
}.

(** A reference: the components of each id. *)
Definition ids_of (ids : raster Z) : list Z := nodup Z.eq_dec (filter (fun i => negb (i =? 0)) (map (at_ ids) (rcells ids))).
Definition having (ids : raster Z) (i : Z) : raster bool := mkRaster (nrows ids) (ncols ids) (fun r c => at_ ids (r, c) =? i).
Definition polygons_of (cc : raster bool -> raster Z * Z) (ids : raster Z) : list (Z * list cell) :=
  flat_map (fun i => let (lab, n) := cc (having ids i) in
    map (fun k => (i, filter (fun c => at_ lab c =? k) (rcells ids))) (pyrange 1 (n + 1) 1)) (ids_of ids).
