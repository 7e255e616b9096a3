(** * Model of malstroem/io.py: VectorWriter and VectorReader

    OGR is taken to behave as for a database with several layers (GeoPackage): field names
    and values are kept, features keep their order, CreateField with the name of an existing
    field has no effect.  Geometries, reference systems, transactions, creation options and
    the detour over a GeoJSON file (io.py 306-331) are left out. *)

From Coq Require Import String.
From Verif Require Import Base Dict.
Local Open Scope list_scope.

Section Ogr.
Context {V : Type}.

(** The 'properties' of a GeoJSON feature; None is null. *)
Definition feature := list (string * option V).

(** A layer: the field names and for every feature a value for each field. *)
Record layer := mkLayer { ly_fields : list string; ly_features : list (list (option V)) }.

(** What is stored under a datasource name; None when it does not exist. *)
Definition datasource := option (list (string * layer)).

(** The fields of the GeoJSON layer the features are read back from: every property of any
    feature. *)
Definition add_name (names : list string) (n : string) : list string :=
  if existsb (String.eqb n) names then names else names ++ [n].
Definition feature_fields (fs : list feature) : list string :=
  fold_left (fun names f => fold_left add_name (map fst f) names) fs [].

(** io.py 282-290, [_init_fields] *)
Definition init_fields (l : layer) (names : list string) : layer :=
  let fields := fold_left add_name names (ly_fields l) in
  mkLayer fields (map (fun row => row ++ repeat None (length fields - length row)) (ly_features l)).

(** io.py 334-343, [_write_ogr_feature]: [SetFrom] copies the values field by field, names
    that are not fields of the layer are left out (forgiving=1). *)
Definition value_of (f : feature) (n : string) : option V :=
  match dget String.eqb f n with Some v => v | None => None end.
Definition write_feature (l : layer) (f : feature) : layer :=
  mkLayer (ly_fields l) (ly_features l ++ [map (value_of f) (ly_fields l)]).

(** io.py 257-280 and 292-332, [_init_datasource] and [write_geojson_features] of a new
    VectorWriter (all writers malstroem makes have no additional fields and are used once). *)
Definition write_features (ds : datasource) (layername : string) (fs : list feature) : datasource :=
  let layers := match ds with Some l => l | None => [] end in
  let l := match dget String.eqb layers layername with Some l => l | None => mkLayer [] [] end in
  let l := match fs with [] => l | _ => init_fields l (feature_fields fs) end in
  Some (dset String.eqb layers layername (fold_left write_feature fs l)).

(** io.py 379-420: [VectorReader(datasource, layername).read_geojson_features()].  An empty
    or missing layer name stands for the first layer. *)
Definition read_features (ds : datasource) (layername : option string) : res (list feature) :=
  match ds with
  | None => Exc PlainException
  | Some layers =>
      let found := match layername with
                   | Some n => if String.eqb n ""%string then option_map snd (hd_error layers) else dget String.eqb layers n
                   | None => option_map snd (hd_error layers)
                   end in
      match found with
      | Some l => Ok (map (combine (ly_fields l)) (ly_features l))
      | None => Exc PlainException
      end
  end.
End Ogr.
Arguments layer : clear implicits.
Arguments datasource : clear implicits.
Arguments feature : clear implicits.
