(** * What reading a layer has to give *)

From Coq Require Import String.
From Verif Require Import Base Dict OgrModel.
Local Open Scope list_scope.

Section Ogr.
Context {V : Type}.

(** All the features written under a name, in order. *)
Definition written (n : string) (ws : list (string * list (feature V))) : list (feature V) :=
  concat (map snd (filter (fun w => String.eqb (fst w) n) ws)).

(** The state of the datasource after these writes, each by a new writer. *)
Definition after (ws : list (string * list (feature V))) : datasource V :=
  fold_left (fun ds w => write_features ds (fst w) (snd w)) ws None.

(** g has the values of f, and null for properties that only other features of fs have. *)
Definition carries (fs : list (feature V)) (f g : feature V) : Prop :=
  forall a, (forall v, dget String.eqb f a = Some v -> dget String.eqb g a = Some v) /\
            (dget String.eqb f a = None -> (exists f', In f' fs /\ In a (map fst f')) -> dget String.eqb g a = Some None) /\
            ((forall f', In f' fs -> ~ In a (map fst f')) -> dget String.eqb g a = None).
End Ogr.
