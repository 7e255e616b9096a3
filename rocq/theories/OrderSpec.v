(** * Layers with the same features in another order *)

From Coq Require Import QArith Permutation String.
From Verif Require Import Base Dict OgrModel CmdModel.
Local Open Scope list_scope.

(** No two of the features have the same value of the attribute, as [read] reads it. *)
Definition distinct (read : props -> string -> res Z) (k : string) (fs : list props) : Prop :=
  NoDup (map (fun f => read f k) fs).

(** Numbers may be written differently as fractions. *)
Definition same_value (v w : option value) : Prop :=
  match v, w with
  | Some (VReal p), Some (VReal q) => (p == q)%Q
  | _, _ => v = w
  end.
Definition same_feature (f g : props) : Prop :=
  Forall2 (fun a b => fst a = fst b /\ same_value (snd a) (snd b)) f g.

(** The same features, perhaps in another order. *)
Definition same_features (fs gs : list props) : Prop :=
  exists hs, Permutation gs hs /\ Forall2 same_feature fs hs.

(** The feature is a pour point. *)
Definition is_pp (f : props) : bool := match is_pourpoint f with Ok b => b | _ => false end.
