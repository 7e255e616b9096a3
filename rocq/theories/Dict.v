(** * Python dicts

    Association lists in insertion order: assigning to an existing key keeps its
    position, a new key goes to the end. *)

From Verif Require Import Base.

Section Dict.
Context {K V : Type}.
Variable eqb : K -> K -> bool.

Fixpoint dget (d : list (K * V)) (k : K) : option V :=
  match d with
  | [] => None
  | (k', v) :: t => if eqb k' k then Some v else dget t k
  end.

(** [d[k] = v] *)
Fixpoint dset (d : list (K * V)) (k : K) (v : V) : list (K * V) :=
  match d with
  | [] => [(k, v)]
  | (k', v') :: t => if eqb k' k then (k', v) :: t else (k', v') :: dset t k v
  end.

(** [d[k]] on a plain dict: KeyError when missing. *)
Definition dget_err (d : list (K * V)) (k : K) : res V :=
  match dget d k with Some v => Ok v | None => Exc KeyError end.
End Dict.

Definition optZ_eqb (a b : option Z) : bool :=
  match a, b with
  | None, None => true
  | Some x, Some y => Z.eqb x y
  | _, _ => false
  end.
