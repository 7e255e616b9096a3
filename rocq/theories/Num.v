(** * Numbers

    The code computes with Python floats / numpy float32 and float64.  The model
    is written against a record of operations, so that the same definitions can
    be run with exact rationals and with IEEE binary64. *)

From Coq Require Import QArith.
From Verif Require Import Base.

Record NumOps (T : Type) := mkOps {
  nltb : T -> T -> bool;   (* a < b   *)
  nleb : T -> T -> bool;   (* a <= b  *)
  neqb : T -> T -> bool;   (* a == b  *)
  nadd : T -> T -> T;
  nsub : T -> T -> T;
  nmul : T -> T -> T;
  ndiv : T -> T -> T;
  nofZ : Z -> T            (* an integer literal as a float *)
}.
Arguments nltb {T}.
Arguments nleb {T}.
Arguments neqb {T}.
Arguments nadd {T}.
Arguments nsub {T}.
Arguments nmul {T}.
Arguments ndiv {T}.
Arguments nofZ {T}.

(** Python builtin [min(a, b)]: the first argument unless the second is smaller. *)
Definition pymin {T} (O : NumOps T) (a b : T) : T := if nltb O b a then b else a.

(** Python builtin [max(a, b)]: the first argument unless the second is larger. *)
Definition pymax {T} (O : NumOps T) (a b : T) : T := if nltb O a b then b else a.

(** Exact rationals. *)
Definition Qltb (a b : Q) : bool := negb (Qle_bool b a).

Definition QOps : NumOps Q :=
  mkOps Q Qltb Qle_bool Qeq_bool Qplus Qminus Qmult Qdiv inject_Z.

(** Integers (examples only; division is not used there). *)
Definition ZOps : NumOps Z :=
  mkOps Z Z.ltb Z.leb Z.eqb Z.add Z.sub Z.mul Z.div (fun z => z).
