(** * Inputs on which nothing overflows *)

From Coq Require Import QArith Qabs.
From Verif Require Import Base Float64 NetworkModel PipelineModel.
Local Open Scope Z_scope.

(** At most 2^e in size. *)
Definition at_most (e : Z) (x : b64) : Prop := (Qabs (b64_Q x) <= inject_Z (2 ^ e))%Q.

(** The number of nodes that start with water. *)
Definition wet_nodes (ns : list (@node b64)) : Z :=
  Z.of_nat (length (filter (fun n => negb (Qeq_bool (b64_Q (n_water n)) 0)) ns)).
