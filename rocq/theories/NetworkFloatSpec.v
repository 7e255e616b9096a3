(** * Reading a computed final state as exact numbers *)

From Coq Require Import QArith.
From Verif Require Import Base Float64 NetworkModel NetworkSpec PipelineModel.

(** The number written for one node; nothing written counts as 0. *)
Definition written (f : @event b64 -> b64) (p : @node b64 * option (@event b64)) : Q :=
  match snd p with Some e => b64_Q (f e) | None => 0%Q end.

(** One plus the number of nodes directly upstream. *)
Definition fan_in (ns : list (@node b64)) (n : @node b64) : Q :=
  inject_Z (1 + Z.of_nat (length (direct_upstream ns (n_id n)))).
