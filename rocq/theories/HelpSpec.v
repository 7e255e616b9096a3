(** * A network with less rain and larger bluespots *)

From Coq Require Import QArith.
From Verif Require Import Base NetworkModel.

(** The node with r less rain and c more room, where r and c are given by node id. *)
Definition helped (r c : Z -> Q) (n : @node Q) : @node Q :=
  mkNode (n_id n) (n_dstr n) (n_water n - r (n_id n))%Q (n_cap n + c (n_id n))%Q.

(** Two such changes together. *)
Definition both (a b : Z -> Q) (i : Z) : Q := (a i + b i)%Q.
