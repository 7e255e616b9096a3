(** * How far binary64 results may be from exact ones *)

From Coq Require Import QArith Qabs.
From Verif Require Import Base Float64 NetworkModel NetworkSpec PipelineModel NetworkFloatSpec.
Local Open Scope Z_scope.

(** [x] is [y] up to at most [k] roundings to 53 bits. *)
Definition within (k : Z) (x y : Q) : Prop :=
  ((1 - (1 # 2 ^ 53)) ^ k * y <= x <= (1 + (1 # 2 ^ 53)) ^ k * y)%Q.

(** Large enough for products of a few such numbers not to underflow. *)
Definition ordinary (x : b64) : Prop := finite64 x /\ (1 # 2 ^ 300 <= Qabs (b64_Q x))%Q.

(** The area of a cell. *)
Definition area_Q (t1 t5 : b64) : Q := (Qabs (b64_Q t1) * Qabs (b64_Q t5))%Q.

(** Following 'dstrnodeid' from node [a] leads to node [b] (or [a] is [b]). *)
Inductive reaches {T} (ns : list (@node T)) (a : Z) : Z -> Prop :=
| rc_here : reaches ns a a
| rc_on : forall n d, reaches ns a (n_id n) -> In n ns -> n_dstr n = Some d -> reaches ns a d.

(** The same node in two networks. *)
Definition same_place {T T'} (a : @node T) (b : @node T') : Prop := n_id a = n_id b /\ n_dstr a = n_dstr b.

(** The result for one node: computed, and exact. *)
Definition both : Type := ((@node b64 * option (@event b64)) * (@node Q * option (@event Q)))%type.
Definition both_id (x : both) : Z := n_id (fst (fst x)).

(** What one node adds to the error: the differences between its inputs and the rounding of its own balance. *)
Definition node_error (fs : list (@node b64)) (x : both) : Q :=
  (Qabs (b64_Q (n_water (fst (fst x))) - n_water (fst (snd x))) + Qabs (b64_Q (n_cap (fst (fst x))) - n_cap (fst (snd x))) +
   (1 # 2 ^ 52) * (fan_in fs (fst (fst x)) * (written e_vol (fst x) + written e_spill (fst x))))%Q.
