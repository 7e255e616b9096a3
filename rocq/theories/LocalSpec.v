(** * Upstream and downstream in a network, and changes between two runs *)

From Coq Require Import QArith Qabs.
From Verif Require Import Base NetworkModel NetworkSpec RainModel.

(** [drains_to ns a b]: following 'dstrnodeid' from node a leads to node b (or a is b). *)
Inductive drains_to {T} (ns : list (@node T)) : Z -> Z -> Prop :=
| dt_here : forall a, drains_to ns a a
| dt_step : forall n d b, In n ns -> n_dstr n = Some d -> drains_to ns d b -> drains_to ns (n_id n) b.

(** The same node with other numbers. *)
Definition same_edges (a b : @node Q) : Prop := n_id a = n_id b /\ n_dstr a = n_dstr b.

(** How much the input of a node changes: its rain, and its capacity twice (it counts for the
    volume and for the spill). *)
Definition input_change (p : @node Q * @node Q) : Q :=
  (Qabs (n_water (snd p) - n_water (fst p)) + 2 * Qabs (n_cap (snd p) - n_cap (fst p)))%Q.

Definition vol_change (p : (@node Q * option (@event Q)) * (@node Q * option (@event Q))) : Q :=
  Qabs (out_vol (snd p) - out_vol (fst p)).
Definition spill_change (p : (@node Q * option (@event Q)) * (@node Q * option (@event Q))) : Q :=
  Qabs (out_spill (snd p) - out_spill (fst p)).

(** The area draining to the marked nodes. *)
Definition drained_area (up : Z -> bool) (nodes : list (@RainModel.node_feature Q * Q)) : Q :=
  Qsum (map (fun p => RainModel.nf_wshed (fst p)) (filter (fun p => up (RainModel.nf_id (fst p))) nodes)).
