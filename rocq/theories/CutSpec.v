(** * Parts of a network above a node *)

From Coq Require Import QArith.
From Verif Require Import Base NetworkModel NetworkSpec RainModel.

(** [part_above ns id q]: the nodes marked by q form a part of the network that drains to node id
    without leaving the part: every marked node is node id itself or has a marked downstream node. *)
Definition part_above {T} (ns : list (@node T)) (id : Z) (q : Z -> bool) : Prop :=
  forall m, In m ns -> q (n_id m) = true -> n_id m = id \/ exists d, n_dstr m = Some d /\ q d = true.

(** The rain on the marked nodes less what they can hold. *)
Definition surplus (ns : list (@node Q)) (q : Z -> bool) : Q :=
  Qsum (map (fun m => n_water m - n_cap m)%Q (filter (fun m => q (n_id m)) ns)).

(** What the marked nodes can hold. *)
Definition held (ns : list (@node Q)) (q : Z -> bool) : Q :=
  Qsum (map n_cap (filter (fun m => q (n_id m)) ns)).

(** The same node with a weighted mean of the numbers of two nodes. *)
Definition mix (w : Q) (p : @node Q * @node Q) : @node Q :=
  mkNode (n_id (fst p)) (n_dstr (fst p)) (w * n_water (fst p) + (1 - w) * n_water (snd p))%Q
    (w * n_cap (fst p) + (1 - w) * n_cap (snd p))%Q.
