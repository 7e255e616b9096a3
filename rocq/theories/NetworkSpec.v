(** * What a final state is

    Stated on the list of nodes only, independent of how network.py walks it. *)

From Coq Require Import QArith.
From Verif Require Import Base NetworkModel.

Section Topology.
Context {T : Type}.
Notation node := (@node T).

(** [root_of ns a r]: following 'dstrnodeid' from node a ends at node r, which
    has no downstream node. *)
Inductive root_of (ns : list node) : Z -> Z -> Prop :=
| ro_root : forall n, In n ns -> n_dstr n = None -> root_of ns (n_id n) (n_id n)
| ro_step : forall n d r, In n ns -> n_dstr n = Some d -> root_of ns d r -> root_of ns (n_id n) r.

(** Every downstream reference is to a node of the network, and following them
    always ends. *)
Definition acyclic_closed (ns : list node) : Prop :=
  forall n, In n ns -> exists r, root_of ns (n_id n) r.

Definition unique_ids (ns : list node) : Prop := NoDup (map n_id ns).

(** The nodes directly upstream of [id], in supply order. *)
Definition is_dstr (id : Z) (n : node) : bool :=
  match n_dstr n with Some d => Z.eqb d id | None => false end.
Definition direct_upstream (ns : list node) (id : Z) : list node := filter (is_dstr id) ns.
End Topology.

Fixpoint Qsum (l : list Q) : Q := match l with [] => 0%Q | x :: t => (x + Qsum t)%Q end.

(** The local balance of every settled node (exact arithmetic). *)
Definition balance (ns : list (@node Q)) (vol spill : Z -> Q) : Prop :=
  forall n, In n ns -> (exists r, root_of ns (n_id n) r) ->
  let total := (n_water n + Qsum (map (fun u => spill (n_id u)) (direct_upstream ns (n_id n))))%Q in
  (vol (n_id n) == if Qlt_le_dec (n_cap n) total then n_cap n else total)%Q /\
  (spill (n_id n) == if Qlt_le_dec (n_cap n) total then total - n_cap n else 0)%Q.

Definition is_root {T} (n : @node T) : bool := match n_dstr n with None => true | Some _ => false end.

(** Final volume and spill as written for one node; nothing written counts as 0. *)
Definition out_vol (p : @node Q * option (@event Q)) : Q := match snd p with Some e => e_vol e | None => 0%Q end.
Definition out_spill (p : @node Q * option (@event Q)) : Q := match snd p with Some e => e_spill e | None => 0%Q end.
