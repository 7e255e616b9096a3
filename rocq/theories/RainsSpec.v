(** * Rain in parts *)

From Coq Require Import QArith.
From Verif Require Import Base Num NetworkModel NetworkSpec.

(** What a rain leaves for the next one: the node with the next rain and the room that is left. *)
Definition next_rain (w : Z -> Q) (p : @node Q * option (@event Q)) : @node Q :=
  mkNode (n_id (fst p)) (n_dstr (fst p)) (w (n_id (fst p))) (n_cap (fst p) - out_vol p)%Q.

(** The node with both rains at once. *)
Definition both_rains (w : Z -> Q) (n : @node Q) : @node Q :=
  mkNode (n_id n) (n_dstr n) (n_water n + w (n_id n))%Q (n_cap n).

(** The node with k times the rain. *)
Definition times_rain (k : Q) (n : @node Q) : @node Q :=
  mkNode (n_id n) (n_dstr n) (k * n_water n)%Q (n_cap n).

(** A rain and then others, each with the room the ones before it left: the results of all runs. *)
Fixpoint in_turn (fuel : nat) (fs : list (@node Q)) (ws : list (Z -> Q)) : res (list (list (@node Q * option (@event Q)))) :=
  match ws with
  | [] => out <- process QOps fuel fs ;; Ok [out]
  | w :: ws => out <- process QOps fuel fs ;; rest <- in_turn fuel (map (next_rain w) out) ws ;; Ok (out :: rest)
  end.

(** All rains of a list on a node. *)
Definition all_rain (ws : list (Z -> Q)) (i : Z) : Q := Qsum (map (fun w => w i) ws).

(** What the runs say about node i, added up. *)
Definition at_node (g : @node Q * option (@event Q) -> Q) (i : Z) (out : list (@node Q * option (@event Q))) : Q :=
  match find (fun p => n_id (fst p) =? i) out with Some p => g p | None => 0%Q end.
Definition in_all (g : @node Q * option (@event Q) -> Q) (i : Z) (outs : list (list (@node Q * option (@event Q)))) : Q :=
  Qsum (map (at_node g i) outs).
