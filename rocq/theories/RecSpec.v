(** * Junctions in a row *)

From Verif Require Import Base NetModel.

Fixpoint linked (js : list gnode) : Prop :=
  match js with
  | j :: ((k :: _) as t) => g_dstr j = Some (g_id k) /\ linked t
  | _ => True
  end.

(** [js] are junctions among the nodes, each leading straight into the next. *)
Definition junctions_in_a_row (nodes js : list gnode) : Prop :=
  (forall j, In j js -> In j nodes /\ g_junction j = true) /\ linked js.
