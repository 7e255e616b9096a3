(** * Comparing the complete command in floats and in exact arithmetic *)

From Coq Require Import QArith.
From Verif Require Import Base Num Float64 NetworkModel RainModel PipelineModel FloatPipeModel RoundSpec.
Local Open Scope Z_scope.

(** No initial volume, capacity or spill overflowed. *)
Definition no_overflow (o : float_out) : Prop :=
  (forall n v, In (n, v) (fo_nodes o) -> finite64 v /\ finite64 (nf_vol n)) /\
  forall n e, In (n, Some e) (fo_final o) -> finite64 (e_spill e).

(** The same node: id, downstream node, kind and cell. *)
Definition same_feature {T T'} (a : @node_feature T * T) (b : @node_feature T' * T') : Prop :=
  nf_id (fst a) = nf_id (fst b) /\ nf_dstr (fst a) = nf_dstr (fst b) /\ nf_junction (fst a) = nf_junction (fst b) /\
  nf_row (fst a) = nf_row (fst b) /\ nf_col (fst a) = nf_col (fst b).

(** The initial volume of a node up to six roundings and its capacity up to [N + 1]. *)
Definition close (N : Z) (a : @node_feature b64 * b64) (b : @node_feature Q * Q) : Prop :=
  within 6 (b64_Q (snd a)) (snd b) /\ within (N + 1) (b64_Q (nf_vol (fst a))) (nf_vol (fst b)).
