(** * C75: network, initvolumes, finalvolumes, hyps, finallevels and finalbluespots on files

    vector_steps: these commands one after the other on one datasource (CmdModel), attributes
    looked up by name; layer_shows ds n attrs rs: the layer n has a feature for every element
    of rs with the attributes attrs. *)

From Coq Require Import QArith String.
From Verif Require Import Base Num Float64 DemModel LabelModel VectorModel BluespotModel BluespotThms NetworkModel RainModel PipelineModel ApproxModel
  CompleteModel CompleteThms OgrModel OgrSpec CmdModel CmdSpec CmdThms CmdRuns.
Local Open Scope Z_scope.
Local Open Scope list_scope.

(** Full statement: the commands, run one after the other on the files, give the layers and the
    final rasters of the complete command, whatever names are chosen for layers and for the
    attribute with the volumes.  Missing: no rain, and volumes written over an attribute that
    is still needed (both refuted below).  Exact arithmetic. *)
Theorem C75_steps_as_complete_partial : forall sp cc fuel t dem f use_accum mm zres a attribute L ws,
  complete_all sp cc fuel t dem f use_accum mm zres = Ok a ->
  names_ok L ws -> ~ In attribute reserved -> ~ (mm == 0)%Q ->
  exists ds, vector_steps fuel t dem (do_flowdir (ca_dem a)) (bo_labeled (ca_bluespots a)) mm zres attribute L
               (write_features (after ws) (l_pourpoints L) (map pourpoint_props (ca_pourpoints a))) =
               Ok (ds, fo_depths (ca_finish a), fo_labels (ca_finish a)) /\
    layer_shows ds (l_pourpoints L) pourpoint_props (ca_pourpoints a) /\
    layer_shows ds (l_nodes L) node_attrs (map fst (co_nodes (ca_volumes a))) /\
    layer_shows ds (l_streams L) stream_attrs (co_streams (ca_volumes a)) /\
    layer_shows ds (l_init L) (volume_attrs attribute) (co_nodes (ca_volumes a)) /\
    layer_shows ds (l_final L) final_attrs (co_final (ca_volumes a)) /\
    layer_shows ds (l_hyps L) hyps_attrs (fo_hyps (ca_finish a)) /\
    layer_shows ds (l_levels L) level_attrs (fo_levels (ca_finish a)).
Proof. exact steps_as_complete. Qed.
Print Assumptions C75_steps_as_complete_partial.

(** initvolumes -out_attribute bspot_vol is accepted: then node 1 keeps 80 m3 of water in a
    bluespot of 8 m3 and nothing is spilled. *)
Theorem C75_attribute_refuted : exists a ds d l ds' d' l' v c v' s',
  dry_run 10000%Q = Ok a /\ steps_after a 10000%Q "inputv" = Ok (ds, d, l) /\ steps_after a 10000%Q "bspot_vol" = Ok (ds', d', l') /\
  value_at ds "nodes" 1 "bspot_vol" = Some c /\ (c == 8)%Q /\
  value_at ds "finalvolumes" 1 "v" = Some v /\ (v == 8)%Q /\
  value_at ds' "finalvolumes" 1 "v" = Some v' /\ (v' == 80)%Q /\
  value_at ds' "finalvolumes" 1 "spillv" = Some s' /\ (s' == 0)%Q.
Proof. exact capacity_overwritten. Qed.
Print Assumptions C75_attribute_refuted.

Theorem C75_no_rain_refuted : exists a, dry_run 0%Q = Ok a /\ steps_after a 0%Q "inputv" = Exc UsageError.
Proof. exact no_rain_steps. Qed.
Print Assumptions C75_no_rain_refuted.

(** The names the commands and the complete command use, in a new datasource and in one with
    other layers; a run of the complete command. *)
Example C75_example : names_ok step_names [] /\ names_ok complete_names [("watersheds"%string, []); ("bluespots"%string, [])] /\
  ~ In "inputv"%string reserved /\ ~ (10000 == 0)%Q /\ exists a, dry_run 10000%Q = Ok a.
Proof.
  split; [exact (proj1 names_example)|]. split; [exact (proj2 names_example)|].
  split; [cbn; intuition discriminate|]. split; [discriminate|].
  destruct capacity_overwritten as (a & _ & _ & _ & _ & _ & _ & _ & _ & _ & _ & E & _). exists a. exact E.
Qed.
