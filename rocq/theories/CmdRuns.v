(** * Runs of the commands on a small terrain *)

From Coq Require Import QArith Qabs String.
From Verif Require Import Base BaseProofs Num Float64 Dict DemModel LabelModel VectorModel BluespotModel BluespotThms NetModel
  NetworkModel RainModel RainThms PipelineModel HypsModel ApproxModel CompleteModel CompleteThms OgrModel OgrSpec CmdModel CmdSpec.
Local Open Scope Z_scope.
Local Open Scope list_scope.

(** network to finalbluespots after the run a of the complete command on the same terrain, in a
    new datasource with the default names. *)
Definition steps_after (a : complete_all_out) (mm : Q) (attribute : string) : res (store * raster Q * raster Z) :=
  vector_steps 20 ex_gt rain_dem (do_flowdir (ca_dem a)) (bo_labeled (ca_bluespots a)) mm 1%Q attribute step_names
    (write_features None "pourpoints" (map pourpoint_props (ca_pourpoints a))).

(** The value of an attribute of the feature with this nodeid. *)
Definition value_at (ds : store) (layername : string) (node : Z) (attribute : string) : option Q :=
  match read_features ds (Some layername) with
  | Ok gs =>
      match find (fun g => match dget String.eqb g "nodeid"%string with Some (Some (VInt z)) => z =? node | _ => false end) gs with
      | Some g => match dget String.eqb g attribute with Some (Some (VReal q)) => Some q | _ => None end
      | None => None
      end
  | _ => None
  end.

Definition is_value (o : option Q) (q : Q) : bool := match o with Some x => Qeq_bool x q | None => false end.
Lemma is_value_ok : forall o q, is_value o q = true -> exists x, o = Some x /\ (x == q)%Q.
Proof. intros [x|] q H; [|discriminate H]. exists x. split; [reflexivity|]. apply Qeq_bool_eq. exact H. Qed.

Definition steps_pass (r : res (store * raster Q * raster Z)) (p : store -> bool) : bool :=
  match r with Ok (ds, _, _) => p ds | _ => false end.

(** The volumes written to an attribute that holds the capacities. *)
Theorem capacity_overwritten : exists a ds d l ds' d' l' v c v' s',
  dry_run 10000%Q = Ok a /\ steps_after a 10000%Q "inputv" = Ok (ds, d, l) /\ steps_after a 10000%Q "bspot_vol" = Ok (ds', d', l') /\
  value_at ds "nodes" 1 "bspot_vol" = Some c /\ (c == 8)%Q /\
  value_at ds "finalvolumes" 1 "v" = Some v /\ (v == 8)%Q /\
  value_at ds' "finalvolumes" 1 "v" = Some v' /\ (v' == 80)%Q /\
  value_at ds' "finalvolumes" 1 "spillv" = Some s' /\ (s' == 0)%Q.
Proof.
  assert (X : at_run (dry_run 10000%Q) (fun a =>
     steps_pass (steps_after a 10000%Q "inputv") (fun ds => is_value (value_at ds "nodes" 1 "bspot_vol") 8 && is_value (value_at ds "finalvolumes" 1 "v") 8) &&
     steps_pass (steps_after a 10000%Q "bspot_vol") (fun ds => is_value (value_at ds "finalvolumes" 1 "v") 80 && is_value (value_at ds "finalvolumes" 1 "spillv") 0)) = true)
    by (vm_compute; reflexivity).
  destruct (dry_run 10000%Q) as [a| |] eqn:E0; try discriminate X. cbn [at_run] in X. apply andb_prop in X. destruct X as (X1 & X2).
  destruct (steps_after a 10000%Q "inputv") as [[[ds d] l]| |] eqn:E1; try discriminate X1. cbn [steps_pass] in X1.
  destruct (steps_after a 10000%Q "bspot_vol") as [[[ds' d'] l']| |] eqn:E2; try discriminate X2. cbn [steps_pass] in X2.
  apply andb_prop in X1. destruct X1 as (A & B). apply andb_prop in X2. destruct X2 as (C & D).
  apply is_value_ok in A. destruct A as (c & A1 & A2). apply is_value_ok in B. destruct B as (v & B1 & B2).
  apply is_value_ok in C. destruct C as (v' & C1 & C2). apply is_value_ok in D. destruct D as (s' & D1 & D2).
  exists a, ds, d, l, ds', d', l', v, c, v', s'. split; [reflexivity|]. split; [exact E1|]. split; [exact E2|].
  split; [exact A1|]. split; [exact A2|]. split; [exact B1|]. split; [exact B2|]. split; [exact C1|]. split; [exact C2|].
  split; [exact D1|exact D2].
Qed.

(** No rain. *)
Theorem no_rain_steps : exists a, dry_run 0%Q = Ok a /\ steps_after a 0%Q "inputv" = Exc UsageError.
Proof.
  assert (X : at_run (dry_run 0%Q) (fun a => match steps_after a 0%Q "inputv" with Exc UsageError => true | _ => false end) = true)
    by (vm_compute; reflexivity).
  destruct (dry_run 0%Q) as [a| |]; try discriminate X. cbn [at_run] in X. exists a. split; [reflexivity|].
  destruct (steps_after a 0%Q "inputv") as [r|e|]; try discriminate X. destruct e; try discriminate X. reflexivity.
Qed.

(** Both sets of names satisfy the condition, also in a datasource with other layers. *)
Lemma names_example : names_ok step_names [] /\ names_ok complete_names [("watersheds"%string, []); ("bluespots"%string, [])].
Proof.
  split; (split; [|split]).
  1,4: cbn; repeat (constructor; [cbn; intuition discriminate|]); constructor.
  1,3: cbn; intuition discriminate.
  - intros w [].
  - intros w [<-|[<-|[]]]; cbn; intuition discriminate.
Qed.
