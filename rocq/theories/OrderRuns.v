(** * Runs with reordered layers *)

From Coq Require Import QArith Qabs Permutation String.
From Verif Require Import Base BaseProofs Num Float64 Float64Proofs Dict FillSpec FillThms DemModel DemProofs LabelModel LabelSpec CompSpec CompProofs VectorModel BluespotModel
  BluespotSpec BluespotThms NetModel NetworkModel NetworkSpec NetworkThms RainModel RainThms PipelineModel HypsModel ApproxModel CompleteModel CompleteThms OgrModel OgrSpec
  CmdModel CmdSpec CmdRuns JoinThms OrderModel OrderSpec OrderThms.
Local Open Scope Z_scope.
Local Open Scope list_scope.

(** On the layer that complete writes, in any order, the network on features is the network
    on cells. *)
Theorem network_features : forall cc, labels_components cc -> forall sp t dem f (use_accum : bool),
  size_ok sp dem -> dem32 dem -> dem_finite dem -> nrows dem * ncols dem <= 2 ^ 53 ->
  square_cells (gt1 t) (gt5 t) = true ->
  exists k, forall fuel, (fuel >= k)%nat -> forall mm zres, (0 < zres)%Q ->
  exists a, complete_all sp cc fuel t dem f use_accum mm zres = Ok a /\
    forall fs, Permutation (map pourpoint_props (ca_pourpoints a)) fs ->
    forall fuel' nodes,
      pourpoint_network fuel' (do_flowdir (ca_dem a)) (bo_labeled (ca_bluespots a))
        (map (fun p => (pp_row p, pp_col p)) (ca_pourpoints a)) (Some 0) = Ok nodes ->
      exists nodes', pourpoint_network_features fuel' (do_flowdir (ca_dem a)) (bo_labeled (ca_bluespots a)) fs (Some 0) = Ok nodes' /\
        Permutation nodes nodes'.
Proof.
  intros cc Hcc sp t dem f use_accum SO H32 HF Big Sq.
  destruct (record_keys cc Hcc sp t dem f use_accum SO H32 HF Big Sq) as (k & W). exists k. intros fuel Fu mm zres Zr.
  destruct (W fuel Fu mm zres Zr) as (a & E & _ & I & _). exists a. split; [exact E|]. intros fs P fuel' nodes H.
  assert (I' : map pp_id (ca_pourpoints a) = zseq 0 (length (ca_pourpoints a))).
  { rewrite I. f_equal. apply (f_equal (@length Z)) in I. rewrite map_length, zseq_length in I. symmetry. exact I. }
  destruct (features_as_cells _ I' fuel' (do_flowdir (ca_dem a)) (bo_labeled (ca_bluespots a)) (Some 0)) as (X & _). rewrite <- X in H.
  exact (features_order _ _ _ _ _ _ _ P H).
Qed.

(** Three bluespots.  The second spills to the first, the first and the third off the raster. *)
Definition three_dem : raster b64 := zrows [[9;9;9;9;9;9;9;9]; [6;1;1;7;5;8;4;5]; [9;9;9;9;9;9;9;9]].
Lemma three_ok : dem32 three_dem /\ dem_finite three_dem.
Proof. apply dem_ok. vm_compute. reflexivity. Qed.

Definition three_run := complete_all false cc_memo 30 ex_gt three_dem all_pass true 2500%Q 1%Q.
Definition three_steps (a : complete_all_out) (pourpoints : list props) : res (store * raster Q * raster Z) :=
  vector_steps 30 ex_gt three_dem (do_flowdir (ca_dem a)) (bo_labeled (ca_bluespots a)) 2500%Q 1%Q "inputv" step_names
    (write_features None "pourpoints" pourpoints).

Definition run_pass (r : res (store * raster Q * raster Z)) (p : store -> raster Q -> bool) : bool :=
  match r with Ok (ds, d, _) => p ds d | _ => false end.
Definition swapped (l : list props) : list props := match l with [a; b; c; d] => [a; b; d; c] | _ => l end.
Lemma swapped_perm : forall l, Permutation l (swapped l).
Proof.
  intros [|a [|b [|c [|d [|e l]]]]]; cbn; try apply Permutation_refl. do 2 constructor. apply perm_swap.
Qed.

Theorem network_order : exists a pps ds d l ds' d' l' v v',
  three_run = Ok a /\ Permutation (map pourpoint_props (ca_pourpoints a)) pps /\
  three_steps a (map pourpoint_props (ca_pourpoints a)) = Ok (ds, d, l) /\ three_steps a pps = Ok (ds', d', l') /\
  value_at ds "finalvolumes" 1 "v" = Some v /\ (v == 32)%Q /\ value_at ds' "finalvolumes" 1 "v" = Some v' /\ (v' == 40)%Q /\
  (at_ d (1, 1)%Z == 0)%Q /\ (at_ d' (1, 1)%Z == 5)%Q.
Proof.
  assert (X : at_run three_run (fun a => let pps := map pourpoint_props (ca_pourpoints a) in
     run_pass (three_steps a pps) (fun ds d => is_value (value_at ds "finalvolumes" 1 "v") 32 && Qeq_bool (at_ d (1, 1)%Z) 0) &&
     run_pass (three_steps a (swapped pps)) (fun ds d => is_value (value_at ds "finalvolumes" 1 "v") 40 && Qeq_bool (at_ d (1, 1)%Z) 5)) = true)
    by (vm_compute; reflexivity).
  destruct three_run as [a| |] eqn:E0; try discriminate X. cbn [at_run] in X. cbv zeta in X. apply andb_prop in X. destruct X as (X1 & X2).
  destruct (three_steps a (map pourpoint_props (ca_pourpoints a))) as [[[ds d] l]| |] eqn:E1; try discriminate X1. cbn [run_pass] in X1.
  destruct (three_steps a (swapped (map pourpoint_props (ca_pourpoints a)))) as [[[ds' d'] l']| |] eqn:E2; try discriminate X2. cbn [run_pass] in X2.
  apply andb_prop in X1. destruct X1 as (A & B). apply andb_prop in X2. destruct X2 as (C & D).
  apply is_value_ok in A. destruct A as (v & A1 & A2). apply is_value_ok in C. destruct C as (v' & C1 & C2).
  apply Qeq_bool_eq in B. apply Qeq_bool_eq in D.
  exists a, (swapped (map pourpoint_props (ca_pourpoints a))), ds, d, l, ds', d', l', v, v'.
  split; [reflexivity|]. split; [apply swapped_perm|]. split; [exact E1|]. split; [exact E2|].
  split; [exact A1|]. split; [exact A2|]. split; [exact C1|]. split; [exact C2|]. split; [exact B|exact D].
Qed.

(** 0.1, 0.2 and 0.3 spill to one node. *)
Definition tenth (z : Z) : b64 := f64_div (f64_ofZ z) (f64_ofZ 10).
Definition sum_net : list (@node b64) :=
  [mkNode 1 (Some 4) (tenth 1) (f64_ofZ 0); mkNode 2 (Some 4) (tenth 2) (f64_ofZ 0); mkNode 3 (Some 4) (tenth 3) (f64_ofZ 0);
   mkNode 4 None (f64_ofZ 0) (f64_ofZ 100)].
Definition at_four (r : res (list (@node b64 * option (@event b64)))) : option (@node b64 * @event b64) :=
  match r with
  | Ok out => match find (fun p => n_id (fst p) =? 4) out with Some (n, Some e) => Some (n, e) | _ => None end
  | _ => None
  end.
Lemma at_four_ok : forall r n e, at_four r = Some (n, e) -> exists out, r = Ok out /\ In (n, Some e) out /\ n_id n = 4.
Proof.
  intros [out|x|] n e H; try discriminate H. cbn in H. exists out. split; [reflexivity|].
  destruct (find (fun p => n_id (fst p) =? 4) out) as [[n0 [e0|]]|] eqn:F; try discriminate H. injection H as <- <-.
  apply find_some in F. destruct F as (I & N). split; [exact I|]. apply Z.eqb_eq. exact N.
Qed.

Theorem float_order : exists ns ns' out out' n e e', unique_ids ns /\ acyclic_closed ns /\ Permutation ns ns' /\
  process F64Ops (length ns) ns = Ok out /\ process F64Ops (length ns') ns' = Ok out' /\
  In (n, Some e) out /\ In (n, Some e') out' /\ e_vol e <> e_vol e'.
Proof.
  assert (U : unique_ids sum_net) by (apply ids_ok_ok; vm_compute; reflexivity).
  assert (X : match at_four (process F64Ops 4 sum_net), at_four (process F64Ops 4 (rev sum_net)) with
              | Some (_, e), Some (_, e') => rank (e_vol e') <? rank (e_vol e) | _, _ => false end = true) by (vm_compute; reflexivity).
  destruct (at_four (process F64Ops 4 sum_net)) as [[n e]|] eqn:E; [|discriminate X].
  destruct (at_four (process F64Ops 4 (rev sum_net))) as [[n' e']|] eqn:E'; [|discriminate X].
  apply at_four_ok in E. destruct E as (out & E & I & N). apply at_four_ok in E'. destruct E' as (out' & E' & I' & N').
  assert (n' = n).
  { assert (P : forall fuel ns out n o, unique_ids ns -> process F64Ops fuel ns = Ok out -> In (n, o) out -> In n ns).
    { intros fuel ns o m q Un Ep Im. destruct (process_spec _ _ _ _ Ep) as (M & _). rewrite index_unique in M by exact Un.
      rewrite <- M. apply (in_map fst) in Im. exact Im. }
    assert (U' : unique_ids (rev sum_net)) by (eapply Permutation_NoDup; [apply Permutation_map, Permutation_rev|exact U]).
    eapply (NetworkProofs.NoDup_map_inj n_id sum_net); [exact U| | |congruence].
    - apply in_rev. exact (P _ _ _ _ _ U' E' I').
    - exact (P _ _ _ _ _ U E I). }
  subst n'. exists sum_net, (rev sum_net), out, out', n, e, e'.
  split; [exact U|]. split; [apply acyclic_ok; vm_compute; reflexivity|]. split; [apply Permutation_rev|].
  split; [exact E|]. split; [exact E'|]. split; [exact I|]. split; [exact I'|].
  intros Y. rewrite Y, Z.ltb_irrefl in X. discriminate X.
Qed.

(** The layers of the run above. *)
Definition layer_of (ds : store) (n : string) : list props := match read_features ds (Some n) with Ok fs => fs | _ => [] end.
Fixpoint all_new (l : list Z) : bool := match l with [] => true | x :: t => negb (existsb (Z.eqb x) t) && all_new t end.
Definition distinct_ids (read : props -> string -> res Z) (k : string) (fs : list props) : bool :=
  match mmap (fun f => read f k) fs with Ok ids => all_new ids && (3 <? Z.of_nat (length ids)) | _ => false end.

Lemma all_new_ok : forall l, all_new l = true -> NoDup l.
Proof.
  induction l as [|x l IH]; intros H; [constructor|]. cbn in H. apply andb_prop in H. destruct H as (A & B). constructor; [|apply IH; exact B].
  intros I. apply negb_true_iff in A. rewrite (proj2 (existsb_exists _ _)) in A; [discriminate A|]. exists x. split; [exact I|apply Z.eqb_refl].
Qed.

Lemma distinct_ids_ok : forall read k fs, distinct_ids read k fs = true -> distinct read k fs /\ (3 < length fs)%nat.
Proof.
  intros read k fs H. unfold distinct_ids in H. destruct (mmap (fun f => read f k) fs) as [ids| |] eqn:E; try discriminate H.
  apply andb_prop in H. destruct H as (A & B). apply all_new_ok in A. apply Z.ltb_lt in B. split; [|rewrite <- (mmap_length _ _ _ E); lia].
  unfold distinct. apply mmap_all in E. replace (map (fun f => read f k) fs) with (map (@Ok Z) ids).
  - apply FinFun.Injective_map_NoDup; [intros x y X; congruence|exact A].
  - clear A B. induction E as [|f i fs ids X F IH]; [reflexivity|]. cbn [map]. rewrite X, IH. reflexivity.
Qed.

Definition worked {A} (r : res A) : bool := match r with Ok _ => true | _ => false end.
Lemma worked_ok : forall {A} (r : res A), worked r = true -> exists x, r = Ok x.
Proof. intros A [x| |] H; try discriminate H. eauto. Qed.

Theorem three_layers : exists a ds d l, three_run = Ok a /\ three_steps a (map pourpoint_props (ca_pourpoints a)) = Ok (ds, d, l) /\
  (exists out, simple_volume_tool 2500%Q "inputv" (layer_of ds "nodes") = Ok out) /\
  distinct get_index "nodeid" (layer_of ds "initvolumes") /\ (3 < length (layer_of ds "initvolumes"))%nat /\
  (exists out, final_state_tool "inputv" (layer_of ds "initvolumes") = Ok out) /\
  distinct get_index "bspot_id" (layer_of ds "pourpoints") /\ (3 < length (layer_of ds "pourpoints"))%nat /\
  (exists out, hyps_tool ex_gt (bo_labeled (ca_bluespots a)) three_dem 1%Q (layer_of ds "pourpoints") = Ok out) /\
  distinct get_int "bspot_id" (layer_of ds "hyps") /\
  (exists out, levels_tool (layer_of ds "finalvolumes") (layer_of ds "hyps") = Ok out) /\
  distinct get_int "bspot_id" (filter is_pp (layer_of ds "finallevels")) /\
  (exists out, bluespots_tool (bo_labeled (ca_bluespots a)) (layer_of ds "finallevels") three_dem = Ok out).
Proof.
  assert (X : at_run three_run (fun a => run_pass (three_steps a (map pourpoint_props (ca_pourpoints a))) (fun ds _ =>
     worked (simple_volume_tool 2500%Q "inputv" (layer_of ds "nodes")) &&
     (distinct_ids get_index "nodeid" (layer_of ds "initvolumes") && (worked (final_state_tool "inputv" (layer_of ds "initvolumes")) &&
     (distinct_ids get_index "bspot_id" (layer_of ds "pourpoints") &&
       (worked (hyps_tool ex_gt (bo_labeled (ca_bluespots a)) three_dem 1%Q (layer_of ds "pourpoints")) &&
     (distinct_ids get_int "bspot_id" (layer_of ds "hyps") && (worked (levels_tool (layer_of ds "finalvolumes") (layer_of ds "hyps")) &&
     (distinct_ids get_int "bspot_id" (filter is_pp (layer_of ds "finallevels")) &&
       worked (bluespots_tool (bo_labeled (ca_bluespots a)) (layer_of ds "finallevels") three_dem)))))))))) = true)
    by (vm_compute; reflexivity).
  destruct three_run as [a| |] eqn:E0; try discriminate X. cbn [at_run] in X.
  destruct (three_steps a (map pourpoint_props (ca_pourpoints a))) as [[[ds d] l]| |] eqn:E1; try discriminate X. cbn [run_pass] in X.
  apply andb_prop in X. destruct X as (A1 & X). apply andb_prop in X. destruct X as (A2 & X). apply andb_prop in X. destruct X as (A3 & X).
  apply andb_prop in X. destruct X as (A4 & X). apply andb_prop in X. destruct X as (A5 & X). apply andb_prop in X. destruct X as (A6 & X).
  apply andb_prop in X. destruct X as (A7 & X). apply andb_prop in X. destruct X as (A8 & A9).
  apply distinct_ids_ok in A2, A4, A6, A8. apply worked_ok in A1, A3, A5, A7, A9.
  exists a, ds, d, l. split; [reflexivity|]. split; [exact E1|]. destruct A2, A4, A6, A8. repeat (split; [assumption|]). exact A9.
Qed.
