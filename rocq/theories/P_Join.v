(** * C96: the layers can be joined *)

From Coq Require Import Permutation QArith String.
From Verif Require Import Base Num Float64 FillSpec DemModel DemProofs LabelModel LabelSpec CompSpec CompProofs VectorModel BluespotModel BluespotSpec
  BluespotThms RainThms PipelineModel OgrModel CmdModel CmdSpec OutdirModel OutdirSpec PolygonSpec PolygonThms JoinSpec JoinThms.
Local Open Scope Z_scope.

(** [column ds layer att vs]: the features of the layer have these values of the attribute, in
    this order; [keys]: the values are these ids, in any order, none twice.  n is the number of
    bluespots; 0 is the background; nodes with other ids are junctions and have no bluespot. *)
Theorem C96_layers_join : forall p, labels_components (o_cc p) -> polygons_ok p ->
  size_ok (o_speedups p) (o_dem p) -> dem32 (o_dem p) -> dem_finite (o_dem p) -> nrows (o_dem p) * ncols (o_dem p) <= 2 ^ 53 ->
  square_cells (gt1 (o_gt p)) (gt5 (o_gt p)) = true -> (0 < o_zresolution p)%Q ->
  exists k, forall fuel, (fuel >= k)%nat -> exists n nodes bspots dstrs finals,
  let ds := d_store (do_run empty_dir (Whole (with_fuel p fuel))) in
  0 <= n /\ NoDup nodes /\
  keys ds "pourpoints" "bspot_id" (zseq 0 (Z.to_nat (n + 1))) /\
  keys ds "hypsometry" "bspot_id" (zseq 0 (Z.to_nat (n + 1))) /\
  keys ds "finallevels" "bspot_id" (zseq 0 (Z.to_nat (n + 1))) /\
  (o_vector p = true -> keys ds "bluespots" "bspot_id" (zseq 1 (Z.to_nat n)) /\ keys ds "watersheds" "bspot_id" (zseq 1 (Z.to_nat n))) /\
  column ds "finalbluespots" "bspot_id" (map int_ finals) /\ incl finals (zseq 1 (Z.to_nat n)) /\
  column ds "nodes" "nodeid" (map int_ nodes) /\ column ds "streams" "nodeid" (map int_ nodes) /\
  column ds "initvolumes" "nodeid" (map int_ nodes) /\ column ds "finalstate" "nodeid" (map int_ nodes) /\
  column ds "nodes" "bspot_id" (map (option_map VInt) bspots) /\
  Forall2 (fun i b => b = if (0 <=? i) && (i <=? n) then Some i else None) nodes bspots /\ incl (zseq 0 (Z.to_nat (n + 1))) nodes /\
  column ds "nodes" "dstrnodeid" (map (option_map VInt) dstrs) /\ column ds "streams" "dstrnodeid" (map (option_map VInt) dstrs) /\
  forall d, In (Some d) dstrs -> In d nodes.
Proof. exact layers_join. Qed.
Print Assumptions C96_layers_join.

(** Rain on a terrain with two bluespots. *)
Example C96_example :
  let p := mkOptions false cc_memo 20 ex_gt rain_dem all_pass true true 500%Q 1%Q (fun ids => map fst (polygons_of cc_memo ids)) in
  labels_components (o_cc p) /\ polygons_ok p /\ size_ok (o_speedups p) (o_dem p) /\ dem32 (o_dem p) /\ dem_finite (o_dem p) /\
  square_cells (gt1 (o_gt p)) (gt5 (o_gt p)) = true /\
  match read_features (d_store (do_run empty_dir (Whole p))) (Some "watersheds"%string) with
  | Ok [[(_, Some (VInt 1))]; [(_, Some (VInt 2))]] => true | Ok [[(_, Some (VInt 2))]; [(_, Some (VInt 1))]] => true | _ => false
  end = true.
Proof.
  intros p. split; [apply cc_memo_ok|]. split; [intros ids; exists (polygons_of cc_memo ids); split; [apply polygons_exist; apply cc_memo_ok|reflexivity]|].
  split; [cbn; lia|]. split; [apply rain_dem_ok|]. split; [apply rain_dem_ok|]. split; vm_compute; reflexivity.
Qed.
