(** * Python's recursion limit in malstroem/algorithms/net.py

    [_untangle] is a generator that iterates over a generator of itself (line 134), so
    each nested call holds a frame while the innermost one runs, and CPython raises
    RecursionError when there are more frames than [sys.getrecursionlimit()].  [room] is the
    number of nested activations of [_untangle] that fit; what the callers of
    [geometric_pourpoint_network] and the helper calls of [_untangle] take of the limit is
    not modelled. *)

From Verif Require Import Base Dict FlowModel LabelModel NetModel.

(** net.py 117-139, [_untangle], with room for [room] nested activations. *)
Fixpoint untangle_rec (room : nat) (nodes : list gnode) (next_available_label : Z) : res (list gnode * Z) :=
  match room with
  | O => Exc RecursionError
  | S k =>
      groups <- split_into_common_flow_groups nodes 2 ;;
      mfold (fun st group =>
               let '(out, next_available_label) := st in
               if 1 <? Z.of_nat (length group) then
                 '(untangled_nodes, new_node) <- prune_common_flow group next_available_label ;;
                 '(ns, next_available_label) <- untangle_rec k untangled_nodes (next_available_label + 1) ;;
                 Ok (out ++ new_node :: ns, next_available_label)
               else
                 n <- list_rd group 0 ;;
                 Ok (out ++ [n], next_available_label))
        groups ([], next_available_label)
  end.

(** net.py 195-224, [geometric_pourpoint_network]; [fuel] is for following the flow. *)
Definition geometric_pourpoint_network_rec (room fuel : nat) (flowdir labeled_bluespots : raster Z)
    (pour_points : list cell) (background_label : option Z) : res (list gnode) :=
  upstream_nodes <-
    mfold (fun d ip =>
             '(down_lbl, geom) <- next_downstream_label fuel flowdir labeled_bluespots (snd ip) background_label true ;;
             Ok (push d (mkG (fst ip) down_lbl false (snd ip) geom)))
      (pourpoint_enumerator 0 pour_points) [] ;;
  m <- np_max labeled_bluespots ;;
  '(final_nodes, _) <-
    mfold (fun st kv =>
             let '(final_nodes, next_available_label) := st in
             '(ns, next_available_label) <- untangle_rec room (snd kv) next_available_label ;;
             Ok (final_nodes ++ ns, next_available_label))
      upstream_nodes ([], m + 1) ;;
  Ok final_nodes.
