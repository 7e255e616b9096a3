(** * Model of the network functions on pour points given as features

    [_pourpoint_enumerator] accepts cell indexes or features.  StreamTool passes cell indexes
    (streams.py 68), which NetModel describes; here are the features. *)

From Coq Require Import String.
From Verif Require Import Base Dict FlowModel LabelModel NetModel OgrModel CmdModel.
Local Open Scope Z_scope.
Local Open Scope list_scope.

(** net.py 35-40, [_pourpoint_enumerator], on features *)
Definition feature_enumerator (pour_points : list props) : res (list (Z * cell)) :=
  mmap (fun pp =>
          pid <- get_index pp "bspot_id" ;;
          r <- get_index pp "cell_row" ;;
          c <- get_index pp "cell_col" ;;
          Ok (pid, (r, c))) pour_points.

(** net.py 172-192, [pourpoint_network], on features.  All features are read before the
    first is traced. *)
Definition pourpoint_network_features (fuel : nat) (flowdir labeled : raster Z) (pour_points : list props)
    (background_label : option Z) : res (list gnode) :=
  pairs <- feature_enumerator pour_points ;;
  mmap (fun ip =>
          '(down_lbl, _) <- next_downstream_label fuel flowdir labeled (snd ip) background_label false ;;
          Ok (mkG (fst ip) down_lbl false (snd ip) []))
    pairs.

(** net.py 195-224, [geometric_pourpoint_network], on features; read before tracing as above. *)
Definition geometric_pourpoint_network_features (fuel : nat) (flowdir labeled_bluespots : raster Z)
    (pour_points : list props) (background_label : option Z) : res (list gnode) :=
  pairs <- feature_enumerator pour_points ;;
  upstream_nodes <-
    mfold (fun d ip =>
             '(down_lbl, geom) <- next_downstream_label fuel flowdir labeled_bluespots (snd ip) background_label true ;;
             Ok (push d (mkG (fst ip) down_lbl false (snd ip) geom)))
      pairs [] ;;
  m <- np_max labeled_bluespots ;;
  '(final_nodes, _) <-
    mfold (fun st kv =>
             let '(final_nodes, next_available_label) := st in
             '(ns, next_available_label) <- untangle fuel (snd kv) next_available_label ;;
             Ok (final_nodes ++ ns, next_available_label))
      upstream_nodes ([], m + 1) ;;
  Ok final_nodes.
