(** * Model of malstroem/algorithms/net.py

    Generators are modelled as the list of what they yield; the caller (line 221)
    consumes everything.  Python's recursion limit is in RecModel. *)

From Verif Require Import Base Dict FlowModel LabelModel.

(** The node dicts of net.py 90, 190 and 214.  Nodes of [pourpoint_network] have no
    geometry (here the empty list). *)
Record gnode := mkG {
  g_id : Z; g_dstr : option Z; g_junction : bool; g_pix : cell; g_geom : list cell
}.

Definition geom_eqb (a b : list cell) : bool :=
  (Nat.eqb (length a) (length b)) && forallb (fun p => cell_eqb (fst p) (snd p)) (combine a b).

(** Equality of two dicts. *)
Definition gnode_eqb (a b : gnode) : bool :=
  (g_id a =? g_id b) && optZ_eqb (g_dstr a) (g_dstr b) && Bool.eqb (g_junction a) (g_junction b) &&
  cell_eqb (g_pix a) (g_pix b) && geom_eqb (g_geom a) (g_geom b).

(** [l.remove(x)]: the first element equal to x. *)
Fixpoint list_remove (l : list gnode) (x : gnode) : res (list gnode) :=
  match l with
  | [] => Exc ValueError
  | y :: t => if gnode_eqb y x then Ok t else t' <- list_remove t x ;; Ok (y :: t')
  end.

(** net.py 51-62: the [while unhandled_nodes] loop. *)
Fixpoint split_loop (fuel : nat) (min_common_cells : Z) (unhandled : list gnode) : res (list (list gnode)) :=
  match unhandled with
  | [] => Ok []
  | this_n :: _ =>
      match fuel with
      | O => Timeout
      | S k =>
          let this_geom := g_geom this_n in
          unhandled <- list_remove unhandled this_n ;;
          '(this_group, unhandled) <-
            (if min_common_cells <? Z.of_nat (length this_geom) then
               mfold (fun st other_n =>
                        let '(this_group, unhandled) := st in
                        let other_geom := g_geom other_n in
                        if min_common_cells <? Z.of_nat (length other_geom) then
                          a <- list_rd this_geom (-1 * min_common_cells) ;;
                          b <- list_rd other_geom (-1 * min_common_cells) ;;
                          if cell_eqb a b then
                            unhandled <- list_remove unhandled other_n ;;
                            Ok (this_group ++ [other_n], unhandled)
                          else Ok st
                        else Ok st)
                 unhandled ([this_n], unhandled)
             else Ok ([this_n], unhandled)) ;;
          groups <- split_loop k min_common_cells unhandled ;;
          Ok (this_group :: groups)
      end
  end.

(** net.py 43-64, [_split_into_common_flow_groups] *)
Definition split_into_common_flow_groups (nodes : list gnode) (min_common_cells : Z) : res (list (list gnode)) :=
  if (Z.of_nat (length nodes) <=? 1) then Ok [nodes]
  else split_loop (length nodes) min_common_cells nodes.

(** net.py 94-99: the [while all(...)] loop.  [acc] is [shared_path]. *)
Fixpoint shared_loop (fuel : nat) (geoms : list (list cell)) (acc : list cell)
  : res (list cell * list (list cell)) :=
  match geoms with
  | [] => Exc IndexError
  | g0 :: _ =>
      x <- list_rd g0 (-1) ;;
      lasts <- mmap (fun g => list_rd g (-1)) geoms ;;
      if forallb (cell_eqb x) lasts then
        match fuel with
        | O => Timeout
        | S k => shared_loop k (map (@removelast cell) geoms) (acc ++ [x])
        end
      else Ok (acc, geoms)
  end.

(** net.py 67-114, [_prune_common_flow]: the edited nodes and the new node. *)
Definition prune_common_flow (nodes : list gnode) (new_label_id : Z) : res (list gnode * gnode) :=
  match nodes with
  | [] => Exc IndexError
  | n0 :: _ =>
      let downstream_id := g_dstr n0 in
      let geoms := map g_geom nodes in
      if negb (forallb (fun n => optZ_eqb downstream_id (g_dstr n)) nodes) then Exc AssertionError else
      a <- list_rd (g_geom n0) (-2) ;;
      bs <- mmap (fun g => list_rd g (-2)) geoms ;;
      if negb (forallb (cell_eqb a) bs) then Exc AssertionError else
      '(shared, geoms) <- shared_loop (S (length (g_geom n0))) geoms [] ;;
      let shared_path := rev shared in
      pix <- list_rd shared_path 0 ;;
      let new_node := mkG new_label_id downstream_id true pix shared_path in
      Ok (map (fun p => let '(n, g) := p in mkG (g_id n) (Some new_label_id) (g_junction n) (g_pix n) (g ++ [pix]))
            (combine nodes geoms),
          new_node)
  end.

(** net.py 117-139, [_untangle]: the nodes yielded, and the next free label. *)
Fixpoint untangle (fuel : nat) (nodes : list gnode) (next_available_label : Z) : res (list gnode * Z) :=
  match fuel with
  | O => Timeout
  | S k =>
      groups <- split_into_common_flow_groups nodes 2 ;;
      mfold (fun st group =>
               let '(out, next_available_label) := st in
               if 1 <? Z.of_nat (length group) then
                 '(untangled_nodes, new_node) <- prune_common_flow group next_available_label ;;
                 '(ns, next_available_label) <- untangle k untangled_nodes (next_available_label + 1) ;;
                 Ok (out ++ new_node :: ns, next_available_label)
               else
                 n <- list_rd group 0 ;;
                 Ok (out ++ [n], next_available_label))
        groups ([], next_available_label)
  end.

(** net.py 162-169: the loop of [next_downstream_label], following
    [trace_downstream] (flow.py 279-301) as it yields. *)
Fixpoint label_loop (fuel : nat) (flowdir labeled : raster Z) (src_label : Z) (background_label : option Z)
    (geometry : bool) (c : cell) (geom : list cell) : res (option Z * list cell) :=
  if cell_in_raster (nrows flowdir) (ncols flowdir) c then
    match fuel with
    | O => Timeout
    | S k =>
        lbl <- rd labeled (fst c) (snd c) ;;
        let geom := if geometry then geom ++ [c] else geom in
        if negb (lbl =? src_label) &&
           match background_label with None => true | Some b => negb (lbl =? b) end
        then Ok (Some lbl, geom)
        else
          direction <- rd flowdir (fst c) (snd c) ;;
          delta <- direction_to_delta direction ;;
          match delta with
          | Some (dr, dc) =>
              label_loop k flowdir labeled src_label background_label geometry (fst c + dr, snd c + dc) geom
          | None => Ok (None, geom)
          end
    end
  else Ok (None, geom).

(** net.py 142-169, [next_downstream_label] *)
Definition next_downstream_label (fuel : nat) (flowdir labeled : raster Z) (c : cell)
    (background_label : option Z) (geometry : bool) : res (option Z * list cell) :=
  src_label <- rd labeled (fst c) (snd c) ;;
  label_loop fuel flowdir labeled src_label background_label geometry c [].

(** net.py 21-40, [_pourpoint_enumerator], on cell indexes (StreamTool passes
    these, streams.py 68). *)
Fixpoint pourpoint_enumerator (pid : Z) (pour_points : list cell) : list (Z * cell) :=
  match pour_points with
  | [] => []
  | pp :: t => (pid, pp) :: pourpoint_enumerator (pid + 1) t
  end.

(** net.py 172-192, [pourpoint_network] *)
Definition pourpoint_network (fuel : nat) (flowdir labeled : raster Z) (pour_points : list cell)
    (background_label : option Z) : res (list gnode) :=
  mmap (fun ip =>
          '(down_lbl, _) <- next_downstream_label fuel flowdir labeled (snd ip) background_label false ;;
          Ok (mkG (fst ip) down_lbl false (snd ip) []))
    (pourpoint_enumerator 0 pour_points).

(** [upstream_nodes[down_lbl].append(node)] on a defaultdict(list) *)
Definition push (d : list (option Z * list gnode)) (node : gnode) : list (option Z * list gnode) :=
  dset optZ_eqb d (g_dstr node)
    (match dget optZ_eqb d (g_dstr node) with Some l => l | None => [] end ++ [node]).

(** net.py 195-224, [geometric_pourpoint_network] *)
Definition geometric_pourpoint_network (fuel : nat) (flowdir labeled_bluespots : raster Z)
    (pour_points : list cell) (background_label : option Z) : res (list gnode) :=
  upstream_nodes <-
    mfold (fun d ip =>
             '(down_lbl, geom) <- next_downstream_label fuel flowdir labeled_bluespots (snd ip) background_label true ;;
             Ok (push d (mkG (fst ip) down_lbl false (snd ip) geom)))
      (pourpoint_enumerator 0 pour_points) [] ;;
  m <- np_max labeled_bluespots ;;
  '(final_nodes, _) <-
    mfold (fun st kv =>
             let '(final_nodes, next_available_label) := st in
             '(ns, next_available_label) <- untangle fuel (snd kv) next_available_label ;;
             Ok (final_nodes ++ ns, next_available_label))
      upstream_nodes ([], m + 1) ;;
  Ok final_nodes.
