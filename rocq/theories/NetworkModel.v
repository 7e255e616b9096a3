(** * Model of malstroem/network.py *)

From Verif Require Import Base Num Dict.

Section Network.
Context {T : Type}.
Variable ops : NumOps T.

(** The properties of a node that the code reads ('nodeid', 'dstrnodeid', the
    volume attribute, 'bspot_vol').  'wshed_area' is converted to float but not
    used (network.py 134).  The values are numbers already; [float(...)] of a
    missing or textual value is not modelled. *)
Record node := mkNode { n_id : Z; n_dstr : option Z; n_water : T; n_cap : T }.

(** The event dict built in network.py 150-154. *)
Record event := mkEvent { e_id : Z; e_water : T; e_spill : T; e_vol : T; e_pct : option T }.

(** network.py 90-95, [Network.__init__] (without [_node_rain_values], which
    [rain_event] resets). *)
Record network := mkNetwork {
  nw_nodes : list node;
  nw_index : list (Z * node);
  nw_roots : list Z;
  nw_upstream : list (option Z * list Z)
}.
Definition empty_network : network := mkNetwork [] [] [] [].

(** [self.upstream_tree[k]], a defaultdict(list).  That a read inserts an empty
    list for a missing key cannot be observed. *)
Definition upstream (t : list (option Z * list Z)) (k : option Z) : list Z :=
  match dget optZ_eqb t k with Some l => l | None => [] end.

(** network.py 112-130, [add_node] *)
Definition add_node (nw : network) (n : node) : network :=
  mkNetwork (nw_nodes nw ++ [n])
    (dset Z.eqb (nw_index nw) (n_id n) n)
    (match n_dstr n with None => nw_roots nw ++ [n_id n] | Some _ => nw_roots nw end)
    (dset optZ_eqb (nw_upstream nw) (n_dstr n) (upstream (nw_upstream nw) (n_dstr n) ++ [n_id n])).

(** network.py 97-110, [add_nodes] *)
Definition add_nodes (nw : network) (ns : list node) : network := fold_left add_node ns nw.

(** Python [sum(l)]: starts from the integer 0. *)
Definition pysum (l : list T) : T := fold_left (nadd ops) l (nofZ ops 0).

(** network.py 145-154: one node, given the water from upstream. *)
Definition settle (n : node) (upstream_volume : T) : event :=
  let total := nadd ops (n_water n) upstream_volume in
  let filled := pymin ops total (n_cap n) in
  let spill := pymax ops (nofZ ops 0) (nsub ops total (n_cap n)) in
  let pct := if neqb ops (n_cap n) (nofZ ops 0) then None
             else Some (ndiv ops (nmul ops (nofZ ops 100) filled) (n_cap n)) in
  mkEvent (n_id n) (n_water n) spill filled pct.

(** network.py 132-155, [_calc_node] *)
Definition calc_node (nw : network) (rv : list (Z * event)) (id : Z) : res (list (Z * event)) :=
  n <- dget_err Z.eqb (nw_index nw) id ;;
  let ids := upstream (nw_upstream nw) (Some id) in
  upstream_volume <-
    (match ids with
     | [] => Ok (nofZ ops 0)
     | _ => evs <- mmap (dget_err Z.eqb rv) ids ;; Ok (pysum (map e_spill evs))
     end) ;;
  Ok (dset Z.eqb rv id (settle n upstream_volume)).

(** network.py 158-163: both deques are lists whose head is the right end, so
    [extend] puts the reversed list in front.  The result lists the nodes in the
    order in which lines 166-168 pop them. *)
Fixpoint collect_tree (nw : network) (fuel : nat) (nodes tree : list Z) : res (list Z) :=
  match nodes with
  | [] => Ok tree
  | n :: rest =>
      match fuel with
      | O => Timeout
      | S k => collect_tree nw k (rev (upstream (nw_upstream nw) (Some n)) ++ rest) (n :: tree)
      end
  end.

(** network.py 157-168, [_calc_stream_tree] *)
Definition calc_stream_tree (nw : network) (fuel : nat) (rv : list (Z * event)) (root : Z)
  : res (list (Z * event)) :=
  tree <- collect_tree nw fuel [root] [] ;;
  mfold (calc_node nw) tree rv.

(** network.py 170-186, [rain_event] *)
Definition rain_event (fuel : nat) (nw : network) : res (list event) :=
  rv <- mfold (calc_stream_tree nw fuel) (nw_roots nw) [] ;;
  Ok (map snd rv).

(** network.py 41-75, [FinalStateCalculator.process]: the features keyed by node
    id (a later feature replaces an earlier one with the same id), and for each
    of them the event whose values are copied into it, if there is one. *)
Definition process (fuel : nat) (features : list node) : res (list (node * option event)) :=
  let index := fold_left (fun d n => dset Z.eqb d (n_id n) n) features [] in
  let nodes := map snd index in
  evs <- rain_event fuel (add_nodes empty_network nodes) ;;
  out <- mfold (fun d e =>
                  match dget Z.eqb d (e_id e) with
                  | Some (n, _) => Ok (dset Z.eqb d (e_id e) (n, Some e))
                  | None => Exc KeyError
                  end) evs (map (fun kn => (fst kn, (snd kn, None))) index) ;;
  Ok (map snd out).

End Network.

Arguments n_id {T}.
Arguments n_dstr {T}.
Arguments n_water {T}.
Arguments n_cap {T}.
Arguments mkNode {T}.
Arguments e_id {T}.
Arguments e_water {T}.
Arguments e_spill {T}.
Arguments e_vol {T}.
Arguments e_pct {T}.
Arguments mkEvent {T}.
Arguments empty_network {T}.
