(** * Connected components: the contract of scipy.ndimage.label

    label.py 19-40, [connected_components] calls SciPy with the full 3x3
    structuring element (8-connectivity).  SciPy is not modelled; a labelling is
    any raster that meets its documented contract.  [cc_ref] below is one
    function that does (CompProofs.v), used in examples. *)

From Verif Require Import Base FillSpec.

(** Connected through 8-adjacent feature cells. *)
Inductive connected (data : raster bool) : cell -> cell -> Prop :=
| co_here : forall c, inside (nrows data) (ncols data) c -> at_ data c = true -> connected data c c
| co_step : forall a b c, connected data a b -> adjacent b c ->
    inside (nrows data) (ncols data) c -> at_ data c = true -> connected data a c.

(** [cc_contract data lab n]: lab numbers the components of data 1..n, 0 is the background. *)
Record cc_contract (data : raster bool) (lab : raster Z) (n : Z) : Prop := {
  cc_shape : same_shape data lab;
  cc_count : 0 <= n;
  cc_background : forall c, inside (nrows data) (ncols data) c -> at_ data c = false -> at_ lab c = 0;
  cc_range : forall c, inside (nrows data) (ncols data) c -> at_ data c = true -> 1 <= at_ lab c <= n;
  cc_used : forall l, 1 <= l <= n -> exists c, inside (nrows data) (ncols data) c /\ at_ lab c = l;
  cc_same : forall c d, inside (nrows data) (ncols data) c -> inside (nrows data) (ncols data) d ->
    at_ data c = true -> at_ data d = true -> (at_ lab c = at_ lab d <-> connected data c d)
}.

(** A labelling function that meets the contract on every raster. *)
Definition labels_components (cc : raster bool -> raster Z * Z) : Prop :=
  forall data, cc_contract data (fst (cc data)) (snd (cc data)).

(** ** A reference implementation *)

Definition adjacentb (a b : cell) : bool :=
  negb (cell_eqb a b) && (Z.abs (fst a - fst b) <=? 1) && (Z.abs (snd a - snd b) <=? 1).

(** Add the feature cells next to a cell of s. *)
Definition grow (data : raster bool) (s : list cell) : list cell :=
  filter (fun c => at_ data c && (existsb (cell_eqb c) s || existsb (fun d => adjacentb d c) s)) (rcells data).

Fixpoint grow_n (data : raster bool) (n : nat) (s : list cell) : list cell :=
  match n with O => s | S k => grow data (grow_n data k s) end.

(** The component of c, in raster order. *)
Definition component (data : raster bool) (c : cell) : list cell :=
  grow_n data (length (rcells data))
    (filter (fun d => at_ data d && cell_eqb d c) (rcells data)).

(** First cell of a component. *)
Definition rep (data : raster bool) (c : cell) : cell := hd c (component data c).

Definition reps (data : raster bool) : list cell :=
  filter (fun c => at_ data c && cell_eqb (rep data c) c) (rcells data).

Fixpoint position (c : cell) (l : list cell) : Z :=
  match l with
  | [] => 0
  | d :: t => if cell_eqb c d then 0 else 1 + position c t
  end.

Definition cc_ref (data : raster bool) : raster Z * Z :=
  let rs := reps data in
  (mkRaster (nrows data) (ncols data)
     (fun i j => if rget data i j then 1 + position (rep data (i, j)) rs else 0),
   Z.of_nat (length rs)).

(** The same raster with its values tabulated (for evaluating examples). *)
Definition memo {T} (d : T) (a : raster T) : raster T :=
  let rows := to_rows a in
  mkRaster (nrows a) (ncols a) (fun i j => nth (Z.to_nat j) (nth (Z.to_nat i) rows []) d).

Definition cc_memo (data : raster bool) : raster Z * Z :=
  let (lab, n) := cc_ref (memo false data) in (memo 0 lab, n).
