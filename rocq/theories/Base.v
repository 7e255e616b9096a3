(** * Base: results, cells, rasters, Python ranges

    Vocabulary shared by all model files.  Nothing here is specific to one
    function of malstroem; the definitions fix how Python / numpy behaviour is
    written down. *)

From Coq Require Export ZArith List Bool Lia.
Export ListNotations.
Global Open Scope Z_scope.

(** Python exceptions that the modelled code can raise. *)
Inductive exn :=
| IndexError | ValueError | TypeError | KeyError | AssertionError
| UnboundLocalError | OverflowError | NotImplementedError
| ZeroDivisionError | UsageError | RecursionError | PlainException.

(** Result of running a piece of Python: a value, an exception, or
    "the loop did not finish within the given fuel". *)
Inductive res (A : Type) :=
| Ok (a : A)
| Exc (e : exn)
| Timeout.
Arguments Ok {A} a.
Arguments Exc {A} e.
Arguments Timeout {A}.

Definition bind {A B} (x : res A) (f : A -> res B) : res B :=
  match x with
  | Ok a => f a
  | Exc e => Exc e
  | Timeout => Timeout
  end.

Declare Scope res_scope.
Delimit Scope res_scope with res.
Notation "x <- e ;; k" := (bind e (fun x => k))
  (at level 61, e at next level, right associativity) : res_scope.
Notation "' p <- e ;; k" := (bind e (fun p => k))
  (at level 61, p pattern, e at next level, right associativity) : res_scope.
Global Open Scope res_scope.

(** A Python [for x in l] loop whose body updates a state and may raise. *)
Fixpoint mfold {A B} (f : A -> B -> res A) (l : list B) (a : A) : res A :=
  match l with
  | [] => Ok a
  | x :: t => a' <- f a x ;; mfold f t a'
  end.

(** A list comprehension whose body may raise. *)
Fixpoint mmap {A B} (f : A -> res B) (l : list A) : res (list B) :=
  match l with
  | [] => Ok []
  | x :: t => y <- f x ;; ys <- mmap f t ;; Ok (y :: ys)
  end.

(** [zseq a n] is [a; a+1; ...; a+n-1]. *)
Fixpoint zseq (a : Z) (n : nat) : list Z :=
  match n with
  | O => []
  | S k => a :: zseq (a + 1) k
  end.

(** Descending: [a; a-1; ...] of length n. *)
Fixpoint zseq_down (a : Z) (n : nat) : list Z :=
  match n with
  | O => []
  | S k => a :: zseq_down (a - 1) k
  end.

(** Python [range(a, b, step)] for the only steps the code uses, 1 and -1
    (any other step is treated like -1 when negative, like 1 otherwise). *)
Definition pyrange (a b step : Z) : list Z :=
  if step <? 0 then zseq_down a (Z.to_nat (a - b)) else zseq a (Z.to_nat (b - a)).

(** Cell index (row, column). *)
Definition cell := (Z * Z)%type.

Definition cell_eqb (a b : cell) : bool := (fst a =? fst b) && (snd a =? snd b).

(** A 2D numpy array: shape and contents.  Contents outside the shape are
    meaningless and never looked at by [rd]. *)
Record raster (T : Type) := mkRaster { nrows : Z; ncols : Z; rget : Z -> Z -> T }.
Arguments mkRaster {T}.
Arguments nrows {T}.
Arguments ncols {T}.
Arguments rget {T}.

(** numpy indexing of an axis of length n: negative indices wrap once, anything
    else out of range raises IndexError. *)
Definition pyidx (n i : Z) : option Z :=
  if (0 <=? i) && (i <? n) then Some i
  else if (- n <=? i) && (i <? 0) then Some (i + n)
  else None.

(** [a[i, j]] *)
Definition rd {T} (a : raster T) (i j : Z) : res T :=
  match pyidx (nrows a) i, pyidx (ncols a) j with
  | Some i', Some j' => Ok (rget a i' j')
  | _, _ => Exc IndexError
  end.

Definition rset {T} (a : raster T) (i j : Z) (v : T) : raster T :=
  mkRaster (nrows a) (ncols a)
    (fun i' j' => if (i' =? i) && (j' =? j) then v else rget a i' j').

(** [a[i, j] = v] *)
Definition wr {T} (a : raster T) (i j : Z) (v : T) : res (raster T) :=
  match pyidx (nrows a) i, pyidx (ncols a) j with
  | Some i', Some j' => Ok (rset a i' j' v)
  | _, _ => Exc IndexError
  end.

(** All cells of a raster in raster (row-major) order:
    [for r in range(0, rows): for c in range(0, cols)]. *)
Definition cells_of (rows cols : Z) : list cell :=
  flat_map (fun r => map (fun c => (r, c)) (pyrange 0 cols 1)) (pyrange 0 rows 1).

Definition rcells {T} (a : raster T) : list cell := cells_of (nrows a) (ncols a).

(** Two rasters with the same shape. *)
Definition same_shape {A B} (a : raster A) (b : raster B) : Prop :=
  nrows a = nrows b /\ ncols a = ncols b.

(** Cell inside a raster of the given shape. *)
Definition inside (rows cols : Z) (c : cell) : Prop :=
  0 <= fst c < rows /\ 0 <= snd c < cols.

(** Contents at a cell. *)
Definition at_ {T} (a : raster T) (c : cell) : T := rget a (fst c) (snd c).

(** numpy 1D indexing into a list: negative indices wrap once. *)
Definition list_rd {T} (l : list T) (i : Z) : res T :=
  match pyidx (Z.of_nat (length l)) i with
  | Some k => match nth_error l (Z.to_nat k) with
              | Some x => Ok x
              | None => Exc IndexError
              end
  | None => Exc IndexError
  end.

Fixpoint list_upd {T} (l : list T) (n : nat) (v : T) : list T :=
  match l, n with
  | [], _ => []
  | _ :: t, O => v :: t
  | x :: t, S k => x :: list_upd t k v
  end.

Definition list_wr {T} (l : list T) (i : Z) (v : T) : res (list T) :=
  match pyidx (Z.of_nat (length l)) i with
  | Some k => Ok (list_upd l (Z.to_nat k) v)
  | None => Exc IndexError
  end.

(** A raster from a list of rows (used for concrete examples only). *)
Definition of_rows {T} (d : T) (rows : list (list T)) : raster T :=
  mkRaster (Z.of_nat (length rows))
           (Z.of_nat (match rows with [] => O | r :: _ => length r end))
           (fun i j => nth (Z.to_nat j) (nth (Z.to_nat i) rows []) d).

Definition to_rows {T} (a : raster T) : list (list T) :=
  map (fun i => map (fun j => rget a i j) (pyrange 0 (ncols a) 1)) (pyrange 0 (nrows a) 1).
