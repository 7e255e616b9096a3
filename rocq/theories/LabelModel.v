(** * Model of malstroem/algorithms/label.py and the compiled label functions

    Labels are integers, data are numbers of an arbitrary type with operations;
    [pinf] and [ninf] stand for float('inf') and float('-inf').  A numpy record
    array is a list of records; [record = stats[lbl]] is a view, so assigning to
    its fields updates the array. *)

From Verif Require Import Base Num Float64.

(** [np.zeros((n,))] followed by filling with v: negative dimensions raise. *)
Definition np_full {A} (n : Z) (v : A) : res (list A) :=
  if n <? 0 then Exc ValueError else Ok (repeat v (Z.to_nat n)).

(** [labelled.ravel()] *)
Definition ravel {A} (a : raster A) : list A := map (at_ a) (rcells a).

(** [np.max] of a non-empty integer array. *)
Fixpoint zmax_from (m : Z) (l : list Z) : Z :=
  match l with [] => m | x :: t => zmax_from (Z.max m x) t end.
Definition np_max (a : raster Z) : res Z :=
  match ravel a with
  | [] => Exc ValueError
  | x :: t => Ok (zmax_from x t)
  end.

(** label.py 56-57 (also 113-114, 147-148, 202-203):
    [if not nlabels: nlabels = np.max(labelled)] *)
Definition resolve_nlabels (labelled : raster Z) (nlabels : option Z) : res Z :=
  match nlabels with
  | None => np_max labelled
  | Some n => if n =? 0 then np_max labelled else Ok n
  end.

Section Label.
Context {T : Type}.
Variable ops : NumOps T.
Variables pinf ninf : T.

Record stat := mkStat { s_min : T; s_max : T; s_sum : T; s_count : Z }.

(** label.py 60-63: [np.zeros] and the two assignments of infinities *)
Definition stat0 : stat := mkStat pinf ninf (nofZ ops 0) 0.

(** label.py 66-74: the loop body after reading val and the record. *)
Definition stat_add (s : stat) (val : T) : stat :=
  mkStat (if nltb ops val (s_min s) then val else s_min s)
         (if nltb ops (s_max s) val then val else s_max s)
         (nadd ops (s_sum s) val)
         (s_count s + 1).

(** label.py 43-75, [label_stats] *)
Definition label_stats (data : raster T) (labelled : raster Z) (nlabels : option Z)
  : res (list stat) :=
  n <- resolve_nlabels labelled nlabels ;;
  stats <- np_full (n + 1) stat0 ;;
  mfold (fun stats c =>
           val <- rd data (fst c) (snd c) ;;
           lbl <- rd labelled (fst c) (snd c) ;;
           record <- list_rd stats lbl ;;
           list_wr stats lbl (stat_add record val))
    (rcells data) stats.

(** label.py 78-98, [keep_labels]; [np.array(keep_label).astype(bool)] is the
    identity on the list of booleans that filterbluespots returns.
    [keep_array[labelled]] is fancy indexing: same shape, IndexError when a label
    is out of range. *)
Definition keep_labels (labelled : raster Z) (keep_label : list bool) (background : Z)
  : res (raster bool) :=
  keep_array <- list_wr keep_label background false ;;
  vals <- mmap (list_rd keep_array) (ravel labelled) ;;
  Ok (mkRaster (nrows labelled) (ncols labelled)
        (fun i j => match list_rd keep_array (rget labelled i j) with
                    | Ok b => b
                    | _ => false
                    end)).

Record index_record := mkIdx { i_value : T; i_row : Z; i_col : Z }.

(** label.py 123-131: one step of label_min_index *)
Definition min_step (record : index_record) (val : T) (r c : Z) : index_record :=
  if nltb ops val (i_value record) then mkIdx val r c else record.

(** label.py 157-165: one step of label_max_index *)
Definition max_step (record : index_record) (val : T) (r c : Z) : index_record :=
  if nltb ops (i_value record) val then mkIdx val r c else record.

(** The common loop of label_min_index and label_max_index. *)
Definition label_index (step : index_record -> T -> Z -> Z -> index_record) (start : T)
    (data : raster T) (labelled : raster Z) (nlabels : option Z) : res (list index_record) :=
  n <- resolve_nlabels labelled nlabels ;;
  lidx <- np_full (n + 1) (mkIdx start (-1) (-1)) ;;
  mfold (fun lidx c =>
           val <- rd data (fst c) (snd c) ;;
           lbl <- rd labelled (fst c) (snd c) ;;
           record <- list_rd lidx lbl ;;
           list_wr lidx lbl (step record val (fst c) (snd c)))
    (rcells data) lidx.

(** label.py 101-132, [label_min_index] *)
Definition label_min_index := label_index min_step pinf.

(** label.py 135-166, [label_max_index] *)
Definition label_max_index := label_index max_step ninf.

(** label.py 184-218, [label_data].  [range(nlabels + 1)] of a negative number is
    empty. *)
Definition label_data (data : raster T) (labelled : raster Z) (nlabels : option Z)
    (background : Z) : res (list (list T)) :=
  n <- resolve_nlabels labelled nlabels ;;
  let l := repeat [] (Z.to_nat (n + 1)) in
  let ravelled_labelled := ravel labelled in
  let ravelled_data := ravel data in
  mfold (fun l ix =>
           label_id <- list_rd ravelled_labelled ix ;;
           data_value <- list_rd ravelled_data ix ;;
           if label_id =? background then Ok l
           else
             old <- list_rd l label_id ;;
             list_wr l label_id (old ++ [data_value]))
    (pyrange 0 (Z.of_nat (length ravelled_labelled)) 1) l.

(** Unchecked reads of the compiled code (boundscheck off).  An out of range index
    is undefined behaviour, written as [Exc PlainException].  Negative indices wrap
    (wraparound is on). *)
Definition c_rd {A} (l : list A) (i : Z) : res A :=
  match list_rd l i with Ok x => Ok x | _ => Exc PlainException end.
Definition c_wr {A} (l : list A) (i : Z) (v : A) : res (list A) :=
  match list_wr l i v with Ok x => Ok x | _ => Exc PlainException end.
Definition c_rd2 {A} (a : raster A) (i j : Z) : res A :=
  match rd a i j with Ok x => Ok x | _ => Exc PlainException end.

(** _label.pyx 38-98, both compiled versions of [label_stats] (same text, only the
    C types differ): the record is copied out and written back. *)
Definition label_stats_cy (data : raster T) (labelled : raster Z) (nlabels : option Z)
  : res (list stat) :=
  n <- resolve_nlabels labelled nlabels ;;
  records <- np_full (n + 1) stat0 ;;
  mfold (fun records c =>
           val <- c_rd2 data (fst c) (snd c) ;;
           lbl <- c_rd2 labelled (fst c) (snd c) ;;
           record <- c_rd records lbl ;;
           c_wr records lbl (stat_add record val))
    (rcells data) records.

(** _label.pyx 101-160, both compiled versions of [label_min_index] *)
Definition label_min_index_cy (data : raster T) (labelled : raster Z) (nlabels : option Z)
  : res (list index_record) :=
  n <- resolve_nlabels labelled nlabels ;;
  records <- np_full (n + 1) (mkIdx pinf (-1) (-1)) ;;
  mfold (fun records c =>
           val <- c_rd2 data (fst c) (snd c) ;;
           lbl <- c_rd2 labelled (fst c) (snd c) ;;
           record <- c_rd records lbl ;;
           c_wr records lbl (min_step record val (fst c) (snd c)))
    (rcells data) records.

(** _label.pyx 167-248, compiled [label_data]: the number of labels defaults only
    when it is [None], and the [background] argument is not used: the loops
    compare with 0 (lines 201, 223, 244). *)
Definition label_data_cy (data : raster T) (labelled : raster Z) (nlabels : option Z)
    (background : Z) : res (list (list T)) :=
  n <- match nlabels with None => np_max labelled | Some n => Ok n end ;;
  let list_of_cyarrays := repeat [] (Z.to_nat (n + 1)) in
  mfold (fun l c =>
           lbl <- c_rd2 labelled (fst c) (snd c) ;;
           val <- c_rd2 data (fst c) (snd c) ;;
           if lbl =? 0 then Ok l
           else
             tmp_cyarray <- c_rd l lbl ;;
             c_wr l lbl (tmp_cyarray ++ [val]))
    (rcells data) list_of_cyarrays.

(** label.py 221-237, [set_label_to_value] *)
Definition set_label_to_value (labelled : raster Z) (values : list T) : res (raster T) :=
  vals <- mmap (list_rd values) (ravel labelled) ;;
  Ok (mkRaster (nrows labelled) (ncols labelled)
        (fun i j => match list_rd values (rget labelled i j) with
                    | Ok v => v
                    | _ => nofZ ops 0
                    end)).
End Label.
Arguments s_min {T}.
Arguments s_max {T}.
Arguments s_sum {T}.
Arguments s_count {T}.
Arguments mkStat {T}.
Arguments i_value {T}.
Arguments i_row {T}.
Arguments i_col {T}.
Arguments mkIdx {T}.

(** label.py 169-180, [label_count]: [np.bincount(labelled.ravel())] by its
    documented behaviour: element l is the number of occurrences of l, for
    l = 0..max; negative input raises ValueError. *)
Definition label_count (labelled : raster Z) : res (list Z) :=
  let v := ravel labelled in
  if existsb (fun x => x <? 0) v then Exc ValueError
  else Ok (map (fun l => Z.of_nat (length (filter (Z.eqb l) v)))
             (pyrange 0 (zmax_from (-1) v + 1) 1)).

(** float64 instances. *)
Definition label_stats64 := label_stats F64Ops f64_inf f64_ninf.
Definition label_stats64_cy := label_stats_cy F64Ops f64_inf f64_ninf.
Definition label_min_index64 := label_min_index F64Ops f64_inf.
Definition label_min_index64_cy := label_min_index_cy F64Ops f64_inf.
Definition label_max_index64 := label_max_index F64Ops f64_ninf.
