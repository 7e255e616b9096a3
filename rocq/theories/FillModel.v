(** * Model of malstroem/algorithms/fill.py and speedups/_fill.pyx *)

From Flocq Require Import IEEE754.BinarySingleNaN.
From Verif Require Import Base Num Float64.

Section Fill.

Context {T : Type}.
Variable ops : NumOps T.
(** [float('inf')] in the element type. *)
Variable inf : T.
(** What a store into the [filled] array does to a value: rounding to float32
    for [fill_terrain] (DTYPE_FILL, dtypes.py), nothing for
    [fill_terrain_no_flats] (DTYPE_FILLNOFLAT is float64). *)
Variable store : T -> T.

(** fill.py 34-62, [_fill_cell].  Returns the updated array and whether it
    changed something. *)
Definition fill_cell (dtm filled : raster T) (row col : Z) : res (raster T * bool) :=
  filled_value <- rd filled row col ;;
  dtm_value <- rd dtm row col ;;
  if nleb ops filled_value dtm_value then Ok (filled, false)
  else
    let up := row - 1 in
    let down := row + 1 in
    let left := col - 1 in
    let right := col + 1 in
    let min_value := filled_value in
    x <- rd filled up left ;;     let min_value := pymin ops x min_value in
    x <- rd filled up col ;;      let min_value := pymin ops x min_value in
    x <- rd filled up right ;;    let min_value := pymin ops x min_value in
    x <- rd filled row left ;;    let min_value := pymin ops x min_value in
    x <- rd filled row right ;;   let min_value := pymin ops x min_value in
    x <- rd filled down left ;;   let min_value := pymin ops x min_value in
    x <- rd filled down col ;;    let min_value := pymin ops x min_value in
    x <- rd filled down right ;;  let min_value := pymin ops x min_value in
    let new_value := pymax ops min_value dtm_value in
    if negb (neqb ops new_value filled_value) then
      filled' <- wr filled row col (store new_value) ;; Ok (filled', true)
    else Ok (filled, false).

(** fill.py 77-99, [_fill_cell_no_flats].  [filled.dtype.type(dtm[row, col])]
    (line 79) is the identity on values that are already float64 (a float32
    converts to float64 without change). *)
Definition fill_cell_no_flats (short diag : T) (dtm filled : raster T) (row col : Z)
  : res (raster T * bool) :=
  filled_value <- rd filled row col ;;
  dtm_value <- rd dtm row col ;;
  if nleb ops filled_value dtm_value then Ok (filled, false)
  else
    let up := row - 1 in
    let down := row + 1 in
    let left := col - 1 in
    let right := col + 1 in
    ul <- rd filled up left ;;
    ur <- rd filled up right ;;
    dl <- rd filled down left ;;
    dr <- rd filled down right ;;
    let min_value := nadd ops (pymin ops ul (pymin ops ur (pymin ops dl dr))) diag in
    u <- rd filled up col ;;
    l <- rd filled row left ;;
    r <- rd filled row right ;;
    d <- rd filled down col ;;
    let min_value :=
      pymin ops min_value (nadd ops (pymin ops u (pymin ops l (pymin ops r d))) short) in
    let min_value := pymin ops min_value filled_value in
    let new_value := pymax ops min_value dtm_value in
    if negb (neqb ops new_value filled_value) then
      filled' <- wr filled row col (store new_value) ;; Ok (filled', true)
    else Ok (filled, false).

(** fill.py 20-31 and 65-74, [_fill_terrain] and [_fill_terrain_no_flats]: the
    two functions differ only in the cell function they call. Both ends of the
    row and column ranges are processed. *)
Definition sweep_py (cellf : raster T -> Z -> Z -> res (raster T * bool))
    (filled : raster T) (fromrow torow fromcol tocol : Z) : res (raster T * bool) :=
  let rowstep := if fromrow <? torow then 1 else -1 in
  let colstep := if fromcol <? tocol then 1 else -1 in
  mfold (fun st r =>
           mfold (fun st c =>
                    '(f', ch) <- cellf (fst st) r c ;;
                    Ok (f', if ch : bool then true else snd st))
                 (pyrange fromcol (tocol + colstep) colstep) st)
        (pyrange fromrow (torow + rowstep) rowstep) (filled, false).

(** speedups/_fill.pyx 21-25: [fill_float_min], [fill_float_max] and the
    no-flats versions. *)
Definition cy_min (a b : T) : T := if nleb ops a b then a else b.
Definition cy_max (a b : T) : T := if nleb ops b a then a else b.

(** speedups/_fill.pyx 46-66: the body of the compiled [_fill_terrain] loop.
    Array accesses are unchecked in C; the model checks them, which makes no
    difference where the indices are in range. *)
Definition fill_cell_cy (dtm filled : raster T) (row col : Z) : res (raster T * bool) :=
  filled_value <- rd filled row col ;;
  dtm_value <- rd dtm row col ;;
  if nltb ops dtm_value filled_value then
    let up := row - 1 in
    let down := row + 1 in
    let left := col - 1 in
    let right := col + 1 in
    let min_value := filled_value in
    x <- rd filled up left ;;     let min_value := cy_min x min_value in
    x <- rd filled up col ;;      let min_value := cy_min x min_value in
    x <- rd filled up right ;;    let min_value := cy_min x min_value in
    x <- rd filled row left ;;    let min_value := cy_min x min_value in
    x <- rd filled row right ;;   let min_value := cy_min x min_value in
    x <- rd filled down left ;;   let min_value := cy_min x min_value in
    x <- rd filled down col ;;    let min_value := cy_min x min_value in
    x <- rd filled down right ;;  let min_value := cy_min x min_value in
    let new_value := cy_max min_value dtm_value in
    if negb (neqb ops new_value filled_value) then
      filled' <- wr filled row col (store new_value) ;; Ok (filled', true)
    else Ok (filled, false)
  else Ok (filled, false).

(** speedups/_fill.pyx 90-120: the body of the compiled
    [_fill_terrain_no_flats] loop. *)
Definition fill_cell_no_flats_cy (short diag : T) (dtm filled : raster T) (row col : Z)
  : res (raster T * bool) :=
  filled_value <- rd filled row col ;;
  dtm_value <- rd dtm row col ;;
  if nltb ops dtm_value filled_value then
    let up := row - 1 in
    let down := row + 1 in
    let left := col - 1 in
    let right := col + 1 in
    ul <- rd filled up left ;;
    ur <- rd filled up right ;;
    dl <- rd filled down left ;;
    dr <- rd filled down right ;;
    let min_value := nadd ops (cy_min ul (cy_min ur (cy_min dl dr))) diag in
    u <- rd filled up col ;;
    l <- rd filled row left ;;
    r <- rd filled row right ;;
    d <- rd filled down col ;;
    let min_value :=
      cy_min min_value (nadd ops (cy_min u (cy_min l (cy_min r d))) short) in
    let min_value := cy_min min_value filled_value in
    let new_value := cy_max min_value dtm_value in
    if negb (neqb ops new_value filled_value) then
      filled' <- wr filled row col (store new_value) ;; Ok (filled', true)
    else Ok (filled, false)
  else Ok (filled, false).

(** speedups/_fill.pyx 30-70 and 74-124: the loops run [while row != torow] and
    [while col != tocol], so the last row and the last column of the range are
    NOT processed.  The arguments are C unsigned ints: a negative argument
    raises OverflowError, equal bounds raise ValueError (line 31-32). *)
Definition sweep_cy (cellf : raster T -> Z -> Z -> res (raster T * bool))
    (filled : raster T) (fromrow torow fromcol tocol : Z) : res (raster T * bool) :=
  if (fromrow <? 0) || (torow <? 0) || (fromcol <? 0) || (tocol <? 0) then Exc OverflowError
  else if (fromrow =? torow) || (fromcol =? tocol) then Exc ValueError
  else
    let rowstep := if fromrow <? torow then 1 else -1 in
    let colstep := if fromcol <? tocol then 1 else -1 in
    mfold (fun st r =>
             mfold (fun st c =>
                      '(f', ch) <- cellf (fst st) r c ;;
                      Ok (f', if ch : bool then true else snd st))
                   (pyrange fromcol tocol colstep) st)
          (pyrange fromrow torow rowstep) (filled, false).

(** Is (i, j) on the edge of a raster of this shape?  (Used by
    [initialize_filled] for the four slice assignments.) *)
Definition on_edge_b (rows cols i j : Z) : bool :=
  (i =? 0) || (j =? 0) || (i =? rows - 1) || (j =? cols - 1).

(** fill.py 102-109, [_initialize_filled].  The four slice assignments write the
    same source raster, so their order does not matter.  [filled[0, :]] raises
    IndexError on a raster without rows, [filled[:, 0]] on one without columns. *)
Definition initialize_filled (dtm : raster T) : res (raster T) :=
  if (nrows dtm <=? 0) || (ncols dtm <=? 0) then Exc IndexError
  else Ok (mkRaster (nrows dtm) (ncols dtm)
             (fun i j => if on_edge_b (nrows dtm) (ncols dtm) i j
                         then store (rget dtm i j) else inf)).

(** fill.py 139-169 and 200-230: the [while keep_going] loop.  Each of the four
    sweeps runs only when the previous one changed something.  The loop counter
    [iteration] is never read and is left out. *)
Fixpoint fill_loop (sweep : raster T -> Z -> Z -> Z -> Z -> res (raster T * bool))
    (fuel : nat) (filled : raster T) : res (raster T) :=
  match fuel with
  | O => Timeout
  | S k =>
      let maxrow := nrows filled - 2 in
      let maxcol := ncols filled - 2 in
      '(f1, c1) <- sweep filled 1 maxrow 1 maxcol ;;       (* UL *)
      if (c1 : bool) then
        '(f2, c2) <- sweep f1 maxrow 1 maxcol 1 ;;         (* LR *)
        if (c2 : bool) then
          '(f3, c3) <- sweep f2 1 maxrow maxcol 1 ;;       (* UR *)
          if (c3 : bool) then
            '(f4, c4) <- sweep f3 maxrow 1 1 maxcol ;;     (* LL *)
            if (c4 : bool) then fill_loop sweep k f4 else Ok f4
          else Ok f3
        else Ok f2
      else Ok f1
  end.

(** fill.py 112-171, [fill_terrain], speedups disabled. *)
Definition fill_terrain (fuel : nat) (dtm : raster T) : res (raster T) :=
  filled <- initialize_filled dtm ;;
  fill_loop (sweep_py (fill_cell dtm)) fuel filled.

(** fill.py 174-232, [fill_terrain_no_flats], speedups disabled. *)
Definition fill_terrain_no_flats (short diag : T) (fuel : nat) (dtm : raster T)
  : res (raster T) :=
  filled <- initialize_filled dtm ;;
  fill_loop (sweep_py (fill_cell_no_flats short diag dtm)) fuel filled.

(** The same two entry points with speedups enabled: speedups/__init__.py 47-52
    replaces [_fill_terrain] and [_fill_terrain_no_flats] only. *)
Definition fill_terrain_cy (fuel : nat) (dtm : raster T) : res (raster T) :=
  filled <- initialize_filled dtm ;;
  fill_loop (sweep_cy (fill_cell_cy dtm)) fuel filled.

Definition fill_terrain_no_flats_cy (short diag : T) (fuel : nat) (dtm : raster T)
  : res (raster T) :=
  filled <- initialize_filled dtm ;;
  fill_loop (sweep_cy (fill_cell_no_flats_cy short diag dtm)) fuel filled.

End Fill.

(** ** The concrete instances *)

(** [np.amax], [np.amin]: ValueError on an empty array; NaNs are excluded
    elsewhere. *)
Definition np_amax (a : raster b64) : res b64 :=
  match map (at_ a) (rcells a) with
  | [] => Exc ValueError
  | x :: t => Ok (fold_left (pymax F64Ops) t x)
  end.

Definition np_amin (a : raster b64) : res b64 :=
  match map (at_ a) (rcells a) with
  | [] => Exc ValueError
  | x :: t => Ok (fold_left (pymin F64Ops) t x)
  end.

(** fill.py 235-250, [minimum_safe_short_and_diag].  DTYPE_FILLNOFLAT is float64
    (dtypes.py), so the factor is 1024. *)
Definition minimum_safe_short_and_diag (dem : raster b64) : res (b64 * b64) :=
  mx <- np_amax dem ;;
  mn <- np_amin dem ;;
  let maxval := pymax F64Ops (Babs mx) (Babs mn) in
  let nextval := f64_next maxval in
  let short := f64_mul (f64_sub nextval maxval) (f64_ofZ 1024) in
  let diag := f64_mul short f64_sqrt2 in
  Ok (short, diag).

(** [fill_terrain] as malstroem runs it: binary64 comparisons, float32 store. *)
Definition fill64 : nat -> raster b64 -> res (raster b64) :=
  fill_terrain F64Ops f64_inf store32.
Definition fill64_cy : nat -> raster b64 -> res (raster b64) :=
  fill_terrain_cy F64Ops f64_inf store32.

(** [fill_terrain_no_flats] as malstroem runs it: everything in binary64. *)
Definition fill_nf64 : b64 -> b64 -> nat -> raster b64 -> res (raster b64) :=
  fill_terrain_no_flats F64Ops f64_inf (fun x => x).
Definition fill_nf64_cy : b64 -> b64 -> nat -> raster b64 -> res (raster b64) :=
  fill_terrain_no_flats_cy F64Ops f64_inf (fun x => x).
