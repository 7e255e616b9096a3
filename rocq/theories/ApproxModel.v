(** * Model of malstroem/approx.py

    Readers and writers are left out. *)

From Coq Require Import String.
From Verif Require Import Base Num Float64 Dict LabelModel HypsModel.
Local Open Scope Z_scope.

Section Approx.
Context {T : Type}.
Variable ops : NumOps T.

(** [np.cumsum] *)
Fixpoint cumsum_from (acc : T) (l : list T) : list T :=
  match l with
  | [] => []
  | x :: t => let s := nadd ops acc x in s :: cumsum_from s t
  end.
Definition cumsum (l : list T) : list T :=
  match l with [] => [] | x :: t => x :: cumsum_from x t end.

(** approx.py 9-18, [_cumulative_volume] *)
Definition cumulative_volume (h : @histogram T) (cell_area : T) : list T :=
  let cumulative := cumsum (map (nofZ ops) (h_counts h)) in
  let cumulative_below := nofZ ops 0 :: removelast cumulative in
  cumsum (map (nmul ops (nmul ops cell_area (b_resolution (h_bins h)))) cumulative_below).

(** approx.py 21-23, [_bin_waterlevel_z] *)
Definition bin_waterlevel_z (b : @bins_info T) : list T :=
  let half := ndiv ops (nofZ ops 1) (nofZ ops 2) in
  map (fun i => nadd ops (nadd ops (nmul ops (nofZ ops i) (b_resolution b)) (b_lower b))
                  (nmul ops (b_resolution b) half))
    (pyrange 0 (b_num b) 1).

(** [np.interp] for one x, by its documented behaviour: the first value left of the
    first point, the last value right of the last, the value of a point at a point,
    linear in between (computed as numpy does, slope * (x - x0) + y0).  For
    non-decreasing points the scan finds the same interval as numpy's bisection. *)
Fixpoint interp_from (x x0 y0 : T) (rest : list (T * T)) : T :=
  match rest with
  | [] => y0
  | (x1, y1) :: t =>
      if nleb ops x1 x then interp_from x x1 y1 t
      else if neqb ops x0 x then y0
      else nadd ops (nmul ops (ndiv ops (nsub ops y1 y0) (nsub ops x1 x0)) (nsub ops x x0)) y0
  end.
Definition interp (x : T) (xs ys : list T) : res T :=
  if negb (List.length xs =? List.length ys)%nat then Exc ValueError
  else match combine xs ys with
       | [] => Exc ValueError
       | (x0, y0) :: t => Ok (if nltb ops x x0 then y0 else interp_from x x0 y0 t)
       end.

(** [l[1:-1]] *)
Definition inner {A} (l : list A) : list A := removelast (tl l).

(** approx.py 52-67: the water level of a bluespot holding final_vol. *)
Definition water_level (h : @hyps T) (cell_area max_depth max_vol final_vol : T) : res T :=
  if neqb ops max_vol (nofZ ops 0) ||
     nltb ops (ndiv ops (nofZ ops 9999) (nofZ ops 10000)) (ndiv ops final_vol max_vol)
  then Ok (nadd ops (z_min h) max_depth)
  else
    let cum_vol := cumulative_volume (z_hist h) cell_area in
    let binsz := bin_waterlevel_z (h_bins (z_hist h)) in
    let volumes := (nofZ ops 0 :: inner cum_vol) ++ [max_vol] in
    let z := (z_min h :: inner binsz) ++ [z_max h] in
    interp final_vol volumes z.

(** What approx.py 32-39 reads of a hypsometry feature. *)
Record hyps_input := mkHI {
  hi_bspot : Z; hi_dict : @flatdict T; hi_cell_area : T; hi_max_depth : T; hi_max_vol : T
}.

(** A feature of the final state: whether nodetype is 'pourpoint', bspot_id and v. *)
Record final_feature := mkFF { ff_pourpoint : bool; ff_bspot : Z; ff_v : T }.

(** A feature with its approx_z and approx_dmax. *)
Record level_feature := mkLF { lf_bspot : Z; lf_v : T; lf_z : T; lf_dmax : T }.

(** approx.py 25-72, [approx_water_level_io] *)
Definition approx_water_level_io (finalvols : list final_feature) (hyps_features : list hyps_input)
  : res (list level_feature) :=
  let hyps_index := fold_left (fun d f => dset Z.eqb d (hi_bspot f) f) hyps_features [] in
  mmap (fun f =>
          i <- dget_err Z.eqb hyps_index (ff_bspot f) ;;
          h <- hyps_from_flatdict (hi_dict i) ;;
          level <- water_level h (hi_cell_area i) (hi_max_depth i) (hi_max_vol i) (ff_v f) ;;
          Ok (mkLF (ff_bspot f) (ff_v f) level (nsub ops level (z_min h))))
    (filter ff_pourpoint finalvols).

(** The default of set_background_to (approx.py 169). *)
Definition background_level : T := nofZ ops (-999).

(** approx.py 169-178, [_labelvaluedict_to_list] *)
Definition labelvaluedict_to_list (d : list (Z * T)) (background : Z) (set_background_to : T) : res (list T) :=
  max_label <- match map fst d with [] => Exc ValueError | x :: t => Ok (zmax_from x t) end ;;
  mmap (fun ix => if ix =? background then Ok set_background_to else dget_err Z.eqb d ix)
    (pyrange 0 (max_label + 1) 1).

(** approx.py 126-162, [approx_bluespots]: labels and depths.  The subtraction raises
    ValueError when the shapes differ (numpy broadcasting of single rows or columns is
    not modelled). *)
Definition approx_bluespots (labels : raster Z) (levels : list (Z * T)) (dem : raster T) (background : Z)
  : res (raster Z * raster T) :=
  value_list <- labelvaluedict_to_list levels background background_level ;;
  maxextent <- set_label_to_value ops labels value_list ;;
  if negb ((nrows labels =? nrows dem) && (ncols labels =? ncols dem)) then Exc ValueError
  else
    let diff i j := nsub ops (rget maxextent i j) (rget dem i j) in
    let below i j := nltb ops (diff i j) (nofZ ops 0) in
    Ok (mkRaster (nrows labels) (ncols labels) (fun i j => if below i j then background else rget labels i j),
        mkRaster (nrows labels) (ncols labels) (fun i j => if below i j then nofZ ops 0 else diff i j)).

(** approx.py 75-123, [approx_bluespots_io]: what is written to the depths and to the
    labels writer.  [w_depths], [w_labels]: whether these writers are given. *)
Definition approx_bluespots_io (labels : raster Z) (levels : list (bool * Z * T)) (dem : raster T)
    (w_depths w_labels : bool) (background : Z) : res (option (raster T) * option (raster Z)) :=
  if negb w_depths && negb w_labels then Exc PlainException
  else
    let d := fold_left (fun d '(pp, id, z) => if (pp : bool) then dset Z.eqb d id z else d) levels [] in
    value_list <- labelvaluedict_to_list d background background_level ;;
    maxextent <- set_label_to_value ops labels value_list ;;
    if negb ((nrows labels =? nrows dem) && (ncols labels =? ncols dem)) then Exc ValueError
    else
      let diff i j := nsub ops (rget maxextent i j) (rget dem i j) in
      let below i j := nltb ops (diff i j) (nofZ ops 0) in
      Ok (if w_depths then Some (mkRaster (nrows labels) (ncols labels)
                                   (fun i j => if below i j then nofZ ops 0 else diff i j)) else None,
          if w_labels then Some (mkRaster (nrows labels) (ncols labels)
                                   (fun i j => if below i j then background else rget labels i j)) else None).
End Approx.
Arguments hi_bspot {T}.
Arguments hi_dict {T}.
Arguments hi_cell_area {T}.
Arguments hi_max_depth {T}.
Arguments hi_max_vol {T}.
Arguments mkHI {T}.
Arguments ff_pourpoint {T}.
Arguments ff_bspot {T}.
Arguments ff_v {T}.
Arguments mkFF {T}.
Arguments lf_bspot {T}.
Arguments lf_v {T}.
Arguments lf_z {T}.
Arguments lf_dmax {T}.
Arguments mkLF {T}.
