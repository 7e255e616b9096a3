(** * Model of malstroem/hyps.py

    Readers and writers are left out.  [to_int] is Python's int() on a number: it
    truncates towards zero and raises on infinities (OverflowError) and NaN
    (ValueError). *)

From Coq Require Import QArith Ascii String Decimal DecimalString DecimalZ.
From Flocq Require Import IEEE754.BinarySingleNaN.
From Verif Require Import Base Num Float64 Dict LabelModel.
Local Open Scope Z_scope.

Section Hyps.
Context {T : Type}.
Variable ops : NumOps T.
Variable to_int : T -> res Z.

(** hyps.py 22-24: HistogramBinsInfo, Histogram, HypsometryStats *)
Record bins_info := mkBins { b_num : Z; b_lower : T; b_upper : T; b_resolution : T }.
Record histogram := mkHist { h_counts : list Z; h_bins : bins_info }.
Record hyps := mkHyps { z_hist : histogram; z_min : T; z_max : T }.

(** hyps.py 89-97, [histogram_bins] *)
Definition histogram_bins (zmin zmax resolution : T) : res bins_info :=
  let scale := ndiv ops (nofZ ops 1) resolution in
  min_scaled <- to_int (nmul ops zmin scale) ;;
  max_scaled <- to_int (nmul ops zmax scale) ;;
  let num_bins := max_scaled - min_scaled + 1 in
  let lower_bound := nmul ops (nofZ ops min_scaled) resolution in
  let upper_bound := nadd ops lower_bound (nmul ops (nofZ ops num_bins) resolution) in
  Ok (mkBins num_bins lower_bound upper_bound resolution).

(** The bin edges of [np.histogram]: [np.linspace(lower, upper, n + 1)]. *)
Definition edge (n : Z) (lower upper : T) (i : Z) : T :=
  if i =? n then upper
  else nadd ops (nmul ops (nofZ ops i) (ndiv ops (nsub ops upper lower) (nofZ ops n))) lower.

(** [np.histogram(data, n, (lower, upper))] by its documented behaviour: bin i is
    half open, [edge i, edge (i+1)), the last bin includes its upper edge, values
    outside [lower, upper] are ignored; an empty range is widened by 0.5 on both
    sides; less than one bin or a reversed range raise ValueError. *)
Definition np_histogram (data : list T) (n : Z) (lower upper : T) : res (list Z) :=
  if n <? 1 then Exc ValueError
  else if nltb ops upper lower then Exc ValueError
  else
    let half := ndiv ops (nofZ ops 1) (nofZ ops 2) in
    let first := if neqb ops lower upper then nsub ops lower half else lower in
    let last := if neqb ops lower upper then nadd ops upper half else upper in
    let kept := filter (fun x => nleb ops first x && nleb ops x last) data in
    Ok (map (fun i => Z.of_nat (List.length (filter (fun x =>
               nleb ops (edge n first last i) x &&
               ((i =? n - 1) || nltb ops x (edge n first last (i + 1)))) kept)))
          (pyrange 0 n 1)).

(** hyps.py 54-75, [bluespot_hypsometry_stats]: the generated (label, stats). *)
Definition bluespot_hypsometry_stats (pinf ninf : T) (bluespotlabels : raster Z) (dem : raster T)
    (resolution : T) (labels_max : option Z) (background : Z) : res (list (Z * hyps)) :=
  labels_max <- match labels_max with None => np_max bluespotlabels | Some n => Ok n end ;;
  label_z_stats <- label_stats ops pinf ninf dem bluespotlabels (Some labels_max) ;;
  label_data_values <- label_data dem bluespotlabels (Some labels_max) background ;;
  mmap (fun '(label, data) =>
          s <- list_rd label_z_stats label ;;
          h <- (if label =? background
                then Ok (mkHist [] (mkBins 0 (nofZ ops 0) (nofZ ops 0) (nofZ ops (-1))))
                else
                  bins <- histogram_bins (s_min s) (s_max s) resolution ;;
                  counts <- np_histogram data (b_num bins) (b_lower bins) (b_upper bins) ;;
                  Ok (mkHist counts bins)) ;;
          Ok (label, mkHyps h (s_min s) (s_max s)))
    (combine (pyrange 0 (Z.of_nat (List.length label_data_values)) 1) label_data_values).

(** The dict of hyps.py 100-109. *)
Record flatdict := mkFlat {
  d_counts : string; d_num_bins : Z; d_lower : T; d_upper : T; d_resolution : T; d_zmin : T; d_zmax : T
}.

(** [str(x)] of an integer. *)
Definition str_int (x : Z) : string := NilZero.string_of_int (Z.to_int x).

(** [int(s)] of a string: decimal digits with an optional minus sign.  (Python also
    accepts blanks, underscores and a plus sign, which str_int never writes.) *)
Definition int_str (s : string) : res Z :=
  match NilZero.int_of_string s with
  | Some d => Ok (Z.of_int d)
  | None => Exc ValueError
  end.

(** [s.split("|")] *)
Fixpoint split_bar (s : string) : list string :=
  match s with
  | EmptyString => [EmptyString]
  | String c t =>
      if Ascii.eqb c "|"%char then EmptyString :: split_bar t
      else match split_bar t with
           | [] => [String c EmptyString]
           | w :: ws => String c w :: ws
           end
  end.

(** hyps.py 100-109, [_hypsometrystats_to_flatdict] *)
Definition hyps_to_flatdict (h : hyps) : flatdict :=
  let b := h_bins (z_hist h) in
  mkFlat (String.concat "|" (map str_int (h_counts (z_hist h))))
    (b_num b) (b_lower b) (b_upper b) (b_resolution b) (z_min h) (z_max h).

(** hyps.py 112-119, [hypsometrystats_from_flatdict]; [float()] of a number is the
    number. *)
Definition hyps_from_flatdict (d : flatdict) : res hyps :=
  let bins := mkBins (d_num_bins d) (d_lower d) (d_upper d) (d_resolution d) in
  counts <- (if 0 <? b_num bins then mmap int_str (split_bar (d_counts d)) else Ok []) ;;
  Ok (mkHyps (mkHist counts bins) (d_zmin d) (d_zmax d)).

(** A pour point feature of hyps.py 26-52: its bspot_id, the added attributes
    and cell_area. *)
Record hyps_feature := mkHF { hf_bspot : Z; hf_dict : option flatdict; hf_cell_area : option T }.

(** hyps.py 26-52, [bluespot_hypsometry_io], on the values of the readers: the
    labels, the DEM, the two cell sizes of the label raster and the bspot_id of the
    pour points.  The comparison of the cell sizes of the two rasters is left out. *)
Definition bluespot_hypsometry_io (pinf ninf : T) (bluespotlabels : raster Z) (dem : raster T)
    (cell_res : T * T) (pourpoints : list Z) (resolution : T) : res (list hyps_feature) :=
  if negb (nltb ops (nofZ ops 0) resolution) then Exc AssertionError
  else if negb ((nrows bluespotlabels =? nrows dem) && (ncols bluespotlabels =? ncols dem)) then Exc AssertionError
  else
    let area := nmul ops (fst cell_res) (snd cell_res) in
    let index := fold_left (fun d id => dset Z.eqb d id (mkHF id None None)) pourpoints [] in
    labels_max <- np_max bluespotlabels ;;
    vector_labels_max <- match map fst index with
                         | [] => Exc ValueError
                         | x :: t => Ok (zmax_from x t)
                         end ;;
    if negb (labels_max =? vector_labels_max) then Exc AssertionError
    else
      stats <- bluespot_hypsometry_stats pinf ninf bluespotlabels dem resolution (Some labels_max) 0 ;;
      index <- mfold (fun d '(bs_id, s) =>
                 pp <- dget_err Z.eqb d bs_id ;;
                 Ok (dset Z.eqb d bs_id (mkHF (hf_bspot pp) (Some (hyps_to_flatdict s)) (Some area))))
               stats index ;;
      Ok (map snd index).
End Hyps.
Arguments b_num {T}.
Arguments b_lower {T}.
Arguments b_upper {T}.
Arguments b_resolution {T}.
Arguments mkBins {T}.
Arguments h_counts {T}.
Arguments h_bins {T}.
Arguments mkHist {T}.
Arguments z_hist {T}.
Arguments z_min {T}.
Arguments z_max {T}.
Arguments mkHyps {T}.
Arguments d_counts {T}.
Arguments d_num_bins {T}.
Arguments d_lower {T}.
Arguments d_upper {T}.
Arguments d_resolution {T}.
Arguments d_zmin {T}.
Arguments d_zmax {T}.
Arguments mkFlat {T}.
Arguments hyps_to_flatdict {T}.
Arguments hyps_from_flatdict {T}.
Arguments hf_bspot {T}.
Arguments hf_dict {T}.
Arguments hf_cell_area {T}.
Arguments mkHF {T}.

(** [int()] of an exact number. *)
Definition Q_int (q : Q) : res Z := Ok (Z.quot (Qnum q) (Zpos (Qden q))).

(** [int()] of a float. *)
Definition b64_int (x : b64) : res Z :=
  match x with
  | B754_zero _ => Ok 0
  | B754_infinity _ => Exc OverflowError
  | B754_nan => Exc ValueError
  | B754_finite s m e _ =>
      let a := if 0 <=? e then Zpos m * 2 ^ e else Zpos m / 2 ^ (- e) in
      Ok (if s then - a else a)
  end.
