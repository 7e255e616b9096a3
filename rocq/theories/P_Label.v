(** * C20-C23: statistics, extreme cells and data per label

    label_stats64, label_min_index64, label_max_index64: label.py on float64 data;
    ..._cy: the compiled versions. *)

From Flocq Require Import IEEE754.BinarySingleNaN.
From Verif Require Import Base Num Float64 FillSpec LabelModel LabelSpec LabelProofs LabelFloat LabelThms.

(** ** C20 *)

Theorem C20_label_stats : forall (data : raster b64) lab nlabels n,
  same_shape data lab -> nlabels_is lab nlabels n -> labels_in lab n -> 1 <= nrows lab -> 1 <= ncols lab ->
  exists st, label_stats64 data lab nlabels = Ok st /\ label_stats64_cy data lab nlabels = Ok st /\
  Z.of_nat (length st) = n + 1 /\
  forall l, 0 <= l <= n -> exists s cs, nth_error st (Z.to_nat l) = Some s /\
    lists_cells (has_label lab l) cs /\
    s_count s = Z.of_nat (length cs) /\
    s_sum s = fold_left f64_add (map (at_ data) cs) (f64_ofZ 0) /\
    extreme le64 f64_inf (has_label lab l) data (s_min s) /\
    extreme (fun a b => le64 b a) f64_ninf (has_label lab l) data (s_max s).
Proof. exact label_stats64_spec. Qed.
Print Assumptions C20_label_stats.

(** The same with any number type (count and sum). *)
Theorem C20_label_stats_sums : forall {T} (ops : NumOps T) (pinf ninf : T) (data : raster T) lab nlabels n,
  same_shape data lab -> nlabels_is lab nlabels n -> labels_in lab n -> 1 <= nrows lab -> 1 <= ncols lab ->
  exists st, label_stats ops pinf ninf data lab nlabels = Ok st /\ Z.of_nat (length st) = n + 1 /\
  forall l, 0 <= l <= n -> exists s cs, nth_error st (Z.to_nat l) = Some s /\
    lists_cells (has_label lab l) cs /\
    s_count s = Z.of_nat (length cs) /\
    s_sum s = fold_left (nadd ops) (map (at_ data) cs) (nofZ ops 0).
Proof. exact (@label_stats_sums). Qed.
Print Assumptions C20_label_stats_sums.

Theorem C20_counts_total : forall (data : raster b64) lab nlabels n st,
  same_shape data lab -> nlabels_is lab nlabels n -> labels_in lab n -> 1 <= nrows lab -> 1 <= ncols lab ->
  label_stats64 data lab nlabels = Ok st -> fold_right Z.add 0 (map s_count st) = nrows lab * ncols lab.
Proof. exact label_counts_total. Qed.
Print Assumptions C20_counts_total.

Example C20_example : same_shape ex_data ex_lab /\ nlabels_is ex_lab None 3 /\ labels_in ex_lab 3 /\
  has_label ex_lab 3 (2, 0) /\
  match label_stats64 ex_data ex_lab None with
  | Ok [_; s; _; _] => Beqb (s_sum s) (f64_ofZ 11) && Beqb (s_max s) (f64_ofZ 7) && (s_count s =? 3)
  | _ => false
  end = true.
Proof.
  split; [split; reflexivity|]. split; [apply ex_lab_nlabels|]. split; [apply ex_lab_in|].
  split; [vm_compute; repeat split; discriminate|].
  vm_compute. reflexivity.
Qed.

(** ** C21 *)

Theorem C21_label_min_index : forall (data : raster b64) lab nlabels n,
  same_shape data lab -> nlabels_is lab nlabels n -> labels_in lab n -> 1 <= nrows lab -> 1 <= ncols lab ->
  exists st, label_min_index64 data lab nlabels = Ok st /\ label_min_index64_cy data lab nlabels = Ok st /\
  Z.of_nat (length st) = n + 1 /\
  forall l, 0 <= l <= n -> exists r, nth_error st (Z.to_nat l) = Some r /\
    ((first_extreme le64 lt64 (has_label lab l) data (i_value r) (i_row r, i_col r) /\ lt64 (i_value r) f64_inf) \/
     (r = mkIdx f64_inf (-1) (-1) /\ forall c, has_label lab l c -> ~ lt64 (at_ data c) f64_inf)).
Proof. exact label_min_index_spec. Qed.
Print Assumptions C21_label_min_index.

Theorem C21_label_max_index : forall (data : raster b64) lab nlabels n,
  same_shape data lab -> nlabels_is lab nlabels n -> labels_in lab n -> 1 <= nrows lab -> 1 <= ncols lab ->
  exists st, label_max_index64 data lab nlabels = Ok st /\
  Z.of_nat (length st) = n + 1 /\
  forall l, 0 <= l <= n -> exists r, nth_error st (Z.to_nat l) = Some r /\
    ((first_extreme (fun a b => le64 b a) (fun a b => lt64 b a) (has_label lab l) data
        (i_value r) (i_row r, i_col r) /\ lt64 f64_ninf (i_value r)) \/
     (r = mkIdx f64_ninf (-1) (-1) /\ forall c, has_label lab l c -> ~ lt64 f64_ninf (at_ data c))).
Proof. exact label_max_index_spec. Qed.
Print Assumptions C21_label_max_index.

(** Label 1 attains its minimum 2 at (0,1) and at (1,2): the first is reported.  Label 2 has no cell. *)
Example C21_example : nlabels_is ex_lab None 3 /\ labels_in ex_lab 3 /\
  match label_min_index64 ex_data ex_lab None with
  | Ok [_; r; r2; _] => cell_eqb (i_row r, i_col r) (0, 1) && Beqb (i_value r) (f64_ofZ 2) &&
                        cell_eqb (i_row r2, i_col r2) (-1, -1)
  | _ => false
  end = true.
Proof.
  split; [apply ex_lab_nlabels|]. split; [apply ex_lab_in|].
  vm_compute. reflexivity.
Qed.

(** ** C22 *)

Theorem C22_label_data : forall {T} (data : raster T) lab nlabels n background,
  same_shape data lab -> nlabels_is lab nlabels n -> labels_in lab n -> 1 <= nrows lab -> 1 <= ncols lab ->
  exists st, label_data data lab nlabels background = Ok st /\ Z.of_nat (length st) = n + 1 /\
  forall l, 0 <= l <= n -> exists cs, lists_cells (has_label lab l) cs /\
    nth_error st (Z.to_nat l) = Some (if l =? background then [] else map (at_ data) cs).
Proof. exact (@label_data_spec). Qed.
Print Assumptions C22_label_data.

(** A label larger than the given number of labels is never dropped silently. *)
Theorem C22_label_data_out_of_range : forall {T} (data : raster T) lab n background c,
  same_shape data lab -> 0 < n ->
  inside (nrows lab) (ncols lab) c -> n < at_ lab c -> at_ lab c <> background ->
  forall st, label_data data lab (Some n) background <> Ok st.
Proof. exact (@label_data_out_of_range). Qed.
Print Assumptions C22_label_data_out_of_range.

Theorem C22_label_count : forall lab n, labels_in lab n -> largest_label lab n ->
  exists st, label_count lab = Ok st /\ Z.of_nat (length st) = n + 1 /\
  forall l, 0 <= l <= n -> exists cs, lists_cells (has_label lab l) cs /\
    nth_error st (Z.to_nat l) = Some (Z.of_nat (length cs)).
Proof. exact label_count_spec. Qed.
Print Assumptions C22_label_count.

Theorem C22_label_count_total : forall lab n st, labels_in lab n -> largest_label lab n ->
  label_count lab = Ok st -> fold_right Z.add 0 st = Z.of_nat (length (rcells lab)).
Proof. exact label_count_total. Qed.
Print Assumptions C22_label_count_total.

Example C22_example : same_shape ex_data ex_lab /\ nlabels_is ex_lab None 3 /\ labels_in ex_lab 3 /\
  label_count ex_lab = Ok [4; 3; 0; 2].
Proof.
  split; [split; reflexivity|]. split; [apply ex_lab_nlabels|]. split; [apply ex_lab_in|]. reflexivity.
Qed.

(** ** C23: true for background 0 only *)

Theorem C23_label_data_compiled_zero : forall {T} (data : raster T) lab nlabels n background,
  same_shape data lab -> nlabels_is lab nlabels n -> nlabels <> Some 0 -> labels_in lab n ->
  1 <= nrows lab -> 1 <= ncols lab ->
  label_data_cy data lab nlabels background = label_data data lab nlabels 0.
Proof. exact (@label_data_cy_same). Qed.
Print Assumptions C23_label_data_compiled_zero.

Theorem C23_background_refuted : exists (data : raster Z) lab bg l l',
  same_shape data lab /\ labels_in lab 2 /\
  label_data data lab None bg = Ok l /\ label_data_cy data lab None bg = Ok l' /\ l <> l'.
Proof. exact label_data_bg_refuted. Qed.
Print Assumptions C23_background_refuted.

(** With nlabels=0 Python takes the largest label, the compiled version runs out of its only list. *)
Theorem C23_nlabels_zero_refuted : exists (data : raster Z) lab l,
  same_shape data lab /\ label_data data lab (Some 0) 0 = Ok l /\
  forall bg, label_data_cy data lab (Some 0) bg = Exc PlainException.
Proof. exact label_data_zero_refuted. Qed.
Print Assumptions C23_nlabels_zero_refuted.

Example C23_example : nlabels_is ex_lab None 3 /\ labels_in ex_lab 3 /\
  exists l, label_data ex_lab ex_lab None 0 = Ok l /\ l = [[]; [1; 1; 1]; []; [3; 3]].
Proof.
  split; [apply ex_lab_nlabels|]. split; [apply ex_lab_in|]. eexists. split; reflexivity.
Qed.
