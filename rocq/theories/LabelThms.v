(** Examples and witnesses behind P_Label.v *)

From Flocq Require Import IEEE754.BinarySingleNaN.
From Verif Require Import Base BaseProofs Num Float64 FillSpec LabelModel LabelSpec LabelProofs.

Definition ex_lab : raster Z := of_rows 0 [[0; 1; 1]; [0; 3; 1]; [3; 0; 0]].
Definition ex_data : raster b64 :=
  of_rows f64_zero (map (map f64_ofZ) [[5; 2; 7]; [1; 4; 2]; [4; 9; -3]]).

Definition labels_check (lab : raster Z) (n : Z) : bool :=
  forallb (fun c => (0 <=? at_ lab c) && (at_ lab c <=? n)) (rcells lab).

Lemma labels_check_ok : forall lab n, labels_check lab n = true -> labels_in lab n.
Proof.
  intros lab n H c Hc. unfold labels_check in H. rewrite forallb_forall in H.
  specialize (H c ltac:(apply in_cells_of; auto)). apply andb_true_iff in H. destruct H as [H1 H2].
  apply Z.leb_le in H1, H2. lia.
Qed.

Lemma ex_lab_in : labels_in ex_lab 3.
Proof. apply labels_check_ok. reflexivity. Qed.

Lemma ex_lab_nlabels : nlabels_is ex_lab None 3 /\ largest_label ex_lab 3.
Proof.
  assert (L : largest_label ex_lab 3) by (apply np_max_spec; reflexivity).
  split; auto. right. auto.
Qed.

Theorem label_data_bg_refuted : exists (data : raster Z) lab bg l l',
  same_shape data lab /\ labels_in lab 2 /\
  label_data data lab None bg = Ok l /\ label_data_cy data lab None bg = Ok l' /\ l <> l'.
Proof.
  exists (of_rows 0 [[10; 20]; [30; 40]]), (of_rows 0 [[0; 1]; [2; 1]]), 1, [[10]; []; [30]], [[]; [20; 40]; [30]].
  split; [split; reflexivity|]. split.
  { apply labels_check_ok. reflexivity. }
  split; [reflexivity|]. split; [reflexivity|]. discriminate.
Qed.

(** With nlabels=0 the compiled version has a single list. *)
Theorem label_data_zero_refuted : exists (data : raster Z) lab l,
  same_shape data lab /\ label_data data lab (Some 0) 0 = Ok l /\
  forall bg, label_data_cy data lab (Some 0) bg = Exc PlainException.
Proof.
  exists (of_rows 0 [[10; 20]]), (of_rows 0 [[0; 1]]), [[]; [20]].
  split; [split; reflexivity|]. split; reflexivity.
Qed.

Theorem label_count_total : forall lab n st, labels_in lab n -> largest_label lab n ->
  label_count lab = Ok st -> fold_right Z.add 0 st = Z.of_nat (length (rcells lab)).
Proof.
  intros lab n st L LL H. rewrite <- (sum_buckets lab (n + 1)).
  2:{ intros c Hc. apply in_cells_of in Hc. specialize (L c Hc). lia. }
  f_equal. unfold label_count in H. destruct (existsb _ _) eqn:E; [discriminate|]. inversion H; subst; clear H.
  assert (M : zmax_from (-1) (ravel lab) = n).
  { destruct (zmax_from_spec (ravel lab) (-1)) as (A1 & A2 & A3).
    destruct LL as ((c & [Ic Ec]) & Le).
    assert (In n (ravel lab)). { rewrite <- Ec. apply in_map. apply in_cells_of. auto. }
    specialize (A2 n H). specialize (L c Ic).
    destruct A3 as [A3|A3]; [lia|]. apply in_map_iff in A3. destruct A3 as (d & E' & Hd).
    apply in_cells_of in Hd. specialize (Le d Hd). lia. }
  rewrite M. apply map_ext. intros l. f_equal. unfold ravel. rewrite length_filter_map. f_equal.
  apply filter_ext. intros c. apply Z.eqb_sym.
Qed.

(** A label beyond the number of labels is an IndexError, not a wrong result. *)
Theorem label_data_out_of_range : forall {T} (data : raster T) lab n bg c, same_shape data lab -> 0 < n ->
  inside (nrows lab) (ncols lab) c -> n < at_ lab c -> at_ lab c <> bg ->
  forall st, label_data data lab (Some n) bg <> Ok st.
Proof.
  intros T data lab n bg c S Hn Ic Lc Nb st H. unfold label_data in H.
  cbn [resolve_nlabels] in H. destruct (Z.eqb_spec n 0); [lia|]. cbn [bind] in H.
  rewrite label_data_loop in H by auto.
  assert (X : forall cs s, mfold (fun l c => if at_ lab c =? bg then Ok l
     else bucket_step (at_ lab) (fun a c => a ++ [at_ data c]) l c) cs s = Ok st ->
     In c cs -> Z.of_nat (length s) <= n + 1 -> False).
  { clear H. induction cs as [|d cs IH]; intros s H Hc Ls; [destruct Hc|]. cbn [mfold] in H.
    apply bind_ok in H. destruct H as (s' & E & H). destruct Hc as [->|Hc].
    - destruct (Z.eqb_spec (at_ lab c) bg); [contradiction|]. unfold bucket_step in E.
      apply bind_ok in E. destruct E as (r & E & _). unfold list_rd, pyidx in E.
      destruct (Z.leb_spec 0 (at_ lab c)), (Z.ltb_spec (at_ lab c) (Z.of_nat (length s))),
        (Z.leb_spec (- Z.of_nat (length s)) (at_ lab c)), (Z.ltb_spec (at_ lab c) 0); cbn in E; try discriminate; lia.
    - apply (IH s'); auto. destruct (at_ lab d =? bg); [inversion E; subst; auto|].
      unfold bucket_step in E. apply bind_ok in E. destruct E as (r & _ & E). unfold list_wr in E.
      destruct (pyidx _ _); [|discriminate]. inversion E; subst. rewrite list_upd_length. auto. }
  apply (X _ _ H).
  - apply in_cells_of. auto.
  - rewrite repeat_length. lia.
Qed.
