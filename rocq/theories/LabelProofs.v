From Coq Require Import Sorted.
From Flocq Require Import IEEE754.BinarySingleNaN.
From Verif Require Import Base BaseProofs Num Float64 Float64Proofs FillSpec FillProofs LabelModel LabelSpec.

(** ** Raster order *)

Lemma SS_app : forall {A} (R : A -> A -> Prop) l1 l2, StronglySorted R l1 -> StronglySorted R l2 ->
  (forall a b, In a l1 -> In b l2 -> R a b) -> StronglySorted R (l1 ++ l2).
Proof.
  induction l1 as [|x l1 IH]; intros l2 H1 H2 H; cbn; auto.
  inversion H1; subst. constructor.
  - apply IH; auto. intros; apply H; auto; right; auto.
  - apply Forall_app; split; auto. apply Forall_forall. intros; apply H; auto. left; auto.
Qed.

Lemma zseq_sorted : forall n a, StronglySorted Z.lt (zseq a n).
Proof.
  induction n; intros a; cbn; constructor; auto.
  apply Forall_forall. intros x Hx. apply in_zseq in Hx. lia.
Qed.

Lemma cells_of_sorted : forall rows cols, StronglySorted before (cells_of rows cols).
Proof.
  intros rows cols. unfold cells_of.
  assert (R : forall l1 l2, StronglySorted Z.lt l1 -> StronglySorted Z.lt l2 ->
    StronglySorted before (flat_map (fun r => map (fun c => (r, c)) l2) l1)).
  { induction l1 as [|r l1 IH]; intros l2 H1 H2; cbn; [constructor|].
    inversion H1; subst. apply SS_app; auto.
    - clear - H2. induction H2; cbn; constructor; auto.
      apply Forall_forall. intros x Hx. apply in_map_iff in Hx. destruct Hx as (y & <- & Hy).
      right. cbn. split; auto. rewrite Forall_forall in H. auto.
    - intros a b Ha Hb. apply in_map_iff in Ha. destruct Ha as (y & <- & Hy).
      apply in_flat_map in Hb. destruct Hb as (r' & Hr & Hb). apply in_map_iff in Hb.
      destruct Hb as (z & <- & _). left. cbn. rewrite Forall_forall in H4. auto. }
  apply R; unfold pyrange; cbn; apply zseq_sorted.
Qed.

Lemma SS_filter : forall {A} (R : A -> A -> Prop) p l, StronglySorted R l -> StronglySorted R (filter p l).
Proof.
  induction 1; cbn; [constructor|]. destruct (p a); auto. constructor; auto.
  apply Forall_forall. intros x Hx. apply filter_In in Hx. rewrite Forall_forall in H0. apply H0. tauto.
Qed.

Lemma before_irrefl : forall a, ~ before a a.
Proof. unfold before. intros a. lia. Qed.

Lemma SS_nodup : forall l, StronglySorted before l -> NoDup l.
Proof.
  induction 1; constructor; auto. intros Hi. rewrite Forall_forall in H0.
  apply (before_irrefl a). auto.
Qed.

(** The listing is determined by the set of cells. *)
Lemma SS_unique : forall l1 l2, StronglySorted before l1 -> StronglySorted before l2 ->
  (forall c, In c l1 <-> In c l2) -> l1 = l2.
Proof.
  induction l1 as [|a l1 IH]; intros l2 H1 H2 E.
  - destruct l2 as [|b l2]; auto. destruct (proj2 (E b)). left; auto.
  - destruct l2 as [|b l2]. { destruct (proj1 (E a)). left; auto. }
    inversion H1; inversion H2; subst. rewrite Forall_forall in *.
    assert (a = b).
    { destruct (proj1 (E a)) as [?|Ha]; [left; auto | auto |].
      destruct (proj2 (E b)) as [?|Hb]; [left; auto | auto |].
      exfalso. specialize (H4 b Hb). specialize (H8 a Ha). unfold before in *. lia. }
    subst b. f_equal. apply IH; auto.
    intros c. split; intros Hc.
    + destruct (proj1 (E c)) as [<-|?]; [right; auto| |auto]. exfalso. apply (before_irrefl a); auto.
    + destruct (proj2 (E c)) as [<-|?]; [right; auto| |auto]. exfalso. apply (before_irrefl a); auto.
Qed.

Lemma lists_unique : forall P l1 l2, lists_cells P l1 -> lists_cells P l2 -> l1 = l2.
Proof.
  intros P l1 l2 [S1 H1] [S2 H2]. apply SS_unique; auto. intros c. rewrite H1, H2. tauto.
Qed.

Definition lcells (lab : raster Z) (l : Z) : list cell :=
  filter (fun c => at_ lab c =? l) (rcells lab).

Lemma lcells_spec : forall lab l, lists_cells (has_label lab l) (lcells lab l).
Proof.
  intros lab l. split.
  - apply SS_filter. apply cells_of_sorted.
  - intros c. unfold lcells, has_label. rewrite filter_In. unfold rcells. rewrite in_cells_of, Z.eqb_eq. tauto.
Qed.

(** ** Number of labels *)

Lemma zmax_from_spec : forall l m, m <= zmax_from m l /\ (forall x, In x l -> x <= zmax_from m l) /\
  (zmax_from m l = m \/ In (zmax_from m l) l).
Proof.
  induction l as [|y l IH]; intros m; cbn.
  - split; [lia|]. split; [tauto|auto].
  - destruct (IH (Z.max m y)) as (A & B & C). split; [lia|]. split.
    + intros x [->|H]; [lia | auto].
    + destruct C as [C|C]; auto.
      destruct (Z.max_spec m y) as [[_ E]|[_ E]]; rewrite E in *; rewrite C; auto.
Qed.

Lemma np_max_spec : forall lab n, np_max lab = Ok n -> largest_label lab n.
Proof.
  intros lab n H. unfold np_max in H. destruct (ravel lab) as [|x t] eqn:E; [discriminate|].
  inversion H; subst; clear H. destruct (zmax_from_spec t x) as (A & B & C).
  assert (I : forall v, In v (x :: t) <-> exists c, has_label lab v c).
  { intros v. rewrite <- E. unfold ravel. rewrite in_map_iff. unfold has_label, rcells.
    split; intros (c & H1 & H2); exists c; rewrite in_cells_of in *; auto. }
  split.
  - apply I. destruct C as [C|C]; [left; auto | right; auto].
  - intros c Hc. assert (In (at_ lab c) (x :: t)) by (apply I; exists c; split; auto).
    destruct H as [<-|H]; auto.
Qed.

Lemma np_max_total : forall lab, 1 <= nrows lab -> 1 <= ncols lab -> exists n, np_max lab = Ok n.
Proof.
  intros lab Hr Hc. unfold np_max. destruct (ravel lab) eqn:E; [|eauto].
  exfalso. assert (In (at_ lab (0, 0)) (ravel lab)).
  { apply in_map. apply in_cells_of. split; cbn; lia. }
  rewrite E in H. destruct H.
Qed.

Lemma largest_unique : forall lab n m, largest_label lab n -> largest_label lab m -> n = m.
Proof.
  intros lab n m [(c & [I1 E1]) H1] [(d & [I2 E2]) H2].
  pose proof (H1 d I2). pose proof (H2 c I1). lia.
Qed.

Lemma resolve_spec : forall lab nl n, nlabels_is lab nl n -> resolve_nlabels lab nl = Ok n.
Proof.
  intros lab nl n [[-> Hn]|[H L]].
  - cbn. destruct (Z.eqb_spec n 0); [lia|auto].
  - assert (X : np_max lab = Ok n).
    { destruct L as [(c & [[? ?] ?]) L']. destruct (np_max_total lab) as (m & Em); try lia.
      rewrite Em. f_equal. apply (largest_unique lab); [apply np_max_spec; auto|].
      split; auto. exists c. split; auto. split; auto. }
    destruct H as [->| ->]; cbn; auto.
Qed.

Lemma resolve_inv : forall lab nl n, resolve_nlabels lab nl = Ok n -> nlabels_is lab nl n.
Proof.
  intros lab [m|] n H; cbn in H.
  - destruct (Z.eqb_spec m 0).
    + subst. right. split; auto. apply np_max_spec; auto.
    + inversion H; subst. left; auto.
  - right. split; auto. apply np_max_spec; auto.
Qed.

(** ** Folding into buckets *)

Section Buckets.
Context {A : Type}.
Variable lab : cell -> Z.
Variable step : A -> cell -> A.

Definition bucket_step (st : list A) (c : cell) : res (list A) :=
  record <- list_rd st (lab c) ;; list_wr st (lab c) (step record c).

Lemma bucket_fold : forall cs st, (forall c, In c cs -> 0 <= lab c < Z.of_nat (length st)) ->
  exists st', mfold bucket_step cs st = Ok st' /\ length st' = length st /\
  forall l a, nth_error st l = Some a ->
    nth_error st' l = Some (fold_left step (filter (fun c => lab c =? Z.of_nat l) cs) a).
Proof.
  induction cs as [|c cs IH]; intros st H; cbn [mfold filter fold_left].
  - exists st. auto.
  - assert (Hc : 0 <= lab c < Z.of_nat (length st)) by (apply H; left; auto).
    destruct (nth_error st (Z.to_nat (lab c))) as [a0|] eqn:E.
    2:{ apply nth_error_None in E. lia. }
    unfold bucket_step at 1. rewrite (list_rd_in st (lab c) a0) by (auto; lia). cbn [bind].
    rewrite list_wr_in by auto. cbn [bind].
    destruct (IH (list_upd st (Z.to_nat (lab c)) (step a0 c))) as (st' & E' & L' & N').
    { rewrite list_upd_length. intros; apply H; right; auto. }
    exists st'. split; [auto|]. split; [rewrite L', list_upd_length; auto|].
    intros l a Ha. destruct (Nat.eq_dec (Z.to_nat (lab c)) l) as [<-|Hl].
    + rewrite (N' _ (step a0 c)).
      2:{ apply nth_error_list_upd_same. lia. }
      rewrite Z2Nat.id by lia. rewrite Z.eqb_refl. cbn. congruence.
    + rewrite (N' l a).
      2:{ rewrite nth_error_list_upd_other; auto. }
      destruct (Z.eqb_spec (lab c) (Z.of_nat l)); [exfalso; apply Hl; lia | auto].
Qed.
End Buckets.

Lemma rd_at : forall {T} (a : raster T) c, inside (nrows a) (ncols a) c -> rd a (fst c) (snd c) = Ok (at_ a c).
Proof. intros T a c [? ?]. rewrite rd_in by auto. reflexivity. Qed.

Lemma c_rd2_at : forall {T} (a : raster T) c, inside (nrows a) (ncols a) c -> c_rd2 a (fst c) (snd c) = Ok (at_ a c).
Proof. intros T a c H. unfold c_rd2. rewrite rd_at; auto. Qed.

Lemma np_full_ok : forall {A} n (v : A), 0 <= n -> np_full n v = Ok (repeat v (Z.to_nat n)).
Proof. intros A n v H. unfold np_full. destruct (Z.ltb_spec n 0); [lia|auto]. Qed.

Lemma nth_error_repeat' : forall {A} (v : A) n l, (l < n)%nat -> nth_error (repeat v n) l = Some v.
Proof. induction n; intros [|l] H; cbn; auto; try lia. apply IHn. lia. Qed.

Lemma nlabels_nonneg : forall lab nl n, nlabels_is lab nl n -> labels_in lab n ->
  1 <= nrows lab -> 1 <= ncols lab -> 0 <= n.
Proof.
  intros lab nl n H L Hr Hc. specialize (L (0, 0)).
  assert (0 <= at_ lab (0, 0) <= n) by (apply L; split; cbn; lia). lia.
Qed.

Lemma lcells_as : forall {T} (data : raster T) lab l, same_shape data lab ->
  filter (fun c => at_ lab c =? l) (rcells data) = lcells lab l.
Proof. intros T data lab l [E1 E2]. unfold lcells, rcells. rewrite E1, E2. reflexivity. Qed.

Section Folds.
Context {T : Type}.
Variable ops : NumOps T.
Variables pinf ninf : T.

(** One record type for the common shape of the loops. *)
Lemma bucket_loop : forall {A} (data : raster T) (lab : raster Z) nl n (start : A)
    (step : A -> T -> cell -> A),
  same_shape data lab -> nlabels_is lab nl n -> labels_in lab n -> 1 <= nrows lab -> 1 <= ncols lab ->
  exists st, (k <- resolve_nlabels lab nl ;; s <- np_full (k + 1) start ;;
     mfold (fun s c => val <- rd data (fst c) (snd c) ;; lbl <- rd lab (fst c) (snd c) ;;
                       r <- list_rd s lbl ;; list_wr s lbl (step r val c)) (rcells data) s) = Ok st /\
  Z.of_nat (length st) = n + 1 /\
  forall l, 0 <= l <= n -> nth_error st (Z.to_nat l) =
    Some (fold_left (fun a c => step a (at_ data c) c) (lcells lab l) start).
Proof.
  intros A data lab nl n start step S NL L Hr Hc.
  pose proof (nlabels_nonneg _ _ _ NL L Hr Hc) as Hn.
  rewrite (resolve_spec _ _ _ NL). cbn [bind]. rewrite np_full_ok by lia. cbn [bind].
  rewrite (mfold_ext_in _ (bucket_step (at_ lab) (fun a c => step a (at_ data c) c))).
  2:{ intros a c Hi. apply in_cells_of in Hi. rewrite (rd_at data c) by auto. cbn [bind].
      rewrite (rd_at lab c). 2:{ destruct S as [<- <-]. auto. } reflexivity. }
  destruct (bucket_fold (at_ lab) (fun a c => step a (at_ data c) c) (rcells data)
              (repeat start (Z.to_nat (n + 1)))) as (st & E & Ln & N).
  - intros c Hi. apply in_cells_of in Hi. rewrite repeat_length, Z2Nat.id by lia.
    assert (0 <= at_ lab c <= n). { apply L. destruct S as [<- <-]. auto. } lia.
  - exists st. rewrite repeat_length in Ln. split; auto. split; [lia|].
    intros l Hl. rewrite (N _ start) by (apply nth_error_repeat'; lia).
    rewrite Z2Nat.id by lia. rewrite lcells_as; auto.
Qed.

Theorem label_stats_fold : forall (data : raster T) lab nl n,
  same_shape data lab -> nlabels_is lab nl n -> labels_in lab n -> 1 <= nrows lab -> 1 <= ncols lab ->
  exists st, label_stats ops pinf ninf data lab nl = Ok st /\ Z.of_nat (length st) = n + 1 /\
  forall l, 0 <= l <= n -> nth_error st (Z.to_nat l) =
    Some (fold_left (stat_add ops) (map (at_ data) (lcells lab l)) (stat0 ops pinf ninf)).
Proof.
  intros data lab nl n S NL L Hr Hc.
  destruct (bucket_loop data lab nl n (stat0 ops pinf ninf) (fun s v _ => stat_add ops s v) S NL L Hr Hc)
    as (st & E & Ln & N).
  exists st. split; [exact E|]. split; auto. intros l Hl. rewrite N by auto. f_equal.
  generalize (stat0 ops pinf ninf). induction (lcells lab l); intros s; cbn; auto.
Qed.

Lemma fold_count : forall vs s, s_count (fold_left (stat_add ops) vs s) = s_count s + Z.of_nat (length vs).
Proof. induction vs; intros s; cbn [fold_left length]; [lia|]. rewrite IHvs. cbn. lia. Qed.

Lemma fold_sum : forall vs s, s_sum (fold_left (stat_add ops) vs s) = fold_left (nadd ops) vs (s_sum s).
Proof. induction vs; intros s; cbn [fold_left]; auto. rewrite IHvs. reflexivity. Qed.

Lemma fold_min : forall vs s, s_min (fold_left (stat_add ops) vs s) =
  fold_left (fun m v => if nltb ops v m then v else m) vs (s_min s).
Proof. induction vs; intros s; cbn [fold_left]; auto. rewrite IHvs. reflexivity. Qed.

Lemma fold_max : forall vs s, s_max (fold_left (stat_add ops) vs s) =
  fold_left (fun m v => if nltb ops m v then v else m) vs (s_max s).
Proof. induction vs; intros s; cbn [fold_left]; auto. rewrite IHvs. reflexivity. Qed.

Theorem label_stats_sums : forall (data : raster T) lab nl n,
  same_shape data lab -> nlabels_is lab nl n -> labels_in lab n -> 1 <= nrows lab -> 1 <= ncols lab ->
  exists st, label_stats ops pinf ninf data lab nl = Ok st /\ Z.of_nat (length st) = n + 1 /\
  forall l, 0 <= l <= n -> exists s cs, nth_error st (Z.to_nat l) = Some s /\
    lists_cells (has_label lab l) cs /\
    s_count s = Z.of_nat (length cs) /\
    s_sum s = fold_left (nadd ops) (map (at_ data) cs) (nofZ ops 0).
Proof.
  intros data lab nl n S NL L Hr Hc.
  destruct (label_stats_fold data lab nl n S NL L Hr Hc) as (st & E & Ln & N).
  exists st. split; auto. split; auto. intros l Hl. do 2 eexists. split; [apply N; auto|].
  split; [apply lcells_spec|]. rewrite fold_count, fold_sum, map_length. cbn. auto.
Qed.

(** The compiled loops do the same whenever no access is out of range. *)
Lemma c_rd_ok : forall {A} (l : list A) i x, list_rd l i = Ok x -> c_rd l i = Ok x.
Proof. intros A l i x H. unfold c_rd. rewrite H. auto. Qed.
Lemma c_wr_ok : forall {A} (l : list A) i v x, list_wr l i v = Ok x -> c_wr l i v = Ok x.
Proof. intros A l i v x H. unfold c_wr. rewrite H. auto. Qed.
Lemma c_rd2_ok : forall {A} (a : raster A) i j x, rd a i j = Ok x -> c_rd2 a i j = Ok x.
Proof. intros A a i j x H. unfold c_rd2. rewrite H. auto. Qed.

Lemma cy_loop : forall {A} (data : raster T) (lab : raster Z) (step : A -> T -> cell -> A) cs s st,
  mfold (fun s c => val <- rd data (fst c) (snd c) ;; lbl <- rd lab (fst c) (snd c) ;;
                       r <- list_rd s lbl ;; list_wr s lbl (step r val c)) cs s = Ok st ->
  mfold (fun s c => val <- c_rd2 data (fst c) (snd c) ;; lbl <- c_rd2 lab (fst c) (snd c) ;;
                       r <- c_rd s lbl ;; c_wr s lbl (step r val c)) cs s = Ok st.
Proof.
  induction cs as [|c cs IH]; intros s st H; cbn [mfold] in *; auto.
  apply bind_ok in H. destruct H as (s' & H & H').
  apply bind_ok in H. destruct H as (v & E1 & H).
  apply bind_ok in H. destruct H as (lb & E2 & H).
  apply bind_ok in H. destruct H as (r & E3 & H).
  rewrite (c_rd2_ok _ _ _ _ E1). cbn [bind]. rewrite (c_rd2_ok _ _ _ _ E2). cbn [bind].
  rewrite (c_rd_ok _ _ _ E3). cbn [bind]. rewrite (c_wr_ok _ _ _ _ H). cbn [bind]. auto.
Qed.

Theorem label_stats_cy_same : forall (data : raster T) lab nl st,
  label_stats ops pinf ninf data lab nl = Ok st -> label_stats_cy ops pinf ninf data lab nl = Ok st.
Proof.
  intros data lab nl st H. unfold label_stats, label_stats_cy in *.
  apply bind_ok in H. destruct H as (n & En & H). rewrite En. cbn [bind].
  apply bind_ok in H. destruct H as (s & Es & H). rewrite Es. cbn [bind].
  apply (cy_loop data lab (fun s v _ => stat_add ops s v)). auto.
Qed.

Theorem label_min_index_cy_same : forall (data : raster T) lab nl st,
  label_min_index ops pinf data lab nl = Ok st -> label_min_index_cy ops pinf data lab nl = Ok st.
Proof.
  intros data lab nl st H. unfold label_min_index, label_index, label_min_index_cy in *.
  apply bind_ok in H. destruct H as (n & En & H). rewrite En. cbn [bind].
  apply bind_ok in H. destruct H as (s & Es & H). rewrite Es. cbn [bind].
  apply (cy_loop data lab (fun s v c => min_step ops s v (fst c) (snd c))). auto.
Qed.

(** ** label_data *)

Lemma list_rd_nth : forall {A} (l : list A) i x, nth_error l i = Some x -> list_rd l (Z.of_nat i) = Ok x.
Proof. intros A l i x H. apply list_rd_in; [lia|]. rewrite Nat2Z.id. auto. Qed.

(** A loop over the indices of two parallel lists. *)
Lemma index_loop : forall {A B C} (f : A -> B -> C -> res A) (l1 : list B) (l2 : list C), length l1 = length l2 ->
  forall pre1 pre2 a, length pre1 = length pre2 ->
  mfold (fun a ix => x <- list_rd (pre1 ++ l1) ix ;; y <- list_rd (pre2 ++ l2) ix ;; f a x y)
    (zseq (Z.of_nat (length pre1)) (length l1)) a
  = mfold (fun a p => f a (fst p) (snd p)) (combine l1 l2) a.
Proof.
  intros A B C f. induction l1 as [|x l1 IH]; intros [|y l2] Hl pre1 pre2 a Hp; cbn in Hl; try discriminate; auto.
  cbn [length zseq mfold combine fst snd].
  rewrite (list_rd_nth (pre1 ++ x :: l1) (length pre1) x).
  2:{ rewrite nth_error_app2, Nat.sub_diag; auto. }
  cbn [bind]. rewrite Hp at 1. rewrite (list_rd_nth (pre2 ++ y :: l2) (length pre2) y).
  2:{ rewrite nth_error_app2, Nat.sub_diag; auto. }
  cbn [bind]. destruct (f a x y) as [a'| |]; cbn [bind]; auto.
  specialize (IH l2 ltac:(lia) (pre1 ++ [x]) (pre2 ++ [y]) a').
  rewrite !app_length, <- !app_assoc in IH. cbn [length app] in IH.
  replace (Z.of_nat (length pre1 + 1)) with (Z.of_nat (length pre1) + 1) in IH by lia.
  apply IH. lia.
Qed.

Lemma combine_map : forall {A B C} (f : A -> B) (g : A -> C) l, combine (map f l) (map g l) = map (fun x => (f x, g x)) l.
Proof. induction l; cbn; congruence. Qed.

Lemma label_data_loop : forall (data : raster T) lab l0 bg, same_shape data lab ->
  mfold (fun l ix =>
           label_id <- list_rd (ravel lab) ix ;;
           data_value <- list_rd (ravel data) ix ;;
           if label_id =? bg then Ok l
           else old <- list_rd l label_id ;; list_wr l label_id (old ++ [data_value]))
    (pyrange 0 (Z.of_nat (length (ravel lab))) 1) l0
  = mfold (fun l c => if at_ lab c =? bg then Ok l
                      else bucket_step (at_ lab) (fun a c => a ++ [at_ data c]) l c) (rcells lab) l0.
Proof.
  intros data lab l0 bg S. unfold pyrange. cbn [Z.ltb Z.compare].
  replace (Z.to_nat (Z.of_nat (length (ravel lab)) - 0)) with (length (ravel lab)) by lia.
  assert (Rd : ravel data = map (at_ data) (rcells lab)).
  { unfold ravel, rcells. destruct S as [-> ->]. auto. }
  etransitivity; [exact (index_loop (fun l label_id data_value => if label_id =? bg then Ok l
           else old <- list_rd l label_id ;; list_wr l label_id (old ++ [data_value]))
           (ravel lab) (ravel data) ltac:(unfold ravel at 1; rewrite Rd, !map_length; auto) [] [] l0 eq_refl)|].
  rewrite Rd. unfold ravel. rewrite combine_map, mfold_map. reflexivity.
Qed.

(** A loop that skips some elements is a loop over the others. *)
Lemma mfold_skip : forall {A B} (f : A -> B -> res A) (p : B -> bool) (l : list B) (a : A),
  mfold (fun a x => if p x then Ok a else f a x) l a = mfold f (filter (fun x => negb (p x)) l) a.
Proof.
  induction l as [|x l IH]; intros a; cbn; auto. destruct (p x); cbn; auto.
  destruct (f a x); cbn; auto.
Qed.

Lemma fold_append : forall {A B} (g : A -> B) l acc, fold_left (fun a c => a ++ [g c]) l acc = acc ++ map g l.
Proof.
  induction l as [|x l IH]; intros acc; cbn; [rewrite app_nil_r; auto|].
  rewrite IH, <- app_assoc. reflexivity.
Qed.

Lemma filter_filter_label : forall lab bg l cs, l <> bg ->
  filter (fun c => at_ lab c =? l) (filter (fun c => negb (at_ lab c =? bg)) cs) =
  filter (fun c : cell => at_ (lab : raster Z) c =? l) cs.
Proof.
  induction cs as [|c cs IH]; intros H; cbn; auto.
  destruct (Z.eqb_spec (at_ lab c) bg), (Z.eqb_spec (at_ lab c) l); cbn; auto; try lia.
  - destruct (Z.eqb_spec (at_ lab c) l); [|lia]. f_equal; auto.
  - destruct (Z.eqb_spec (at_ lab c) l); [lia|]. auto.
Qed.

Lemma filter_filter_bg : forall lab bg cs,
  filter (fun c => at_ lab c =? bg) (filter (fun c => negb (at_ (lab : raster Z) c =? bg)) cs) = [].
Proof.
  induction cs as [|c cs IH]; cbn; auto.
  destruct (Z.eqb_spec (at_ lab c) bg); cbn; auto. destruct (Z.eqb_spec (at_ lab c) bg); [lia|auto].
Qed.

Lemma label_data_buckets : forall (data : raster T) lab n bg,
  same_shape data lab -> labels_in lab n -> 0 <= n ->
  exists st, mfold (fun l c => if at_ lab c =? bg then Ok l
                      else bucket_step (at_ lab) (fun a c => a ++ [at_ data c]) l c) (rcells lab)
               (repeat [] (Z.to_nat (n + 1))) = Ok st /\
  Z.of_nat (length st) = n + 1 /\
  forall l, 0 <= l <= n -> nth_error st (Z.to_nat l) =
    Some (if l =? bg then [] else map (at_ data) (lcells lab l)).
Proof.
  intros data lab n bg S L Hn.
  rewrite (mfold_skip (bucket_step (at_ lab) (fun a c => a ++ [at_ data c])) (fun c => at_ lab c =? bg)).
  destruct (bucket_fold (at_ lab) (fun a c => a ++ [at_ data c])
     (filter (fun c => negb (at_ lab c =? bg)) (rcells lab)) (repeat [] (Z.to_nat (n + 1)))) as (st & E & Ln & N).
  { intros c Hi. apply filter_In in Hi. destruct Hi as [Hi _]. apply in_cells_of in Hi.
    rewrite repeat_length, Z2Nat.id by lia. specialize (L c Hi). lia. }
  exists st. rewrite repeat_length in Ln. split; [auto|]. split; [lia|].
  intros l Hl. rewrite (N _ []) by (apply nth_error_repeat'; lia). rewrite Z2Nat.id by lia.
  f_equal. rewrite (fold_append (at_ data)). cbn.
  destruct (Z.eqb_spec l bg) as [->|Hb]; [rewrite filter_filter_bg; auto|].
  rewrite filter_filter_label; auto.
Qed.

Theorem label_data_spec : forall (data : raster T) lab nl n bg,
  same_shape data lab -> nlabels_is lab nl n -> labels_in lab n -> 1 <= nrows lab -> 1 <= ncols lab ->
  exists st, label_data data lab nl bg = Ok st /\ Z.of_nat (length st) = n + 1 /\
  forall l, 0 <= l <= n -> exists cs, lists_cells (has_label lab l) cs /\
    nth_error st (Z.to_nat l) = Some (if l =? bg then [] else map (at_ data) cs).
Proof.
  intros data lab nl n bg S NL L Hr Hc. pose proof (nlabels_nonneg _ _ _ NL L Hr Hc) as Hn.
  unfold label_data. rewrite (resolve_spec _ _ _ NL). cbn [bind]. rewrite label_data_loop by auto.
  destruct (label_data_buckets data lab n bg S L Hn) as (st & E & Ln & N).
  exists st. split; [auto|]. split; [auto|]. intros l Hl. exists (lcells lab l).
  split; [apply lcells_spec | auto].
Qed.

Lemma label_data_cy_loop : forall (data : raster T) lab, same_shape data lab -> forall cs l0,
  (forall c, In c cs -> inside (nrows lab) (ncols lab) c) ->
  forall st, mfold (fun l c => if at_ lab c =? 0 then Ok l
                      else bucket_step (at_ lab) (fun a c => a ++ [at_ data c]) l c) cs l0 = Ok st ->
  mfold (fun l c =>
           lbl <- c_rd2 lab (fst c) (snd c) ;;
           val <- c_rd2 data (fst c) (snd c) ;;
           if lbl =? 0 then Ok l
           else tmp_cyarray <- c_rd l lbl ;; c_wr l lbl (tmp_cyarray ++ [val])) cs l0 = Ok st.
Proof.
  intros data lab S. induction cs as [|c cs IH]; intros l0 I st H; cbn [mfold] in *; auto.
  assert (Ic : inside (nrows lab) (ncols lab) c) by (apply I; left; auto).
  rewrite (c_rd2_at lab c) by auto. cbn [bind].
  rewrite (c_rd2_at data c). 2:{ destruct S as [-> ->]; auto. } cbn [bind].
  apply bind_ok in H. destruct H as (s & E & H). assert (J : forall c, In c cs -> inside (nrows lab) (ncols lab) c).
  { intros; apply I; right; auto. }
  destruct (at_ lab c =? 0).
  - inversion E; subst. cbn [bind]. auto.
  - unfold bucket_step in E. apply bind_ok in E. destruct E as (r & E1 & E2).
    rewrite (c_rd_ok _ _ _ E1). cbn [bind]. rewrite (c_wr_ok _ _ _ _ E2). cbn [bind]. auto.
Qed.

(** Compiled = Python for background 0 (nlabels omitted or positive). *)
Theorem label_data_cy_same : forall (data : raster T) lab nl n bg,
  same_shape data lab -> nlabels_is lab nl n -> nl <> Some 0 -> labels_in lab n -> 1 <= nrows lab -> 1 <= ncols lab ->
  label_data_cy data lab nl bg = label_data data lab nl 0.
Proof.
  intros data lab nl n bg S NL N0 L Hr Hc. pose proof (nlabels_nonneg _ _ _ NL L Hr Hc) as Hn.
  destruct (label_data_buckets data lab n 0 S L Hn) as (st & E & _ & _).
  unfold label_data. rewrite (resolve_spec _ _ _ NL). cbn [bind]. rewrite label_data_loop by auto. rewrite E.
  unfold label_data_cy.
  assert (R : match nl with Some n => Ok n | None => np_max lab end = Ok n).
  { pose proof (resolve_spec _ _ _ NL) as R. destruct nl as [m|]; cbn in R; auto.
    destruct (Z.eqb_spec m 0); auto. congruence. }
  rewrite R. cbn [bind].
  apply label_data_cy_loop; auto.
  - intros c Hi. apply in_cells_of in Hi. destruct S as [<- <-]. auto.
  - replace (rcells data) with (rcells lab). auto. unfold rcells. destruct S as [-> ->]. auto.
Qed.
End Folds.

(** ** Counting *)

Lemma length_filter_map : forall {A B} (f : A -> B) p l,
  length (filter p (map f l)) = length (filter (fun x => p (f x)) l).
Proof. induction l; cbn; auto. destruct (p (f a)); cbn; auto. Qed.

Lemma nth_error_zseq : forall n a i, (i < n)%nat -> nth_error (zseq a n) i = Some (a + Z.of_nat i).
Proof.
  induction n; intros a [|i] H; cbn; try lia; [f_equal; lia|].
  rewrite IHn by lia. f_equal. lia.
Qed.

Theorem label_count_spec : forall lab n, labels_in lab n -> largest_label lab n ->
  exists st, label_count lab = Ok st /\ Z.of_nat (length st) = n + 1 /\
  forall l, 0 <= l <= n -> exists cs, lists_cells (has_label lab l) cs /\
    nth_error st (Z.to_nat l) = Some (Z.of_nat (length cs)).
Proof.
  intros lab n L LL. unfold label_count.
  assert (A : existsb (fun x => x <? 0) (ravel lab) = false).
  { destruct (existsb _ _) eqn:E; auto. apply existsb_exists in E. destruct E as (x & Hx & Hn).
    apply in_map_iff in Hx. destruct Hx as (c & <- & Hc). apply in_cells_of in Hc. specialize (L c Hc).
    apply Z.ltb_lt in Hn. lia. }
  rewrite A.
  assert (M : zmax_from (-1) (ravel lab) = n).
  { destruct (zmax_from_spec (ravel lab) (-1)) as (A1 & A2 & A3).
    destruct LL as ((c & [Ic Ec]) & Le).
    assert (In n (ravel lab)). { rewrite <- Ec. apply in_map. apply in_cells_of. auto. }
    specialize (A2 n H). specialize (L c Ic).
    destruct A3 as [A3|A3]; [lia|]. apply in_map_iff in A3. destruct A3 as (d & E & Hd).
    apply in_cells_of in Hd. specialize (Le d Hd). lia. }
  rewrite M. assert (Hn : 0 <= n). { destruct LL as ((c & [Ic Ec]) & _). specialize (L c Ic). lia. }
  eexists. split; [reflexivity|]. unfold pyrange. cbn [Z.ltb Z.compare]. split.
  { rewrite map_length, zseq_length. lia. }
  intros l Hl. exists (lcells lab l). split; [apply lcells_spec|].
  rewrite nth_error_map, nth_error_zseq by lia. cbn [option_map].
  replace (0 + Z.of_nat (Z.to_nat l)) with l by lia. f_equal. f_equal.
  unfold ravel. rewrite length_filter_map. unfold lcells. f_equal. apply filter_ext.
  intros c. apply Z.eqb_sym.
Qed.

(** Every cell is in exactly one bucket: cells by label are a permutation of all cells. *)
Lemma sum_buckets : forall lab n cs, (forall c, In c cs -> 0 <= at_ (lab : raster Z) c < n) ->
  fold_right Z.add 0 (map (fun l => Z.of_nat (length (filter (fun c => at_ lab c =? l) cs))) (pyrange 0 n 1)) =
  Z.of_nat (length cs).
Proof.
  intros lab n. induction cs as [|c cs IH]; intros H.
  - cbn [filter length]. induction (pyrange 0 n 1) as [|x l IHl]; cbn [map fold_right]; [reflexivity|]. rewrite IHl. reflexivity.
  - cbn [length]. rewrite Nat2Z.inj_succ. rewrite <- IH by (intros; apply H; right; auto).
    assert (Hc : In (at_ lab c) (pyrange 0 n 1)). { apply in_pyrange_up. apply H. left; auto. }
    pose proof (pyrange_up_NoDup 0 n) as ND.
    assert (X : forall ls, NoDup ls -> fold_right Z.add 0 (map (fun l => Z.of_nat (length (filter (fun c => at_ lab c =? l) (c :: cs)))) ls)
      = (if in_dec Z.eq_dec (at_ lab c) ls then 1 else 0) +
        fold_right Z.add 0 (map (fun l => Z.of_nat (length (filter (fun c => at_ lab c =? l) cs))) ls)).
    { induction ls as [|l ls IHl]; intros NDl; [reflexivity|]. inversion NDl; subst.
      cbn [map fold_right]. rewrite IHl by auto. cbn [filter].
      destruct (Z.eqb_spec (at_ lab c) l).
      - subst l. destruct (in_dec Z.eq_dec (at_ lab c) ls); [contradiction|].
        destruct (in_dec Z.eq_dec (at_ lab c) (at_ lab c :: ls)) as [_|N]; [|exfalso; apply N; left; auto].
        cbn [length]. lia.
      - destruct (in_dec Z.eq_dec (at_ lab c) ls) as [i|i];
          destruct (in_dec Z.eq_dec (at_ lab c) (l :: ls)) as [j|j]; try lia.
        + exfalso; apply j; right; auto.
        + destruct j; [congruence | contradiction]. }
    rewrite X by auto. destruct (in_dec Z.eq_dec (at_ lab c) (pyrange 0 n 1)); [lia|contradiction].
Qed.
