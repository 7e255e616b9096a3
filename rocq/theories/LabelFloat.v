(** Extremes of binary64 data per label. *)

From Coq Require Import Sorted.
From Flocq Require Import IEEE754.BinarySingleNaN.
From Verif Require Import Base BaseProofs Num Float64 Float64Proofs FillSpec FillProofs LabelModel LabelSpec LabelProofs.

Section Extreme.
Variable better : b64 -> b64 -> bool.
Variable key : b64 -> Z.
Variable start : b64.
Variable data : raster b64.
Hypothesis better_nan : forall m, better B754_nan m = false.
Hypothesis better_key : forall v m, not_nan v -> not_nan m -> better v m = (key v <? key m).
Hypothesis start_nn : not_nan start.
Hypothesis start_max : forall v, not_nan v -> key v <= key start.

Definition ext_step (r : index_record) (c : cell) : index_record :=
  if better (at_ data c) (i_value r) then mkIdx (at_ data c) (fst c) (snd c) else r.

Definition ext_ok (cs : list cell) (r : @index_record b64) : Prop :=
  (r = mkIdx start (-1) (-1) /\ forall d, In d cs -> not_nan (at_ data d) -> key (at_ data d) = key start) \/
  (exists c, In c cs /\ r = mkIdx (at_ data c) (fst c) (snd c) /\ not_nan (at_ data c) /\
     key (at_ data c) < key start /\
     (forall d, In d cs -> not_nan (at_ data d) -> key (at_ data c) <= key (at_ data d)) /\
     (forall d, In d cs -> before d c -> not_nan (at_ data d) -> key (at_ data c) < key (at_ data d))).

Lemma nan_dec : forall v : b64, not_nan v \/ v = B754_nan.
Proof. intros [s|s| |s m e H]; unfold not_nan; cbn; auto. Qed.

Lemma ext_ok_nn : forall cs r, ext_ok cs r -> not_nan (i_value r).
Proof. intros cs r [[-> _]|(c & _ & -> & H & _)]; cbn; auto. Qed.

Lemma ext_snoc : forall cs c r, (forall d, In d cs -> before d c) -> ext_ok cs r -> ext_ok (cs ++ [c]) (ext_step r c).
Proof.
  intros cs c r Hb H. unfold ext_step. pose proof (ext_ok_nn _ _ H) as Nn.
  destruct (nan_dec (at_ data c)) as [Nc|Nc].
  - rewrite better_key by auto. destruct (Z.ltb_spec (key (at_ data c)) (key (i_value r))) as [Lt|Ge].
    + right. exists c. split; [apply in_or_app; right; left; auto|]. split; [auto|]. split; [auto|].
      destruct H as [[-> H]|(e & He & -> & Ne & Le & H1 & H2)]; cbn in Lt.
      * split; [auto|]. split.
        -- intros d Hd Nd. apply in_app_or in Hd. destruct Hd as [Hd|[<-|[]]]; [|lia]. rewrite (H d) by auto. lia.
        -- intros d Hd Bd Nd. apply in_app_or in Hd. destruct Hd as [Hd|[<-|[]]].
           ++ rewrite (H d) by auto. lia.
           ++ destruct (before_irrefl c Bd).
      * split; [lia|]. split.
        -- intros d Hd Nd. apply in_app_or in Hd. destruct Hd as [Hd|[<-|[]]]; [|lia]. specialize (H1 d Hd Nd). lia.
        -- intros d Hd Bd Nd. apply in_app_or in Hd. destruct Hd as [Hd|[<-|[]]].
           ++ specialize (H1 d Hd Nd). lia.
           ++ destruct (before_irrefl c Bd).
    + destruct H as [[-> H]|(e & He & -> & Ne & Le & H1 & H2)]; cbn in Ge.
      * left. split; auto. intros d Hd Nd. apply in_app_or in Hd. destruct Hd as [Hd|[<-|[]]]; auto.
        specialize (start_max _ Nd). lia.
      * right. exists e. split; [apply in_or_app; auto|]. split; [auto|]. split; [auto|]. split; [auto|]. split.
        -- intros d Hd Nd. apply in_app_or in Hd. destruct Hd as [Hd|[<-|[]]]; auto.
        -- intros d Hd Bd Nd. apply in_app_or in Hd. destruct Hd as [Hd|[<-|[]]]; auto.
           exfalso. specialize (Hb e He). unfold before in *. lia.
  - rewrite Nc, better_nan.
    destruct H as [[-> H]|(e & He & -> & Ne & Le & H1 & H2)].
    + left. split; auto. intros d Hd Nd. apply in_app_or in Hd. destruct Hd as [Hd|[<-|[]]]; auto.
      rewrite Nc in Nd. discriminate.
    + right. exists e. split; [apply in_or_app; auto|]. split; [auto|]. split; [auto|]. split; [auto|]. split.
      * intros d Hd Nd. apply in_app_or in Hd. destruct Hd as [Hd|[<-|[]]]; auto. rewrite Nc in Nd. discriminate.
      * intros d Hd Bd Nd. apply in_app_or in Hd. destruct Hd as [Hd|[<-|[]]]; auto. rewrite Nc in Nd. discriminate.
Qed.

Lemma SS_snoc : forall l (c : cell), StronglySorted before (l ++ [c]) ->
  StronglySorted before l /\ forall d, In d l -> before d c.
Proof.
  induction l as [|a l IH]; intros c H.
  - split; [constructor | intros d []].
  - cbn in H. inversion H; subst. destruct (IH c H2) as [S B]. rewrite Forall_forall in H3.
    split.
    + constructor; auto. apply Forall_forall. intros x Hx. apply H3. apply in_or_app; auto.
    + intros d [<-|Hd]; auto. apply H3. apply in_or_app; right; left; auto.
Qed.

Lemma ext_fold : forall cs, StronglySorted before cs ->
  ext_ok cs (fold_left ext_step cs (mkIdx start (-1) (-1))).
Proof.
  induction cs as [|c cs IH] using rev_ind; intros S.
  - left. split; auto. intros d [].
  - destruct (SS_snoc _ _ S) as [S' B]. rewrite fold_left_app. cbn. apply ext_snoc; auto.
Qed.

Lemma ext_value : forall cs r, i_value (fold_left ext_step cs r) =
  fold_left (fun m v => if better v m then v else m) (map (at_ data) cs) (i_value r).
Proof.
  induction cs as [|c cs IH]; intros r; cbn; auto. rewrite IH. unfold ext_step.
  destruct (better (at_ data c) (i_value r)); auto.
Qed.
End Extreme.

(** ** Minimum *)

Definition bmin : b64 -> b64 -> bool := fun v m => Bltb v m.
Definition bmax : b64 -> b64 -> bool := fun v m => Bltb m v.

Lemma bmin_nan : forall m, bmin B754_nan m = false.
Proof. intros [s|s| |s m e H]; reflexivity. Qed.
Lemma bmax_nan : forall m, bmax B754_nan m = false.
Proof. intros [s|[|]| |s m e H]; reflexivity. Qed.
Lemma bmin_key : forall v m, not_nan v -> not_nan m -> bmin v m = (rank v <? rank m).
Proof. intros. apply Bltb_rank; auto. Qed.
Lemma bmax_key : forall v m, not_nan v -> not_nan m -> bmax v m = (- rank v <? - rank m).
Proof.
  intros v m Hv Hm. unfold bmax. rewrite Bltb_rank by auto.
  destruct (Z.ltb_spec (rank m) (rank v)), (Z.ltb_spec (- rank v) (- rank m)); auto; lia.
Qed.
Lemma min_start : forall v, not_nan v -> rank v <= rank f64_inf.
Proof. intros v H. pose proof (rank_bounds v H). unfold f64_inf. rewrite rank_pinf. lia. Qed.
Lemma max_start : forall v, not_nan v -> - rank v <= - rank f64_ninf.
Proof. intros v H. pose proof (rank_bounds v H). unfold f64_ninf. rewrite rank_ninf. lia. Qed.

Lemma rank_is_inf : forall v, not_nan v -> rank v = rank f64_inf -> v = f64_inf.
Proof.
  intros v H E. unfold f64_inf in *. rewrite rank_pinf in E. pose proof RINF_pos.
  destruct (not_nan_cases v H) as [F|[->| ->]]; auto.
  - pose proof (rank_finite_bound v F). lia.
  - rewrite rank_ninf in E. lia.
Qed.
Lemma rank_is_ninf : forall v, not_nan v -> rank v = rank f64_ninf -> v = f64_ninf.
Proof.
  intros v H E. unfold f64_ninf in *. rewrite rank_ninf in E. pose proof RINF_pos.
  destruct (not_nan_cases v H) as [F|[->| ->]]; auto.
  - pose proof (rank_finite_bound v F). lia.
  - rewrite rank_pinf in E. lia.
Qed.

Lemma min_extreme : forall data cs, StronglySorted before cs ->
  extreme le64 f64_inf (fun c => In c cs) data
    (fold_left (fun m v => if nltb F64Ops v m then v else m) (map (at_ data) cs) f64_inf).
Proof.
  intros data cs S.
  pose proof (ext_fold bmin rank f64_inf data bmin_nan bmin_key eq_refl min_start cs S) as E.
  pose proof (ext_value bmin data cs (mkIdx f64_inf (-1) (-1))) as V. cbn [i_value] in V.
  change (fun m v => if nltb F64Ops v m then v else m) with (fun m v => if bmin v m then v else m).
  rewrite <- V. clear V. destruct E as [[-> H]|(c & Hc & -> & Nc & Lt & H1 & H2)]; cbn [i_value].
  - split.
    + destruct (Exists_dec (fun c => not_nan (at_ data c)) cs) as [X|X].
      { intros c. unfold not_nan. destruct (is_nan (at_ data c)); [right; congruence | left; auto]. }
      * apply Exists_exists in X. destruct X as (c & Hc & Nc). left. exists c. split; auto. split; auto.
        symmetry. apply rank_is_inf; auto.
      * right. split; auto. intros c Hc Nc. apply X. apply Exists_exists. eauto.
    + intros c Hc Nc. apply le64_rank; auto. reflexivity. rewrite (H c) by auto. lia.
  - split.
    + left. eauto.
    + intros d Hd Nd. apply le64_rank; auto.
Qed.

Lemma max_extreme : forall data cs, StronglySorted before cs ->
  extreme (fun a b => le64 b a) f64_ninf (fun c => In c cs) data
    (fold_left (fun m v => if nltb F64Ops m v then v else m) (map (at_ data) cs) f64_ninf).
Proof.
  intros data cs S.
  pose proof (ext_fold bmax (fun v => - rank v) f64_ninf data bmax_nan bmax_key eq_refl max_start cs S) as E.
  pose proof (ext_value bmax data cs (mkIdx f64_ninf (-1) (-1))) as V. cbn [i_value] in V.
  change (fun m v => if nltb F64Ops m v then v else m) with (fun m v => if bmax v m then v else m).
  rewrite <- V. clear V. destruct E as [[-> H]|(c & Hc & -> & Nc & Lt & H1 & H2)]; cbn [i_value].
  - split.
    + destruct (Exists_dec (fun c => not_nan (at_ data c)) cs) as [X|X].
      { intros c. unfold not_nan. destruct (is_nan (at_ data c)); [right; congruence | left; auto]. }
      * apply Exists_exists in X. destruct X as (c & Hc & Nc). left. exists c. split; auto. split; auto.
        symmetry. apply rank_is_ninf; auto. specialize (H c Hc Nc). lia.
      * right. split; auto. intros c Hc Nc. apply X. apply Exists_exists. eauto.
    + intros c Hc Nc. apply le64_rank; auto. reflexivity. specialize (H c Hc Nc). lia.
  - split.
    + left. eauto.
    + intros d Hd Nd. apply le64_rank; auto. specialize (H1 d Hd Nd). lia.
Qed.

Lemma extreme_iff : forall le top P P' data m, (forall c, P c <-> P' c) ->
  extreme le top P data m -> extreme le top P' data m.
Proof.
  intros le top P P' data m E [[(c & H & N)|[-> H]] L].
  - split; [left; exists c; rewrite <- E; auto|]. intros d Hd. apply L. apply E; auto.
  - split; [right; split; auto; intros d Hd; apply H; apply E; auto|]. intros d Hd. apply L. apply E; auto.
Qed.

Theorem label_stats64_spec : forall (data : raster b64) lab nl n,
  same_shape data lab -> nlabels_is lab nl n -> labels_in lab n -> 1 <= nrows lab -> 1 <= ncols lab ->
  exists st, label_stats64 data lab nl = Ok st /\ label_stats64_cy data lab nl = Ok st /\
  Z.of_nat (length st) = n + 1 /\
  forall l, 0 <= l <= n -> exists s cs, nth_error st (Z.to_nat l) = Some s /\
    lists_cells (has_label lab l) cs /\
    s_count s = Z.of_nat (length cs) /\
    s_sum s = fold_left f64_add (map (at_ data) cs) (f64_ofZ 0) /\
    extreme le64 f64_inf (has_label lab l) data (s_min s) /\
    extreme (fun a b => le64 b a) f64_ninf (has_label lab l) data (s_max s).
Proof.
  intros data lab nl n S NL L Hr Hc.
  destruct (label_stats_fold F64Ops f64_inf f64_ninf data lab nl n S NL L Hr Hc) as (st & E & Ln & N).
  exists st. split; auto. split; [apply label_stats_cy_same; auto|]. split; auto.
  intros l Hl. do 2 eexists. split; [apply N; auto|]. destruct (lcells_spec lab l) as [S1 S2].
  split; [split; eauto|]. rewrite fold_count, fold_sum, fold_min, fold_max, map_length.
  split; [reflexivity|]. split; [reflexivity|]. split.
  - apply (extreme_iff _ _ (fun c => In c (lcells lab l))); auto. apply min_extreme; auto.
  - apply (extreme_iff _ _ (fun c => In c (lcells lab l))); auto. apply max_extreme; auto.
Qed.

Lemma nth_error_ext : forall {A} (l1 l2 : list A), (forall i, nth_error l1 i = nth_error l2 i) -> l1 = l2.
Proof.
  induction l1 as [|x l1 IH]; intros [|y l2] H; auto; try (specialize (H 0%nat); discriminate).
  pose proof (H 0%nat) as H0. cbn in H0. inversion H0; subst. f_equal. apply IH. intros i. apply (H (S i)).
Qed.

Theorem label_counts_total : forall (data : raster b64) lab nl n st,
  same_shape data lab -> nlabels_is lab nl n -> labels_in lab n -> 1 <= nrows lab -> 1 <= ncols lab ->
  label_stats64 data lab nl = Ok st -> fold_right Z.add 0 (map s_count st) = nrows lab * ncols lab.
Proof.
  intros data lab nl n st S NL L Hr Hc H.
  destruct (label_stats_fold F64Ops f64_inf f64_ninf data lab nl n S NL L Hr Hc) as (st' & E & Ln & N).
  unfold label_stats64 in H. rewrite E in H. inversion H; subst st'. clear H E.
  pose proof (nlabels_nonneg _ _ _ NL L Hr Hc) as Hn.
  replace (map s_count st) with
    (map (fun l => Z.of_nat (length (filter (fun c => at_ lab c =? l) (rcells lab)))) (pyrange 0 (n + 1) 1)).
  - rewrite sum_buckets.
    + unfold rcells, cells_of.
      assert (X : forall l1 (l2 : list Z), length (flat_map (fun r : Z => map (fun c : Z => (r, c)) l2) l1) =
                 (length l1 * length l2)%nat).
      { induction l1; intros; cbn; auto. rewrite app_length, map_length, IHl1. auto. }
      rewrite X. unfold pyrange. cbn [Z.ltb Z.compare]. rewrite !zseq_length. lia.
    + intros c Hi. apply in_cells_of in Hi. specialize (L c Hi). lia.
  - apply nth_error_ext. intros i. destruct (Nat.lt_ge_cases i (length st)) as [Hi|Hi].
    + rewrite !nth_error_map. unfold pyrange. cbn [Z.ltb Z.compare].
      rewrite nth_error_zseq by lia. cbn [option_map].
      specialize (N (Z.of_nat i) ltac:(lia)). rewrite Nat2Z.id in N. rewrite N. cbn [option_map].
      rewrite fold_count, map_length. reflexivity.
    + rewrite (proj2 (nth_error_None _ _)), (proj2 (nth_error_None _ _)); auto.
      * rewrite map_length. auto.
      * rewrite map_length. unfold pyrange. cbn [Z.ltb Z.compare]. rewrite zseq_length. lia.
Qed.

(** ** Index of the extreme *)

Theorem label_min_index_spec : forall (data : raster b64) lab nl n,
  same_shape data lab -> nlabels_is lab nl n -> labels_in lab n -> 1 <= nrows lab -> 1 <= ncols lab ->
  exists st, label_min_index64 data lab nl = Ok st /\ label_min_index64_cy data lab nl = Ok st /\
  Z.of_nat (length st) = n + 1 /\
  forall l, 0 <= l <= n -> exists r, nth_error st (Z.to_nat l) = Some r /\
    ((first_extreme le64 lt64 (has_label lab l) data (i_value r) (i_row r, i_col r) /\ lt64 (i_value r) f64_inf) \/
     (r = mkIdx f64_inf (-1) (-1) /\ forall c, has_label lab l c -> ~ lt64 (at_ data c) f64_inf)).
Proof.
  intros data lab nl n S NL L Hr Hc.
  destruct (bucket_loop data lab nl n (mkIdx f64_inf (-1) (-1)) (fun s v c => min_step F64Ops s v (fst c) (snd c)) S NL L Hr Hc)
    as (st & E & Ln & N).
  exists st. split; [exact E|]. split; [apply label_min_index_cy_same; exact E|]. split; auto.
  intros l Hl. eexists. split; [apply N; auto|]. destruct (lcells_spec lab l) as [S1 S2].
  change (fun (a : index_record) (c : cell) => min_step F64Ops a (at_ data c) (fst c) (snd c))
    with (ext_step bmin data).
  destruct (ext_fold bmin rank f64_inf data bmin_nan bmin_key eq_refl min_start (lcells lab l) S1)
    as [[-> H]|(c & H0 & -> & Nc & Lt & H1 & H2)].
  - right. split; auto. intros c Hcl Lt. assert (Nc : not_nan (at_ data c)).
    { destruct (nan_dec (at_ data c)) as [?|X]; auto. rewrite X in Lt. discriminate Lt. }
    apply lt64_rank in Lt; auto; [|reflexivity]. rewrite (H c) in Lt by (try apply S2; auto). lia.
  - left. cbn [i_value i_row i_col]. split.
    + split; [destruct c; apply S2; auto|]. split; [destruct c; auto|]. split.
      * intros d Hd Nd. apply le64_rank; auto. apply H1; auto. apply S2; auto.
      * intros d Hd Bd Nd. apply lt64_rank; auto. apply H2; auto. apply S2; auto.
    + apply lt64_rank; auto. reflexivity.
Qed.

Theorem label_max_index_spec : forall (data : raster b64) lab nl n,
  same_shape data lab -> nlabels_is lab nl n -> labels_in lab n -> 1 <= nrows lab -> 1 <= ncols lab ->
  exists st, label_max_index64 data lab nl = Ok st /\
  Z.of_nat (length st) = n + 1 /\
  forall l, 0 <= l <= n -> exists r, nth_error st (Z.to_nat l) = Some r /\
    ((first_extreme (fun a b => le64 b a) (fun a b => lt64 b a) (has_label lab l) data (i_value r) (i_row r, i_col r) /\
      lt64 f64_ninf (i_value r)) \/
     (r = mkIdx f64_ninf (-1) (-1) /\ forall c, has_label lab l c -> ~ lt64 f64_ninf (at_ data c))).
Proof.
  intros data lab nl n S NL L Hr Hc.
  destruct (bucket_loop data lab nl n (mkIdx f64_ninf (-1) (-1)) (fun s v c => max_step F64Ops s v (fst c) (snd c)) S NL L Hr Hc)
    as (st & E & Ln & N).
  exists st. split; [exact E|]. split; auto.
  intros l Hl. eexists. split; [apply N; auto|]. destruct (lcells_spec lab l) as [S1 S2].
  change (fun (a : index_record) (c : cell) => max_step F64Ops a (at_ data c) (fst c) (snd c))
    with (ext_step bmax data).
  destruct (ext_fold bmax (fun v => - rank v) f64_ninf data bmax_nan bmax_key eq_refl max_start (lcells lab l) S1)
    as [[-> H]|(c & H0 & -> & Nc & Lt & H1 & H2)].
  - right. split; auto. intros c Hcl Lt. assert (Nc : not_nan (at_ data c)).
    { destruct (nan_dec (at_ data c)) as [?|X]; auto. rewrite X in Lt. discriminate Lt. }
    apply lt64_rank in Lt; auto; [|reflexivity].
    assert (- rank (at_ data c) = - rank f64_ninf) by (apply H; auto; apply S2; auto). lia.
  - left. cbn [i_value i_row i_col]. split.
    + split; [destruct c; apply S2; auto|]. split; [destruct c; auto|]. split.
      * intros d Hd Nd. apply le64_rank; auto. assert (- rank (at_ data c) <= - rank (at_ data d)) by (apply H1; auto; apply S2; auto). lia.
      * intros d Hd Bd Nd. apply lt64_rank; auto.
        assert (- rank (at_ data c) < - rank (at_ data d)).
        { apply H2; auto. apply S2; auto. } lia.
    + apply lt64_rank; auto. reflexivity. lia.
Qed.
