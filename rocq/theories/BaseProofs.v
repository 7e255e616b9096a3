(** * Lemmas about Base *)
From Coq Require Import FinFun.
From Verif Require Import Base.

Lemma in_zseq : forall n a x, In x (zseq a n) <-> a <= x < a + Z.of_nat n.
Proof.
  induction n as [|n IH]; intros a x; cbn [zseq In].
  - split; [tauto | lia].
  - rewrite IH. split; [intros [->|H]; lia | intros H].
    destruct (Z.eq_dec a x); [left; lia | right; lia].
Qed.

Lemma in_zseq_down : forall n a x, In x (zseq_down a n) <-> a - Z.of_nat n < x <= a.
Proof.
  induction n as [|n IH]; intros a x; cbn [zseq_down In].
  - split; [tauto | lia].
  - rewrite IH. split; [intros [->|H]; lia | intros H].
    destruct (Z.eq_dec a x); [left; lia | right; lia].
Qed.

Lemma in_pyrange_up : forall a b x, In x (pyrange a b 1) <-> a <= x < b.
Proof. intros a b x. unfold pyrange. cbn. rewrite in_zseq. lia. Qed.

Lemma in_pyrange_down : forall a b x, In x (pyrange a b (-1)) <-> b < x <= a.
Proof. intros a b x. unfold pyrange. cbn. rewrite in_zseq_down. lia. Qed.

Lemma zseq_length : forall n a, length (zseq a n) = n.
Proof. induction n; intros; cbn; auto. Qed.

Lemma zseq_down_length : forall n a, length (zseq_down a n) = n.
Proof. induction n; intros; cbn; auto. Qed.

Lemma zseq_NoDup : forall n a, NoDup (zseq a n).
Proof.
  induction n as [|n IH]; intros a; cbn; constructor; auto.
  rewrite in_zseq. lia.
Qed.

Lemma zseq_app : forall n m a, zseq a (n + m) = zseq a n ++ zseq (a + Z.of_nat n) m.
Proof.
  induction n as [|n IH]; intros m a; cbn [zseq plus].
  - cbn. f_equal. lia.
  - cbn. f_equal. rewrite IH. f_equal. f_equal. lia.
Qed.

Lemma in_cells_of : forall rows cols c, In c (cells_of rows cols) <-> inside rows cols c.
Proof.
  intros rows cols [r c]. unfold cells_of, inside. rewrite in_flat_map. cbn [fst snd].
  split.
  - intros (r' & Hr & H). rewrite in_map_iff in H. destruct H as (c' & E & Hc).
    inversion E; subst. rewrite in_pyrange_up in *. lia.
  - intros (Hr & Hc). exists r. rewrite in_pyrange_up. split; [lia|].
    rewrite in_map_iff. exists c. rewrite in_pyrange_up. split; [reflexivity | lia].
Qed.

Lemma NoDup_flat_map_pairs : forall (l1 : list Z) (l2 : list Z),
  NoDup l1 -> NoDup l2 -> NoDup (flat_map (fun r => map (fun c => (r, c)) l2) l1).
Proof.
  induction l1 as [|r l1 IH]; intros l2 H1 H2; cbn; [constructor|].
  inversion H1; subst.
  assert (Happ : forall (A B : list (Z * Z)), NoDup A -> NoDup B ->
                 (forall x, In x A -> ~ In x B) -> NoDup (A ++ B)).
  { induction A as [|a A IHA]; intros B HA HB Hd; cbn; auto.
    inversion HA; subst. constructor.
    - rewrite in_app_iff. intros [H|H]; [auto|]. apply (Hd a); [left; auto | auto].
    - apply IHA; auto. intros x Hx. apply Hd. right; auto. }
  apply Happ.
  - apply FinFun.Injective_map_NoDup; auto. intros x y E. inversion E; auto.
  - apply IH; auto.
  - intros x Hx Hy. rewrite in_map_iff in Hx. destruct Hx as (c & <- & Hc).
    rewrite in_flat_map in Hy. destruct Hy as (r' & Hr' & Hy).
    rewrite in_map_iff in Hy. destruct Hy as (c' & E & _). inversion E; subst. auto.
Qed.

Lemma pyrange_up_NoDup : forall a b, NoDup (pyrange a b 1).
Proof. intros. unfold pyrange. cbn. apply zseq_NoDup. Qed.

Lemma cells_of_NoDup : forall rows cols, NoDup (cells_of rows cols).
Proof. intros. apply NoDup_flat_map_pairs; apply pyrange_up_NoDup. Qed.

Lemma pyidx_in : forall n i, 0 <= i < n -> pyidx n i = Some i.
Proof.
  intros n i H. unfold pyidx.
  replace ((0 <=? i) && (i <? n)) with true by (symmetry; rewrite andb_true_iff; lia).
  reflexivity.
Qed.

Lemma rd_in : forall {T} (a : raster T) i j,
  0 <= i < nrows a -> 0 <= j < ncols a -> rd a i j = Ok (rget a i j).
Proof. intros. unfold rd. rewrite !pyidx_in by auto. reflexivity. Qed.

Lemma wr_in : forall {T} (a : raster T) i j v,
  0 <= i < nrows a -> 0 <= j < ncols a -> wr a i j v = Ok (rset a i j v).
Proof. intros. unfold wr. rewrite !pyidx_in by auto. reflexivity. Qed.

Lemma rget_rset_same : forall {T} (a : raster T) i j v, rget (rset a i j v) i j = v.
Proof. intros. cbn. rewrite !Z.eqb_refl. reflexivity. Qed.

Lemma rget_rset_other : forall {T} (a : raster T) i j v i' j',
  (i', j') <> (i, j) -> rget (rset a i j v) i' j' = rget a i' j'.
Proof.
  intros. cbn. destruct (Z.eqb_spec i' i), (Z.eqb_spec j' j); subst; auto. congruence.
Qed.

Lemma at_rset_same : forall {T} (a : raster T) c v,
  at_ (rset a (fst c) (snd c) v) c = v.
Proof. intros. apply rget_rset_same. Qed.

Lemma at_rset_other : forall {T} (a : raster T) c d v,
  d <> c -> at_ (rset a (fst c) (snd c) v) d = at_ a d.
Proof. intros T a [i j] [i' j'] v H. apply rget_rset_other. cbn. auto. Qed.

Definition cell_eq_dec : forall a b : cell, {a = b} + {a <> b}.
Proof. intros [a1 a2] [b1 b2]. destruct (Z.eq_dec a1 b1), (Z.eq_dec a2 b2); subst; auto;
  right; congruence. Defined.

Lemma cell_eqb_spec : forall a b, reflect (a = b) (cell_eqb a b).
Proof.
  intros [a1 a2] [b1 b2]. unfold cell_eqb. cbn.
  destruct (Z.eqb_spec a1 b1), (Z.eqb_spec a2 b2); subst; cbn; constructor; congruence.
Qed.

Lemma mfold_app : forall {A B} (f : A -> B -> res A) l1 l2 a,
  mfold f (l1 ++ l2) a = (a' <- mfold f l1 a ;; mfold f l2 a').
Proof.
  induction l1 as [|x l1 IH]; intros l2 a; cbn; auto.
  destruct (f a x); cbn; auto.
Qed.

Lemma mfold_flat_map : forall {A B C} (f : A -> C -> res A) (g : B -> list C) l a,
  mfold f (flat_map g l) a = mfold (fun a b => mfold f (g b) a) l a.
Proof.
  induction l as [|x l IH]; intros a; cbn; auto.
  rewrite mfold_app. destruct (mfold f (g x) a); cbn; auto.
Qed.

Lemma mfold_map : forall {A B C} (f : A -> C -> res A) (g : B -> C) l a,
  mfold f (map g l) a = mfold (fun a b => f a (g b)) l a.
Proof.
  induction l as [|x l IH]; intros a; cbn; auto.
  destruct (f a (g x)); cbn; auto.
Qed.

Lemma mfold_ext : forall {A B} (f g : A -> B -> res A) l a,
  (forall a x, f a x = g a x) -> mfold f l a = mfold g l a.
Proof.
  induction l as [|x l IH]; intros a H; cbn; auto.
  rewrite H. destruct (g a x); cbn; auto.
Qed.

Lemma mfold_ext_in : forall {A B} (f g : A -> B -> res A) l a,
  (forall a x, In x l -> f a x = g a x) -> mfold f l a = mfold g l a.
Proof.
  induction l as [|x l IH]; intros a H; cbn; auto.
  rewrite H by (left; auto). destruct (g a x); cbn; auto.
  apply IH. intros; apply H; right; auto.
Qed.

(** If every step keeps an invariant and is [Ok], the whole fold is. *)
Lemma mfold_inv : forall {A B} (f : A -> B -> res A) (P : A -> Prop) l a,
  P a -> (forall a x, In x l -> P a -> exists a', f a x = Ok a' /\ P a') ->
  exists a', mfold f l a = Ok a' /\ P a'.
Proof.
  induction l as [|x l IH]; intros a Ha H; cbn.
  - eauto.
  - destruct (H a x) as (a' & E & Ha'); [left; auto | auto |]. rewrite E. cbn.
    apply IH; auto. intros; apply H; auto. right; auto.
Qed.

Lemma mfold_pure : forall {A B} (f : A -> B -> A) l a,
  mfold (fun a b => Ok (f a b)) l a = Ok (fold_left f l a).
Proof. induction l; intros; cbn; auto. Qed.

Lemma bind_ok : forall {A B} (x : res A) (f : A -> res B) b,
  bind x f = Ok b -> exists a, x = Ok a /\ f a = Ok b.
Proof. intros A B [a|e|] f b H; cbn in H; try discriminate; eauto. Qed.

(** Lists *)
Lemma list_upd_length : forall {T} (l : list T) n v, length (list_upd l n v) = length l.
Proof. induction l; destruct n; intros; cbn; auto. Qed.

Lemma nth_error_list_upd_same : forall {T} (l : list T) n v,
  (n < length l)%nat -> nth_error (list_upd l n v) n = Some v.
Proof. induction l; destruct n; intros v H; cbn in *; try lia; auto. apply IHl. lia. Qed.

Lemma nth_error_list_upd_other : forall {T} (l : list T) n m v,
  n <> m -> nth_error (list_upd l n v) m = nth_error l m.
Proof. induction l; destruct n, m; intros; cbn; auto; try congruence. Qed.

Lemma list_rd_in : forall {T} (l : list T) i x,
  0 <= i -> nth_error l (Z.to_nat i) = Some x -> list_rd l i = Ok x.
Proof.
  intros T l i x Hi H. unfold list_rd.
  assert (Z.to_nat i < length l)%nat by (apply nth_error_Some; congruence).
  rewrite pyidx_in by lia. rewrite H. reflexivity.
Qed.

Lemma list_wr_in : forall {T} (l : list T) i v,
  0 <= i < Z.of_nat (length l) -> list_wr l i v = Ok (list_upd l (Z.to_nat i) v).
Proof. intros T l i v H. unfold list_wr. rewrite pyidx_in by lia. reflexivity. Qed.
