From Coq Require Import Sorted.
From Verif Require Import Base BaseProofs FillSpec CompSpec.

Lemma adjacentb_spec : forall a b, adjacentb a b = true <-> adjacent a b.
Proof.
  intros a b. unfold adjacentb, adjacent. rewrite !andb_true_iff, !Z.leb_le.
  destruct (cell_eqb_spec a b); cbn; split; intros; try tauto.
  destruct H as [[H _] _]. discriminate.
Qed.

Lemma adjacent_sym : forall a b, adjacent a b -> adjacent b a.
Proof. intros a b (H & ? & ?). split; [congruence|]. lia. Qed.

Section Comp.
Variable data : raster bool.
Let ins := inside (nrows data) (ncols data).

Lemma connected_l : forall a b, connected data a b -> ins a /\ at_ data a = true.
Proof. induction 1; auto. Qed.
Lemma connected_r : forall a b, connected data a b -> ins b /\ at_ data b = true.
Proof. induction 1; auto. Qed.

Lemma connected_trans : forall a b, connected data a b -> forall c, connected data b c -> connected data a c.
Proof. intros a b H c H'. revert a H. induction H' as [|x y z H' IH]; intros; auto. apply co_step with y; auto. Qed.

Lemma connected_sym : forall a b, connected data a b -> connected data b a.
Proof.
  induction 1; [apply co_here; auto|].
  apply connected_trans with b; auto. apply co_step with c; auto.
  - apply co_here; auto.
  - apply adjacent_sym; auto.
  - apply (connected_r _ _ H).
  - apply (connected_r _ _ H).
Qed.

Lemma in_grow : forall s c, In c (grow data s) <->
  ins c /\ at_ data c = true /\ (In c s \/ exists d, In d s /\ adjacent d c).
Proof.
  intros s c. unfold grow, rcells. rewrite filter_In, in_cells_of, andb_true_iff, orb_true_iff.
  assert (A : existsb (cell_eqb c) s = true <-> In c s).
  { rewrite existsb_exists. split.
    - intros (x & Hx & E). destruct (cell_eqb_spec c x); [subst; auto | discriminate].
    - intros H. exists c. split; auto. destruct (cell_eqb_spec c c); auto. }
  assert (B : existsb (fun d => adjacentb d c) s = true <-> exists d, In d s /\ adjacent d c).
  { rewrite existsb_exists. split; intros (d & Hd & E); exists d; split; auto; apply adjacentb_spec; auto. }
  rewrite A, B. tauto.
Qed.

Definition start (c : cell) := filter (fun d => at_ data d && cell_eqb d c) (rcells data).

Lemma in_start : forall c d, In d (start c) <-> ins c /\ at_ data c = true /\ d = c.
Proof.
  intros c d. unfold start, rcells. rewrite filter_In, in_cells_of, andb_true_iff.
  destruct (cell_eqb_spec d c); subst; split; intros H; try tauto.
  destruct H as [_ [_ H]]. discriminate.
Qed.

Lemma grow_n_sound : forall n c d, In d (grow_n data n (start c)) -> connected data c d.
Proof.
  induction n; intros c d H; cbn in H.
  - apply in_start in H. destruct H as (? & ? & ->). apply co_here; auto.
  - apply in_grow in H. destruct H as (Hi & Hd & [H|(e & He & Ha)]); auto.
    apply co_step with e; auto.
Qed.

(** Each set is a sublist of the cells given by a predicate, and grows. *)
Definition sub (s : list cell) : Prop := exists p, s = filter p (rcells data).

Lemma grow_sub : forall s, sub (grow data s).
Proof. intros s. eexists. reflexivity. Qed.

Lemma grow_n_sub : forall n c, sub (grow_n data n (start c)).
Proof. destruct n; intros c; cbn; [eexists; reflexivity | apply grow_sub]. Qed.

Lemma grow_incl : forall s, sub s -> (forall c, In c s -> at_ data c = true) -> incl s (grow data s).
Proof.
  intros s [p ->] H c Hc. apply in_grow. split; [|split; auto].
  apply filter_In in Hc. apply in_cells_of. tauto.
Qed.

Lemma filter_incl_length : forall {A} (p q : A -> bool) l, (forall x, In x l -> p x = true -> q x = true) ->
  (length (filter p l) <= length (filter q l))%nat /\
  (length (filter p l) = length (filter q l) -> filter p l = filter q l).
Proof.
  induction l as [|x l IH]; intros H; cbn; auto.
  destruct IH as [L E]; [intros; apply H; auto; right; auto|].
  pose proof (H x (or_introl eq_refl)) as Hx.
  destruct (p x), (q x); cbn; try (specialize (Hx eq_refl); discriminate); split; try lia;
    intros; try (f_equal; apply E; lia); auto; lia.
Qed.

Lemma grow_fixpoint : forall c n, (forall d, In d (grow_n data n (start c)) -> at_ data d = true) /\
  ((length (grow_n data n (start c)) >= n)%nat \/ grow data (grow_n data n (start c)) = grow_n data n (start c)).
Proof.
  intros c n. split.
  - intros d H. apply grow_n_sound in H. apply (connected_r _ _ H).
  - induction n; [left; lia|]. cbn [grow_n].
    destruct IHn as [L|E]; [|right; rewrite E; auto].
    destruct (grow_n_sub n c) as [p Ep].
    set (s := grow_n data n (start c)) in *.
    assert (I : incl s (grow data s)).
    { apply grow_incl; [exists p; auto|]. intros d H. apply grow_n_sound in H. apply (connected_r _ _ H). }
    unfold grow in I |- * at 1. rewrite Ep in I at 1.
    match goal with |- (length (filter ?q _) >= _)%nat \/ _ => destruct (filter_incl_length p q (rcells data)) as [L1 L2] end.
    { intros x Hx Hp. assert (In x (filter p (rcells data))) by (apply filter_In; auto).
      apply I in H. apply filter_In in H. tauto. }
    rewrite <- Ep in L1, L2.
    match goal with |- (length ?g >= _)%nat \/ _ => destruct (Nat.eq_dec (length s) (length g)) as [E|E] end.
    + right. specialize (L2 E). change (filter _ _) with (grow data s) in L2. rewrite <- L2. exact (eq_sym L2).
    + left. lia.
Qed.

Lemma component_closed : forall c, grow data (component data c) = component data c.
Proof.
  intros c. unfold component. fold (start c).
  destruct (grow_fixpoint c (length (rcells data))) as [T [L|E]]; auto.
  destruct (grow_n_sub (length (rcells data)) c) as [p Ep].
  set (s := grow_n data (length (rcells data)) (start c)) in *.
  assert (A : s = rcells data).
  { destruct (filter_incl_length p (fun _ => true) (rcells data)) as [L1 L2]; auto.
    assert (F : filter (fun _ => true) (rcells data) = rcells data).
    { clear. induction (rcells data); cbn; congruence. }
    rewrite F in *. rewrite <- Ep in *. apply L2. lia. }
  (* everything is in the component already *)
  assert (I : incl s (grow data s)) by (apply grow_incl; [exists p; auto | auto]).
  rewrite A in *. unfold grow in *.
  match goal with |- filter ?q _ = _ => destruct (filter_incl_length q (fun _ => true) (rcells data)) as [L1 L2]; auto end.
  assert (F : filter (fun _ => true) (rcells data) = rcells data).
  { clear. induction (rcells data); cbn; congruence. }
  rewrite F in *. apply L2. apply Nat.le_antisymm; auto.
  apply NoDup_incl_length; auto. apply cells_of_NoDup.
Qed.

Lemma in_component : forall c d, In d (component data c) <-> connected data c d.
Proof.
  intros c d. split.
  - unfold component. fold (start c). apply grow_n_sound.
  - induction 1.
    + assert (X : forall n, In c (grow_n data n (start c))).
      { induction n; cbn; [apply in_start; auto|]. apply in_grow. auto. }
      apply X.
    + rewrite <- component_closed. apply in_grow. split; auto. split; auto. right. eauto.
Qed.

Lemma component_sub : forall c, sub (component data c).
Proof. intros c. apply grow_n_sub. Qed.

Lemma component_same : forall c d, connected data c d -> component data c = component data d.
Proof.
  intros c d H. destruct (component_sub c) as [p Hp], (component_sub d) as [q Hq]. rewrite Hp, Hq.
  apply filter_ext_in. intros x Hx.
  assert (A : In x (component data c) <-> In x (component data d)).
  { rewrite !in_component. split; intros.
    - apply connected_trans with c; auto. apply connected_sym; auto.
    - apply connected_trans with d; auto. }
  rewrite Hp, Hq, !filter_In in A. destruct (p x), (q x); auto.
  - destruct (proj1 A) as [_ ?]; auto.
  - destruct (proj2 A) as [_ ?]; auto.
Qed.

Lemma rep_connected : forall c, ins c -> at_ data c = true -> connected data c (rep data c).
Proof.
  intros c Hi Hd. unfold rep. destruct (component data c) as [|x l] eqn:E.
  - assert (H : In c (component data c)) by (apply in_component; apply co_here; auto). rewrite E in H. destruct H.
  - cbn. apply in_component. rewrite E. left; auto.
Qed.

Lemma rep_same : forall c d, connected data c d -> rep data c = rep data d.
Proof.
  intros c d H. unfold rep. rewrite <- (component_same c d H).
  destruct (component data c) eqn:E; auto.
  assert (X : In c (component data c)).
  { apply in_component. apply co_here; apply (connected_l _ _ H). }
  rewrite E in X. destruct X.
Qed.

Lemma rep_in : forall c, ins c -> at_ data c = true -> In (rep data c) (reps data).
Proof.
  intros c Hi Hd. pose proof (rep_connected c Hi Hd) as H. destruct (connected_r _ _ H) as [Ri Rd].
  unfold reps. apply filter_In. split; [apply in_cells_of; auto|]. rewrite Rd. cbn.
  rewrite <- (rep_same _ _ H). destruct (cell_eqb_spec (rep data c) (rep data c)); auto.
Qed.

Lemma position_spec : forall c l, In c l -> nth_error l (Z.to_nat (position c l)) = Some c /\
  0 <= position c l < Z.of_nat (length l).
Proof.
  induction l as [|d l IH]; intros H; [destruct H|]. cbn [position length].
  destruct (cell_eqb_spec c d); [subst; cbn; split; auto; lia|].
  destruct H as [->|H]; [congruence|]. destruct (IH H) as [E B]. split; [|lia].
  replace (Z.to_nat (1 + position c l)) with (S (Z.to_nat (position c l))) by lia. auto.
Qed.

Lemma position_nth : forall l n c, NoDup l -> nth_error l n = Some c -> position c l = Z.of_nat n.
Proof.
  induction l as [|d l IH]; intros [|n] c ND H; try discriminate; cbn [position nth_error] in *.
  - inversion H; subst. destruct (cell_eqb_spec c c); [reflexivity | congruence].
  - inversion ND; subst. destruct (cell_eqb_spec c d).
    + subst. apply nth_error_In in H. contradiction.
    + rewrite (IH n c) by auto. lia.
Qed.

Theorem cc_ref_contract : cc_contract data (fst (cc_ref data)) (snd (cc_ref data)).
Proof.
  unfold cc_ref. cbn [fst snd].
  assert (V : forall c, at_ (mkRaster (nrows data) (ncols data)
     (fun i j => if rget data i j then 1 + position (rep data (i, j)) (reps data) else 0)) c =
     if at_ data c then 1 + position (rep data c) (reps data) else 0) by (intros [i j]; reflexivity).
  constructor.
  - split; reflexivity.
  - lia.
  - intros c Hi Hd. rewrite V, Hd. auto.
  - intros c Hi Hd. rewrite V, Hd. destruct (position_spec _ _ (rep_in c Hi Hd)). lia.
  - intros l Hl. destruct (nth_error (reps data) (Z.to_nat (l - 1))) as [c|] eqn:E.
    2:{ apply nth_error_None in E. lia. }
    pose proof (nth_error_In _ _ E) as Hc. unfold reps in Hc. apply filter_In in Hc.
    rewrite andb_true_iff in Hc. destruct Hc as (Hi & Hd & Hr). apply in_cells_of in Hi.
    exists c. split; auto. rewrite V, Hd. destruct (cell_eqb_spec (rep data c) c) as [Er|]; [|discriminate].
    rewrite Er. assert (ND : NoDup (reps data)) by (apply NoDup_filter, cells_of_NoDup).
    rewrite (position_nth _ _ _ ND E). lia.
  - intros c d Hc Hd Dc Dd. rewrite !V, Dc, Dd. split; intros H.
    + assert (E : rep data c = rep data d).
      { destruct (position_spec _ _ (rep_in c Hc Dc)) as [E1 _].
        destruct (position_spec _ _ (rep_in d Hd Dd)) as [E2 _].
        replace (position (rep data d) (reps data)) with (position (rep data c) (reps data)) in E2 by lia.
        congruence. }
      apply connected_trans with (rep data c); [apply rep_connected; auto|].
      rewrite E. apply connected_sym. apply rep_connected; auto.
    + rewrite (rep_same c d H). auto.
Qed.
End Comp.

Theorem cc_ref_ok : labels_components cc_ref.
Proof. intros data. apply cc_ref_contract. Qed.

(** Features outside the raster do not matter, and the numbering of labels is all
    that a contract leaves open: two labellings of one raster group cells alike. *)
Theorem contract_unique_partition : forall data lab n lab' n', cc_contract data lab n -> cc_contract data lab' n' ->
  forall c d, inside (nrows data) (ncols data) c -> inside (nrows data) (ncols data) d ->
  at_ data c = true -> at_ data d = true -> (at_ lab c = at_ lab d <-> at_ lab' c = at_ lab' d).
Proof.
  intros data lab n lab' n' H H' c d Hc Hd Tc Td.
  rewrite (cc_same _ _ _ H), (cc_same _ _ _ H'); auto. tauto.
Qed.

Lemma pyrange_from0 : forall n, pyrange 0 n 1 = zseq 0 (Z.to_nat n).
Proof. intros. unfold pyrange. cbn. rewrite Z.sub_0_r. reflexivity. Qed.

Lemma zseq_nth : forall n a k d, (k < n)%nat -> nth k (zseq a n) d = a + Z.of_nat k.
Proof. induction n as [|n IH]; intros a [|k] d H; cbn [zseq nth]; try lia. rewrite IH; lia. Qed.

Lemma memo_at : forall {T} (d : T) (a : raster T) c, inside (nrows a) (ncols a) c -> at_ (memo d a) c = at_ a c.
Proof.
  intros T d a [i j] [Hi Hj]. cbn in Hi, Hj. unfold at_, memo. cbn [fst snd rget]. unfold to_rows.
  rewrite nth_indep with (d' := map (fun j => rget a 0 j) (pyrange 0 (ncols a) 1)).
  2:{ rewrite map_length, pyrange_from0, zseq_length. lia. }
  rewrite (map_nth (fun i => map (fun j => rget a i j) (pyrange 0 (ncols a) 1))).
  rewrite nth_indep with (d' := rget a (nth (Z.to_nat i) (pyrange 0 (nrows a) 1) 0) 0).
  2:{ rewrite map_length, pyrange_from0, zseq_length. lia. }
  rewrite (map_nth (fun j => rget a (nth (Z.to_nat i) (pyrange 0 (nrows a) 1) 0) j)).
  rewrite !pyrange_from0. f_equal; rewrite zseq_nth; lia.
Qed.

Lemma connected_ext : forall a b, same_shape a b ->
  (forall c, inside (nrows a) (ncols a) c -> at_ a c = at_ b c) -> forall c d, connected a c d -> connected b c d.
Proof.
  intros a b [Er Ec] H c d C. induction C as [x Hx W|x y z C IH A Hz W].
  - apply co_here; [rewrite <- Er, <- Ec; auto | rewrite <- H; auto].
  - apply co_step with y; auto; [rewrite <- Er, <- Ec; auto | rewrite <- H; auto].
Qed.

Theorem cc_memo_ok : labels_components cc_memo.
Proof.
  intros data. unfold cc_memo. pose proof (cc_ref_ok (memo false data)) as K.
  destruct (cc_ref (memo false data)) as [lab n]. cbn [fst snd] in *. destruct K as [[K0 K0'] K1 K2 K3 K4 K5].
  cbn [memo nrows ncols] in *.
  assert (M : forall c, inside (nrows data) (ncols data) c -> at_ (memo false data) c = at_ data c) by (intros; apply memo_at; auto).
  assert (L : forall c, inside (nrows data) (ncols data) c -> at_ (memo 0 lab) c = at_ lab c).
  { intros. apply memo_at. rewrite <- K0, <- K0'. auto. }
  constructor; auto.
  - split; cbn; auto.
  - intros c Hi E. rewrite L by auto. apply K2; auto. rewrite M; auto.
  - intros c Hi E. rewrite L by auto. apply K3; auto. rewrite M; auto.
  - intros l Hl. destruct (K4 l Hl) as (c & Hi & E). exists c. split; auto. rewrite L; auto.
  - intros c d Hc Hd Ec Ed. rewrite !L by auto. rewrite K5; auto; try (rewrite M; auto; fail).
    split; apply connected_ext; try (split; reflexivity); intros; auto.
    symmetry. auto.
Qed.
