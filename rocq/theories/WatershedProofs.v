(** * Watersheds *)

From Verif Require Import Base BaseProofs Num FlowModel FillSpec FlowSpec FlowProofs AccumProofs.

(** ** Edge cells *)
Lemma edge_cells_spec : forall rows cols c, 1 <= rows -> 1 <= cols ->
  (In c (edge_cell_indexes rows cols) <-> on_edge rows cols c).
Proof.
  intros rows cols [r c] Hr Hc. unfold edge_cell_indexes, on_edge, inside.
  rewrite in_app_iff, !in_flat_map. cbn [fst snd]. split.
  - intros [(x & Hx & H)|(x & Hx & H)]; apply in_pyrange_up in Hx;
      destruct H as [H|[H|[]]]; inversion H; subst; lia.
  - intros H.
    destruct (Z.eq_dec r 0) as [->|N0]; [left; exists c; rewrite in_pyrange_up; cbn; split; [lia|auto]|].
    destruct (Z.eq_dec r (rows - 1)) as [->|N1]; [left; exists c; rewrite in_pyrange_up; cbn; split; [lia|auto]|].
    right. exists r. rewrite in_pyrange_up. split; [lia|].
    assert (c = 0 \/ c = cols - 1) as [->| ->] by lia; cbn; auto.
Qed.

Lemma edge_cells_nodup : forall rows cols, 2 <= rows -> 2 <= cols ->
  NoDup (edge_cell_indexes rows cols).
Proof.
  intros rows cols Hr Hc. unfold edge_cell_indexes.
  assert (A : NoDup (flat_map (fun c => [(0, c); (rows - 1, c)]) (pyrange 0 (cols - 1 + 1) 1))).
  { apply NoDup_flat_map; [apply pyrange_up_NoDup | |].
    - intros c _. repeat constructor; cbn; try tauto. intros [E|[]]. inversion E. lia.
    - intros a b x _ _ [<-|[<-|[]]] [E|[E|[]]]; inversion E; auto. }
  assert (B : NoDup (flat_map (fun r => [(r, 0); (r, cols - 1)]) (pyrange 1 (rows - 1) 1))).
  { apply NoDup_flat_map; [apply pyrange_up_NoDup | |].
    - intros c _. repeat constructor; cbn; try tauto. intros [E|[]]. inversion E. lia.
    - intros a b x _ _ [<-|[<-|[]]] [E|[E|[]]]; inversion E; auto. }
  revert A. generalize (pyrange 0 (cols - 1 + 1) 1). intros l A.
  assert (D : forall x, In x (flat_map (fun c => [(0, c); (rows - 1, c)]) l) ->
    ~ In x (flat_map (fun r => [(r, 0); (r, cols - 1)]) (pyrange 1 (rows - 1) 1))).
  { intros x X Y. apply in_flat_map in X. apply in_flat_map in Y.
    destruct X as (c & _ & X), Y as (r & Hr' & Y). apply in_pyrange_up in Hr'.
    destruct X as [<-|[<-|[]]], Y as [E|[E|[]]]; inversion E; lia. }
  revert A D. generalize (flat_map (fun c => [(0, c); (rows - 1, c)]) l). intros m.
  induction m as [|x m IH]; intros A D; cbn; auto.
  inversion A; subst. constructor.
  - rewrite in_app_iff. intros [X|X]; [auto|]. apply (D x); [left; auto | auto].
  - apply IH; auto. intros y Y. apply D. right; auto.
Qed.

Lemma offset_small : forall d o, offset d = Some o -> -1 <= fst o <= 1 /\ -1 <= snd o <= 1.
Proof.
  intros d o H. pose proof (offset_some _ _ H). dir_cases d; cbn in H; inversion H; subst; cbn; lia.
Qed.

Lemma off_on_edge : forall f c, flows_off f c -> on_edge (nrows f) (ncols f) c.
Proof.
  intros f c (I & d & T & N). unfold target in T. destruct (offset (at_ f c)) as [o|] eqn:E; [|discriminate].
  inversion T; subst d. pose proof (offset_small _ _ E).
  unfold on_edge, inside in *. destruct c as [r c], o as [a b]. cbn in *. split; [auto|]. lia.
Qed.

(** ** The loop *)
Section WS.
Variable f lab0 : raster Z.
Variable un : Z.
Notation ins := (inside (nrows f) (ncols f)).
Notation FL := (first_label f lab0 un).

(** Label arriving at c from downstream. *)
Definition FLD (c : cell) (l : Z) : Prop :=
  (exists d, flows f c d /\ FL d l) \/ (flows_off f c /\ l = un).

Lemma FLD_FL : forall c l, at_ lab0 c = un -> FLD c l -> FL c l.
Proof. intros c l E [(d & F & H)|[O ->]]; [eapply fl_step; eauto | apply fl_off; auto]. Qed.

Definition winv (a : raster Z) : Prop :=
  same_shape f a /\ forall c, ins c ->
    (at_ lab0 c <> un -> at_ a c = at_ lab0 c) /\ (at_ a c = un \/ FL c (at_ a c)).
Definition done (a : raster Z) (c : cell) : Prop := FL c (at_ a c).
Definition entry_ok (p : cell * Z) : Prop := ins (fst p) /\ (snd p = un \/ FLD (fst p) (snd p)).

Lemma assign_step : forall k a c l rest, winv a -> entry_ok (c, l) ->
  exists b lbl, winv b /\
    assign_loop (S k) f a un ((c, l) :: rest) =
      assign_loop k f b un (rev (map (fun u => (u, lbl)) (ups f c)) ++ rest) /\
    assign_loop_cy (S k) f a un ((c, l) :: rest) =
      assign_loop_cy k f b un (rev (map (fun u => (u, lbl)) (ups f c)) ++ rest) /\
    (forall x, ins x -> done a x -> done b x) /\
    (lbl = un \/ FL c lbl) /\
    (FLD c l -> done b c /\ FL c lbl).
Proof.
  intros k a c l rest [S I] [Ic El]. cbn [fst snd] in *.
  destruct (I c Ic) as [Ik Iv].
  assert (Ia : inside (nrows a) (ncols a) c) by (destruct S as [<- <-]; auto).
  cbn [assign_loop assign_loop_cy]. rewrite rd_at by auto. cbn [bind].
  rewrite upstream_cells_eq, upstream_cy_eq.
  destruct (Z.eqb_spec (at_ a c) un) as [E|E].
  - rewrite wr_at by auto. cbn [bind].
    assert (L0 : at_ lab0 c = un).
    { destruct (Z.eq_dec (at_ lab0 c) un); auto. rewrite <- (Ik n). auto. }
    exists (rset a (fst c) (snd c) l), l.
    split; [|split; [reflexivity|split; [reflexivity|split; [|split]]]].
    + split; [exact S|]. intros x Ix. destruct (cell_eq_dec x c) as [->|Nx].
      * rewrite at_rset_same. split; [congruence|]. destruct El; auto. right. apply FLD_FL; auto.
      * rewrite at_rset_other by auto. auto.
    + intros x Ix Dx. unfold done in *. destruct (cell_eq_dec x c) as [->|Nx].
      * rewrite at_rset_same. destruct El as [->|El]; [congruence | apply FLD_FL; auto].
      * rewrite at_rset_other by auto. auto.
    + destruct El; auto. right. apply FLD_FL; auto.
    + intros D. unfold done. rewrite at_rset_same. split; apply FLD_FL; auto.
  - exists a, (at_ a c). cbn [bind].
    split; [split; auto|]. split; [reflexivity|]. split; [reflexivity|]. split; [auto|]. split; [auto|].
    intros _. destruct Iv; [contradiction|]. split; auto.
Qed.

Lemma entries_ok : forall c lbl rest, ins c -> (lbl = un \/ FL c lbl) -> Forall entry_ok rest ->
  Forall entry_ok (rev (map (fun u => (u, lbl)) (ups f c)) ++ rest).
Proof.
  intros c lbl rest Ic L R. apply Forall_app. split; auto. apply Forall_rev. apply Forall_forall.
  intros p Hp. apply in_map_iff in Hp. destruct Hp as (u & <- & Hu). apply in_ups in Hu.
  split; cbn [fst snd]; [tauto|]. destruct L as [L|L]; auto. right. left. exists c. split; auto.
  split; [|split]; tauto.
Qed.

Lemma assign_cy_eq : forall fuel a stack, winv a -> Forall entry_ok stack ->
  assign_loop_cy fuel f a un stack = assign_loop fuel f a un stack.
Proof.
  induction fuel as [|k IH]; intros a [|[c l] rest] W H; try reflexivity.
  inversion H; subst. destruct (assign_step k a c l rest W H2) as (b & lbl & Wb & E1 & E2 & _ & L & _).
  rewrite E1, E2. apply IH; auto. apply entries_ok; auto. apply H2.
Qed.

Lemma assign_ok : forall fuel a stack a', winv a -> Forall entry_ok stack ->
  assign_loop fuel f a un stack = Ok a' ->
  winv a' /\ (forall x, ins x -> done a x -> done a' x) /\
  (forall c l, In (c, l) stack -> FLD c l -> forall x, passes f x c -> done a' x).
Proof.
  induction fuel as [|k IH]; intros a [|[c l] rest] a' W H E.
  - cbn in E. inversion E; subst. split; [auto|]. split; [auto|]. intros ? ? [].
  - cbn in E. discriminate.
  - cbn in E. inversion E; subst. split; [auto|]. split; [auto|]. intros ? ? [].
  - inversion H; subst. destruct (assign_step k a c l rest W H2) as (b & lbl & Wb & E1 & _ & Db & L & X).
    rewrite E1 in E. apply IH in E; auto.
    2:{ apply entries_ok; auto. apply H2. }
    destruct E as (W' & D' & P'). split; [auto|]. split; [auto|].
    intros c' l' [Ec|Hin] FD x P.
    + inversion Ec; subst c' l'. destruct (X FD) as [Dc FLc].
      destruct (passes_last f x c P) as [->|(u & Hu & Pu)].
      * apply D'; auto. apply H2.
      * apply (P' u lbl); auto.
        -- apply in_app_iff. left. apply -> in_rev. apply in_map_iff. eauto.
        -- left. exists c. split; auto. apply ups_flows; auto. apply H2.
    + apply (P' c' l'); auto. apply in_app_iff. auto.
Qed.

Lemma assign_total : forall fuel a stack, winv a -> Forall entry_ok stack ->
  (forall c, ins c -> exists n, end_in f n c) ->
  zsum (map (fun p => cnt f (fst p)) stack) <= Z.of_nat fuel ->
  exists a', assign_loop fuel f a un stack = Ok a'.
Proof.
  induction fuel as [|k IH]; intros a [|[c l] rest] W H D B; cbn [map zsum fst] in B.
  - cbn. eauto.
  - assert (0 <= zsum (map (fun p => cnt f (fst p)) rest)).
    { apply zsum_nonneg. intros y Hy. apply in_map_iff in Hy. destruct Hy as (p & <- & _).
      pose proof (cnt_pos f (fst p)). lia. }
    pose proof (cnt_pos f c). lia.
  - cbn. eauto.
  - inversion H; subst. destruct (assign_step k a c l rest W H2) as (b & lbl & Wb & E1 & _ & _ & L & _).
    rewrite E1. apply IH; auto.
    + apply entries_ok; auto. apply H2.
    + destruct (D c (proj1 H2)) as (n & En). rewrite (cnt_rec f n c En) in B.
      assert (Zapp : forall l m, zsum (l ++ m) = zsum l + zsum m) by (induction l0; intros; cbn; [lia|rewrite IHl0; lia]).
      assert (Zrev : forall l, zsum (rev l) = zsum l) by (induction l0; cbn; auto; rewrite Zapp; cbn; lia).
      rewrite map_app, Zapp, map_rev, Zrev, map_map. cbn [fst].
      change (map (fun x => cnt f x) (ups f c)) with (map (cnt f) (ups f c)). lia.
Qed.

Lemma start_ok : forall c, ins c -> Forall entry_ok [(c, un)].
Proof. intros c I. constructor; [|constructor]. split; cbn; auto. Qed.

Lemma fold_ok : forall fuel L a w, (forall c, In c L -> ins c) -> winv a ->
  mfold (fun a c => assign_watersheds_upstream fuel f a c un) L a = Ok w ->
  winv w /\ (forall x, ins x -> done a x -> done w x) /\
  (forall o x, In o L -> flows_off f o -> passes f x o -> done w x).
Proof.
  intros fuel. induction L as [|c L IH]; intros a w HL W H; cbn [mfold] in H.
  - inversion H; subst. split; [auto|]. split; [auto|]. intros ? ? [].
  - apply bind_ok in H. destruct H as (b & Hb & H).
    assert (Ic : ins c) by (apply HL; left; auto).
    apply assign_ok in Hb; auto using start_ok. destruct Hb as (Wb & Db & Pb).
    destruct (IH b w ltac:(intros; apply HL; right; auto) Wb H) as (W' & D' & P').
    split; [auto|]. split; [auto|]. intros o x [<-|Ho] O P.
    + apply D'; [eapply passes_inside_l; eauto|]. apply (Pb c un); auto; [left; auto|]. right. auto.
    + eapply P'; eauto.
Qed.
End WS.

Lemma winv_start : forall f lab0 un, same_shape f lab0 -> winv f lab0 un lab0.
Proof.
  intros f lab0 un S. split; auto. intros c I. split; auto.
  destruct (Z.eq_dec (at_ lab0 c) un); auto. right. apply fl_here; auto.
Qed.

Lemma edge_inside : forall (f : raster Z) c, In c (edge_cell_indexes (nrows f) (ncols f)) ->
  1 <= nrows f -> 1 <= ncols f -> inside (nrows f) (ncols f) c.
Proof. intros f c H Hr Hc. apply edge_cells_spec in H; auto. apply H. Qed.

Theorem watersheds_first_label : forall f lab un fuel w, fully_draining f -> same_shape f lab ->
  1 <= nrows f -> 1 <= ncols f ->
  watersheds_from_labels fuel f lab un = Ok w ->
  same_shape f w /\
  (forall c, inside (nrows f) (ncols f) c -> at_ lab c <> un -> at_ w c = at_ lab c) /\
  (forall c, inside (nrows f) (ncols f) c -> first_label f lab un c (at_ w c)).
Proof.
  intros f lab un fuel w [OK D] S Hr Hc H.
  destruct (fold_ok f lab un fuel _ _ _ (fun c Hc' => edge_inside f c Hc' Hr Hc) (winv_start f lab un S) H)
    as ([Sw Iw] & _ & P).
  split; auto. split; [intros c I; apply Iw; auto|]. intros c I.
  destruct (drains_passes_off f c (D c I)) as (o & O & Po). apply (P o); auto.
  apply edge_cells_spec; auto. apply off_on_edge; auto.
Qed.

Theorem watersheds_terminate : forall f lab un, fully_draining f -> same_shape f lab ->
  1 <= nrows f -> 1 <= ncols f ->
  forall fuel, (Z.to_nat (nrows f * ncols f) <= fuel)%nat ->
  exists w, watersheds_from_labels fuel f lab un = Ok w.
Proof.
  intros f lab un [OK D] S Hr Hc fuel L. unfold watersheds_from_labels.
  assert (E : forall c, inside (nrows f) (ncols f) c -> exists n, end_in f n c)
    by (intros c I; apply drains_end; auto).
  destruct (mfold_inv (fun a c => assign_watersheds_upstream fuel f a c un) (winv f lab un)
    (edge_cell_indexes (nrows f) (ncols f)) lab) as (w & Hw & _);
    [apply winv_start; auto | | exists w; exact Hw].
  intros a c Hin W. pose proof (edge_inside f c Hin Hr Hc) as Ic.
  destruct (assign_total f lab un fuel a [(c, un)] W) as (b & Hb); auto.
  - apply start_ok; auto.
  - cbn. destruct (E c Ic) as (n & En). destruct (tree_spec f (ncells f) c n En) as [ND M]; [lia|].
    assert (length (tree f (ncells f) c) <= ncells f)%nat.
    { apply NoDup_incl_length; auto. intros x Hx. apply M in Hx.
      apply in_cells_of. eapply passes_inside_l; eauto. }
    unfold cnt. assert (ncells f = Z.to_nat (nrows f * ncols f)).
    { unfold ncells, rcells. rewrite length_cells_of. nia. }
    lia.
  - exists b. split; [exact Hb|]. apply (assign_ok f lab un fuel a [(c, un)] b W (start_ok f lab un c Ic) Hb).
Qed.

Theorem watersheds_cy_same : forall f lab un fuel, fully_draining f -> same_shape f lab ->
  1 <= nrows f -> 1 <= ncols f ->
  watersheds_from_labels_cy fuel f lab un = watersheds_from_labels fuel f lab un.
Proof.
  intros f lab un fuel [OK D] S Hr Hc. unfold watersheds_from_labels_cy, watersheds_from_labels.
  pose proof (winv_start f lab un S) as W.
  assert (HL : forall c, In c (edge_cell_indexes (nrows f) (ncols f)) -> inside (nrows f) (ncols f) c)
    by (intros; apply edge_inside; auto).
  revert W HL. generalize lab at 2 3 4 as a. generalize (edge_cell_indexes (nrows f) (ncols f)) as L.
  induction L as [|c L IH]; intros a W HL; cbn [mfold]; auto.
  assert (Ic : inside (nrows f) (ncols f) c) by (apply HL; left; auto).
  unfold assign_watersheds_upstream at 1.
  rewrite (assign_cy_eq f lab un) by auto using start_ok.
  destruct (assign_loop fuel f a un [(c, un)]) as [b| |] eqn:E; cbn [bind]; auto.
  apply IH; [|intros; apply HL; right; auto].
  apply (assign_ok f lab un fuel a [(c, un)] b W (start_ok f lab un c Ic) E).
Qed.

Theorem first_label_unique : forall f lab un c l, first_label f lab un c l ->
  forall l', first_label f lab un c l' -> l = l'.
Proof.
  intros f lab un c l H. induction H as [c I N|c d l E F H IH|c E O]; intros l' H'; inversion H'; subst;
    try congruence.
  - apply IH. destruct F as (_ & _ & T).
    match goal with F' : flows f c ?d' |- _ => destruct F' as (_ & _ & T') end. congruence.
  - destruct F as (_ & J & T). match goal with O : flows_off f c |- _ => destruct O as (_ & d' & T' & N) end.
    exfalso. congruence.
  - destruct O as (_ & d' & T' & N). match goal with F' : flows f c ?d' |- _ => destruct F' as (_ & J & T) end.
    exfalso. congruence.
Qed.
