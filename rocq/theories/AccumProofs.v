(** * Accumulated flow: counts, total, compiled version, failure without direction *)

From Verif Require Import Base BaseProofs Num FlowModel FillSpec FlowSpec FlowProofs.

Lemma drains_end : forall f c, drains_off f c -> exists n, end_in f n c.
Proof.
  intros f c H. induction H as [c (I & d & T & O)|c d F D (n & E)].
  - exists 0%nat. constructor; auto. intros d' T'. congruence.
  - exists (S n). econstructor; eauto.
Qed.

Lemma drains_target : forall f c, drains_off f c -> target f c <> None.
Proof.
  intros f c H. inversion H as [c' (I & d & T & O)|c' d (I & J & T) D]; subst; congruence.
Qed.

Lemma draining_target : forall f, fully_draining f ->
  forall c, inside (nrows f) (ncols f) c -> target f c <> None.
Proof. intros f [_ H] c I. apply drains_target; auto. Qed.

Lemma length_pyrange_up : forall a b, length (pyrange a b 1) = Z.to_nat (b - a).
Proof.
  intros a b. unfold pyrange. cbn. generalize (Z.to_nat (b - a)) as n. intros n. revert a.
  induction n; intros a; cbn; auto.
Qed.

Lemma length_cells_of : forall rows cols,
  length (cells_of rows cols) = (Z.to_nat rows * Z.to_nat cols)%nat.
Proof.
  intros rows cols. unfold cells_of.
  assert (G : forall (l : list Z) (m : list Z),
    length (flat_map (fun r => map (fun c => (r, c)) m) l) = (length l * length m)%nat).
  { induction l; intros m; cbn; auto. rewrite app_length, map_length, IHl. auto. }
  rewrite G, !length_pyrange_up, !Z.sub_0_r. auto.
Qed.

Section Acc.
Variable f : raster Z.
Variable e : exn.
Notation ins := (inside (nrows f) (ncols f)).

Definition zeros : raster Z := mkRaster (nrows f) (ncols f) (fun _ _ => 0).

(** A pass over cells that traces from leaves, and possibly from other cells. *)
Definition step_ok (step : raster Z -> cell -> res (raster Z)) (fuel : nat) : Prop :=
  forall a c, same_shape f a -> ins c ->
    step a c = tr f e fuel a c \/ (step a c = Ok a /\ ups f c <> []).

Lemma acc_inv : forall fuel step, step_ok step fuel -> forall L a0 a,
  (forall c, In c L -> ins c) ->
  same_shape f a0 -> nonneg f a0 -> settled_but f a0 None ->
  (forall x n, end_in f n x -> at_ a0 x = 0 \/ at_ a0 x = cnt f x) ->
  mfold step L a0 = Ok a ->
  same_shape f a /\ nonneg f a /\ settled_but f a None /\
  (forall d, ins d -> resolved a0 d -> resolved a d) /\
  (forall c, In c L -> ups f c = [] -> resolved a c) /\
  (forall x, target f x = None -> ins x -> at_ a x = at_ a0 x) /\
  (forall x n, end_in f n x -> at_ a x = 0 \/ at_ a x = cnt f x).
Proof.
  intros fuel step SO. induction L as [|c L IH]; intros a0 a HL S N J V H; cbn [mfold] in H.
  - inversion H; subst. split; [auto|]. split; [auto|]. split; [auto|]. split; [auto|]. split; [intros ? []|]. auto.
  - apply bind_ok in H. destruct H as (b & Hb & H).
    assert (Ic : ins c) by (apply HL; left; auto).
    assert (B : same_shape f b /\ nonneg f b /\ settled_but f b None /\
       (forall d, ins d -> resolved a0 d -> resolved b d) /\
       (ups f c = [] -> resolved b c) /\
       (forall x, target f x = None -> ins x -> at_ b x = at_ a0 x) /\
       (forall x n, end_in f n x -> at_ b x = 0 \/ at_ b x = cnt f x)).
    { destruct (SO a0 c S Ic) as [E|[E U]]; rewrite E in Hb.
      - destruct (tr_inv f e fuel a0 c b Hb S N) as (A1 & A2 & A3 & A4 & A5 & A6).
        { intros x Ix _. apply J; auto. discriminate. }
        repeat (split; [auto|]). eapply tr_cnt; eauto.
      - inversion Hb; subst. split; [auto|]. split; [auto|]. split; [auto|]. split; [auto|].
        split; [intros; contradiction|]. auto. }
    destruct B as (B1 & B2 & B3 & B4 & B5 & B6 & B7).
    destruct (IH b a ltac:(intros; apply HL; right; auto) B1 B2 B3 B7 H)
      as (A1 & A2 & A3 & A4 & A5 & A6 & A7).
    split; [auto|]. split; [auto|]. split; [auto|]. split; [auto|]. split.
    { intros x [<-|Hx] U; auto. }
    split; [|auto]. intros x Tx Ix. rewrite A6, B6; auto.
Qed.

Lemma zeros_start : same_shape f zeros /\ nonneg f zeros /\ settled_but f zeros None /\
  (forall x n, end_in f n x -> at_ zeros x = 0 \/ at_ zeros x = cnt f x).
Proof.
  repeat split; auto.
  - intros c _. cbn. lia.
  - intros c _ _ U R. destruct (ups f c) as [|u l] eqn:E; [congruence|].
    specialize (R u (or_introl eq_refl)). unfold resolved in R. cbn in R. lia.
Qed.

Lemma acc_resolved : forall fuel step a, step_ok step fuel ->
  mfold step (rcells f) zeros = Ok a ->
  same_shape f a /\
  (forall x n, end_in f n x -> at_ a x = cnt f x) /\
  (forall x, ins x -> target f x <> None).
Proof.
  intros fuel step a SO H. destruct zeros_start as (Z1 & Z2 & Z3 & Z4).
  destruct (acc_inv fuel step SO _ _ _ (fun c Hc => proj1 (in_cells_of _ _ _) Hc) Z1 Z2 Z3 Z4 H)
    as (A1 & A2 & A3 & A4 & A5 & A6 & A7).
  assert (R : forall c n, end_in f n c -> resolved a c).
  { intros c n E. revert c n E. apply up_ind. intros c n E U.
    pose proof (end_in_inside _ _ _ E) as I.
    destruct (ups f c) as [|u l] eqn:Eu.
    - apply A5; auto. apply in_cells_of; auto.
    - rewrite <- Eu in U. apply A3; auto; congruence. }
  split; auto. split.
  - intros x n E. destruct (A7 x n E) as [Z|Z]; auto.
    specialize (R x n E). unfold resolved in R. lia.
  - intros x I T. assert (E : end_in f 0 x) by (constructor; auto; intros; congruence).
    specialize (R x _ E). unfold resolved in R. rewrite A6 in R by auto. cbn in R. lia.
Qed.

Lemma acc_total : forall fuel step, step_ok step fuel ->
  (forall a c, same_shape f a -> ins c -> forall b, tr f e fuel a c = Ok b -> same_shape f b) ->
  fully_draining f -> (ncells f <= fuel)%nat ->
  forall L a, (forall c, In c L -> ins c) -> same_shape f a -> exists b, mfold step L a = Ok b.
Proof.
  intros fuel step SO SS D LF L. induction L as [|c L IH]; intros a HL S; cbn [mfold]; eauto.
  assert (Ic : ins c) by (apply HL; left; auto).
  destruct D as [DC DD]. destruct (drains_end f c (DD c Ic)) as (n & En).
  assert (X : exists b, tr f e fuel a c = Ok b).
  { eapply tr_total; eauto. intros; apply drains_target; auto. pose proof (end_in_bound _ _ _ En). lia. }
  destruct X as (b & Hb).
  destruct (SO a c S Ic) as [E|[E U]]; rewrite E.
  - rewrite Hb. cbn [bind]. apply IH; [intros; apply HL; right; auto | eapply SS; eauto].
  - cbn [bind]. apply IH; [intros; apply HL; right; auto | auto].
Qed.
End Acc.

Lemma tr_shape : forall f e fuel a c b, tr f e fuel a c = Ok b -> same_shape f a -> same_shape f b.
Proof.
  intros f e. induction fuel as [|k IH]; intros a c b H S; cbn [tr] in H;
    destruct (cell_in_raster _ _ _); try discriminate; try (inversion H; subst; auto; fail).
  destruct (sumup _ _ _); [|inversion H; subst; auto].
  destruct (target f c); [|discriminate]. eapply IH; eauto.
Qed.

Definition leaf_step (fuel : nat) (f : raster Z) (accum : raster Z) (c : cell) : res (raster Z) :=
  up_cells <- upstream_cells f c ;;
  match up_cells with
  | [] => trace_accumulated_flow fuel f accum c
  | _ => Ok accum
  end.

Lemma step_py : forall f fuel, codes_ok f -> step_ok f TypeError (leaf_step fuel f) fuel.
Proof.
  intros f fuel OK a c S I. unfold leaf_step. rewrite upstream_cells_eq. cbn [bind].
  destruct (ups f c); [left; apply trace_eq; auto | right; split; [auto | discriminate]].
Qed.

Lemma step_cy : forall f fuel, codes_ok f ->
  step_ok f PlainException (trace_accumulated_flow_cy fuel f) fuel.
Proof. intros f fuel OK a c S I. left. apply trace_cy_eq; auto. Qed.

Theorem accum_terminates : forall f, fully_draining f ->
  forall fuel, (Z.to_nat (nrows f * ncols f) <= fuel)%nat -> exists a, accumulated_flow fuel f = Ok a.
Proof.
  intros f D fuel L. apply (acc_total f TypeError fuel (leaf_step fuel f)); auto.
  - apply step_py. apply D.
  - intros; eapply tr_shape; eauto.
  - unfold ncells, rcells. rewrite length_cells_of. nia.
  - intros c. apply in_cells_of.
  - split; auto.
Qed.

Theorem accum_cy_terminates : forall f, fully_draining f ->
  forall fuel, (Z.to_nat (nrows f * ncols f) <= fuel)%nat -> exists a, accumulated_flow_cy fuel f = Ok a.
Proof.
  intros f D fuel L. apply (acc_total f PlainException fuel (trace_accumulated_flow_cy fuel f)); auto.
  - apply step_cy. apply D.
  - intros; eapply tr_shape; eauto.
  - unfold ncells, rcells. rewrite length_cells_of. nia.
  - intros c. apply in_cells_of.
  - split; auto.
Qed.

Lemma accum_cnt : forall f fuel a, fully_draining f -> accumulated_flow fuel f = Ok a ->
  same_shape f a /\ forall c, inside (nrows f) (ncols f) c -> at_ a c = cnt f c.
Proof.
  intros f fuel a D H.
  destruct (acc_resolved f TypeError fuel (leaf_step fuel f) a) as (S & V & _); auto.
  - apply step_py. apply D.
  - split; auto. intros c I. destruct D as [_ D]. destruct (drains_end f c (D c I)) as (n & E). eauto.
Qed.

Lemma accum_cy_cnt : forall f fuel a, fully_draining f -> accumulated_flow_cy fuel f = Ok a ->
  same_shape f a /\ forall c, inside (nrows f) (ncols f) c -> at_ a c = cnt f c.
Proof.
  intros f fuel a D H.
  destruct (acc_resolved f PlainException fuel (trace_accumulated_flow_cy fuel f) a) as (S & V & _); auto.
  - apply step_cy. apply D.
  - split; auto. intros c I. destruct D as [_ D]. destruct (drains_end f c (D c I)) as (n & E). eauto.
Qed.

Theorem accum_counts : forall f fuel a, fully_draining f -> accumulated_flow fuel f = Ok a ->
  same_shape f a /\
  forall c, inside (nrows f) (ncols f) c -> counts (fun d => passes f d c) (at_ a c).
Proof.
  intros f fuel a D H. destruct (accum_cnt f fuel a D H) as [S V]. split; auto.
  intros c I. rewrite V by auto. destruct D as [_ D].
  destruct (drains_end f c (D c I)) as (n & E). eapply cnt_counts; eauto.
Qed.

Theorem accum_cy_counts : forall f fuel a, fully_draining f -> accumulated_flow_cy fuel f = Ok a ->
  same_shape f a /\
  forall c, inside (nrows f) (ncols f) c -> counts (fun d => passes f d c) (at_ a c).
Proof.
  intros f fuel a D H. destruct (accum_cy_cnt f fuel a D H) as [S V]. split; auto.
  intros c I. rewrite V by auto. destruct D as [_ D].
  destruct (drains_end f c (D c I)) as (n & E). eapply cnt_counts; eauto.
Qed.

Theorem accum_cy_agrees : forall f fuel fuel' a a', fully_draining f ->
  accumulated_flow fuel f = Ok a -> accumulated_flow_cy fuel' f = Ok a' ->
  forall c, inside (nrows f) (ncols f) c -> at_ a c = at_ a' c.
Proof.
  intros f fuel fuel' a a' D H H' c I.
  destruct (accum_cnt f fuel a D H) as [_ V]. destruct (accum_cy_cnt f fuel' a' D H') as [_ V'].
  rewrite V, V'; auto.
Qed.

Lemma zsum_ge : forall l x, (forall y, In y l -> 0 <= y) -> In x l -> x <= zsum l.
Proof.
  induction l as [|y l IH]; intros x P H; [destruct H|]. destruct H as [<-|H]; cbn.
  - assert (0 <= zsum l) by (apply zsum_nonneg; intros; apply P; right; auto). lia.
  - specialize (IH x ltac:(intros; apply P; right; auto) H). pose proof (P y (or_introl eq_refl)). lia.
Qed.

Lemma cnt_increases : forall f c d, fully_draining f -> flows f c d -> cnt f c < cnt f d.
Proof.
  intros f c d [_ D] (I & J & T). destruct (drains_end f d (D d J)) as (n & E).
  rewrite (cnt_rec f n d E).
  assert (cnt f c <= zsum (map (cnt f) (ups f d))); [|lia].
  apply zsum_ge.
  - intros y Hy. apply in_map_iff in Hy. destruct Hy as (u & <- & _). pose proof (cnt_pos f u). lia.
  - apply in_map. apply in_ups. auto.
Qed.

Theorem accum_increases : forall f fuel a c d, fully_draining f -> accumulated_flow fuel f = Ok a ->
  flows f c d -> at_ a c < at_ a d.
Proof.
  intros f fuel a c d D H F. destruct (accum_cnt f fuel a D H) as [_ V].
  pose proof (cnt_increases f c d D F). destruct F as (I & J & T). rewrite !V by auto. auto.
Qed.

(** The cells that flow off, by computation. *)
Definition offb (f : raster Z) (c : cell) : bool :=
  match target f c with
  | Some d => negb (cell_in_raster (nrows f) (ncols f) d)
  | None => false
  end.

Lemma offb_spec : forall f c, inside (nrows f) (ncols f) c -> (offb f c = true <-> flows_off f c).
Proof.
  intros f c I. unfold offb, flows_off. destruct (target f c) as [d|] eqn:T.
  - destruct (cell_in_raster_spec (nrows f) (ncols f) d) as [J|J]; cbn; split.
    + discriminate.
    + intros (_ & d' & E & N). inversion E; subst. tauto.
    + intros _. split; eauto.
    + auto.
  - split; [discriminate|]. intros (_ & d & E & _). discriminate.
Qed.

Lemma drains_passes_off : forall f c, drains_off f c -> exists o, flows_off f o /\ passes f c o.
Proof.
  intros f c H. induction H as [c H|c d F D (o & O & P)].
  - exists c. split; auto. constructor. apply H.
  - exists o. split; auto. econstructor; eauto.
Qed.

Lemma passes_off_eq : forall f x u v, flows_off f u -> flows_off f v ->
  passes f x u -> passes f x v -> u = v.
Proof.
  intros f x u v U V P. induction P as [x I|x y u F P IH]; intros Q.
  - inversion Q as [|a b c F Q']; subst; auto. destruct F as (_ & J & T), U as (_ & d & T' & N).
    exfalso. congruence.
  - inversion Q as [|a b c F' Q']; subst.
    + destruct F as (_ & J & T), V as (_ & d & T' & N). exfalso. congruence.
    + apply IH; auto. destruct F as (_ & _ & T), F' as (_ & _ & T'). congruence.
Qed.

Theorem accum_total_cells : forall f fuel a, fully_draining f -> accumulated_flow fuel f = Ok a ->
  forall offs, NoDup offs -> (forall c, In c offs <-> flows_off f c) ->
  zsum (map (at_ a) offs) = Z.max 0 (nrows f) * Z.max 0 (ncols f).
Proof.
  intros f fuel a D H offs ND HO. destruct (accum_cnt f fuel a D H) as [_ V].
  rewrite (map_ext_in _ (cnt f)).
  2:{ intros c Hc. apply V. apply HO in Hc. apply Hc. }
  unfold cnt. rewrite <- (length_flat_map (tree f (ncells f))).
  assert (E : length (flat_map (tree f (ncells f)) offs) = ncells f).
  { apply same_length; [| apply cells_of_NoDup |].
    - apply NoDup_flat_map; auto.
      + intros c Hc. apply HO in Hc. destruct Hc as (I & Hc). destruct D as [_ D].
        destruct (drains_end f c (D c I)) as (n & E). apply (tree_spec f _ c n E). lia.
      + intros u v x Hu Hv Xu Xv. apply HO in Hu. apply HO in Hv.
        destruct D as [_ D].
        destruct (drains_end f u (D u (proj1 Hu))) as (n & E).
        destruct (drains_end f v (D v (proj1 Hv))) as (m & E').
        apply (proj2 (tree_spec f (ncells f) u n E ltac:(lia))) in Xu.
        apply (proj2 (tree_spec f (ncells f) v m E' ltac:(lia))) in Xv.
        eapply passes_off_eq; eauto.
    - intros x. unfold rcells. rewrite in_cells_of, in_flat_map. split.
      + intros (u & Hu & X). apply HO in Hu. destruct D as [_ D].
        destruct (drains_end f u (D u (proj1 Hu))) as (n & E).
        apply (proj2 (tree_spec f (ncells f) u n E ltac:(lia))) in X.
        eapply passes_inside_l; eauto.
      + intros I. destruct D as [_ D]. destruct (drains_passes_off f x (D x I)) as (o & O & P).
        exists o. split; [apply HO; auto|].
        destruct (drains_end f o (D o (proj1 O))) as (n & E).
        apply (proj2 (tree_spec f (ncells f) o n E ltac:(lia))). auto. }
  rewrite E. unfold ncells, rcells. rewrite length_cells_of. nia.
Qed.

(** A cell without direction makes the call fail, whatever else the raster holds. *)
Theorem accum_nodir_fails : forall f x, codes_ok f -> inside (nrows f) (ncols f) x -> at_ f x = 8 ->
  forall fuel a, accumulated_flow fuel f <> Ok a.
Proof.
  intros f x OK I N fuel a H.
  destruct (acc_resolved f TypeError fuel (leaf_step fuel f) a (step_py f fuel OK) H) as (_ & _ & T).
  apply (T x I). unfold target. rewrite N. reflexivity.
Qed.
