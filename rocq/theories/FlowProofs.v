(** * Proofs about flow: directions, upstream cells, accumulated flow, watersheds *)

From Verif Require Import Base BaseProofs Num FlowModel FillSpec FlowSpec.

Lemma cell_in_raster_spec : forall rows cols c, reflect (inside rows cols c) (cell_in_raster rows cols c).
Proof.
  intros rows cols [r c]. unfold cell_in_raster, inside. cbn.
  apply iff_reflect.
  destruct (Z.leb_spec 0 r), (Z.ltb_spec r rows), (Z.leb_spec 0 c), (Z.ltb_spec c cols); cbn; split;
    intros; try discriminate; try reflexivity; lia.
Qed.

Lemma inside_dec : forall rows cols c, {inside rows cols c} + {~ inside rows cols c}.
Proof. intros. destruct (cell_in_raster_spec rows cols c); auto. Qed.

Lemma rd_at : forall {T} (a : raster T) c, inside (nrows a) (ncols a) c -> rd a (fst c) (snd c) = Ok (at_ a c).
Proof. intros T a c [H1 H2]. apply rd_in; auto. Qed.

Lemma wr_at : forall {T} (a : raster T) c v, inside (nrows a) (ncols a) c ->
  wr a (fst c) (snd c) v = Ok (rset a (fst c) (snd c) v).
Proof. intros T a c v [H1 H2]. apply wr_in; auto. Qed.

(** ** Directions *)
Ltac dir_cases d :=
  assert (d = 0 \/ d = 1 \/ d = 2 \/ d = 3 \/ d = 4 \/ d = 5 \/ d = 6 \/ d = 7 \/ d = 8) as Hd by lia;
  repeat destruct Hd as [Hd|Hd]; subst d.

Lemma delta_offset : forall d, 0 <= d <= 8 -> direction_to_delta d = Ok (offset d).
Proof. intros d H. dir_cases d; reflexivity. Qed.

Lemma delta_bad : forall d, ~ 0 <= d <= 8 -> direction_to_delta d = Exc PlainException.
Proof.
  intros d H. unfold direction_to_delta.
  repeat match goal with |- context [d =? ?k] => destruct (Z.eqb_spec d k) as [E|_];
    [exfalso; apply H; rewrite E; cbv; split; discriminate|] end.
  reflexivity.
Qed.

Lemma cell_in_direction_ok : forall c d, 0 <= d <= 8 ->
  cell_in_direction c d = match offset d with Some o => Ok (shift c o) | None => Exc TypeError end.
Proof. intros c d H. unfold cell_in_direction. rewrite delta_offset by auto. dir_cases d; reflexivity. Qed.

Lemma cell_in_direction_cy_ok : forall c d, 0 <= d <= 8 ->
  cell_in_direction_cy c d = match offset d with Some o => Some (shift c o) | None => None end.
Proof. intros c d H. dir_cases d; reflexivity. Qed.

Lemma offset_some : forall d o, offset d = Some o -> 0 <= d <= 7.
Proof.
  intros d o H. destruct d as [|p|p]; cbn in H; try discriminate; [lia|].
  destruct p as [[[p|p|]|[p|p|]|]|[[p|p|]|[p|p|]|]|]; cbn in H; try discriminate; lia.
Qed.

Lemma offset_none : forall d, 0 <= d <= 8 -> offset d = None -> d = 8.
Proof. intros d H E. dir_cases d; try discriminate; reflexivity. Qed.

Definition dirs : list Z := [0; 1; 2; 3; 4; 5; 6; 7].
Lemma range8 : pyrange 0 8 1 = dirs. Proof. reflexivity. Qed.

(** The neighbour in direction d if it flows back. *)
Definition up_in (f : raster Z) (c : cell) (d : Z) : list cell :=
  match offset d with
  | Some o => let nb := shift c o in
      if cell_in_raster (nrows f) (ncols f) nb && (at_ f nb =? (d + 4) mod 8) then [nb] else []
  | None => []
  end.
Definition ups (f : raster Z) (c : cell) : list cell := flat_map (up_in f c) dirs.

Lemma in_dirs : forall d, In d dirs <-> 0 <= d <= 7.
Proof. intros d. cbn. lia. Qed.

Lemma is_upstream_eq : forall f c d, 0 <= d <= 7 ->
  is_upstream_cell f c d =
  Ok (match offset d with
      | Some o => cell_in_raster (nrows f) (ncols f) (shift c o) && (at_ f (shift c o) =? (d + 4) mod 8)
      | None => false end).
Proof.
  intros f c d H. unfold is_upstream_cell. rewrite cell_in_direction_ok by lia.
  destruct (offset d) as [o|] eqn:E.
  2:{ apply offset_none in E; lia. }
  cbn [bind]. destruct (cell_in_raster_spec (nrows f) (ncols f) (shift c o)) as [I|I]; cbn [negb andb]; auto.
  rewrite rd_at by auto. cbn [bind].
  destruct (Z.eqb_spec (at_ f (shift c o)) FLOWDIR_NODIR) as [N|N].
  - rewrite N. pose proof (Z.mod_pos_bound (d + 4) 8). unfold FLOWDIR_NODIR.
    destruct (Z.eqb_spec 8 ((d + 4) mod 8)); auto. lia.
  - f_equal. apply Z.eqb_sym.
Qed.

Lemma upstream_cells_eq : forall f c, upstream_cells f c = Ok (ups f c).
Proof.
  intros f c. unfold upstream_cells, ups. rewrite range8.
  assert (G : forall ds acc, (forall d, In d ds -> 0 <= d <= 7) ->
    mfold (fun upstream direction =>
           up <- is_upstream_cell f c direction ;;
           if (up : bool) then u <- cell_in_direction c direction ;; Ok (upstream ++ [u])
           else Ok upstream) ds acc = Ok (acc ++ flat_map (up_in f c) ds)).
  { induction ds as [|d ds IH]; intros acc H; cbn [mfold flat_map].
    - rewrite app_nil_r. reflexivity.
    - assert (Hd : 0 <= d <= 7) by (apply H; left; auto).
      rewrite is_upstream_eq by auto. cbn [bind]. unfold up_in at 1.
      rewrite cell_in_direction_ok by lia.
      destruct (offset d) as [o|]; cbn zeta.
      + destruct (cell_in_raster _ _ _ && _); cbn [bind].
        * rewrite IH by (intros; apply H; right; auto). rewrite <- app_assoc. reflexivity.
        * rewrite IH by (intros; apply H; right; auto). reflexivity.
      + cbn [bind]. rewrite IH by (intros; apply H; right; auto). reflexivity. }
  rewrite G; [reflexivity|]. intros d. apply in_dirs.
Qed.

Lemma is_upstream_cy_eq : forall f d c, is_upstream_cy f d c = (at_ f c =? (d + 4) mod 8).
Proof.
  intros f d c. unfold is_upstream_cy. pose proof (Z.mod_pos_bound (d + 4) 8).
  destruct (Z.gtb_spec (at_ f c) 7), (Z.ltb_spec (at_ f c) 0); cbn [orb];
    try (symmetry; apply Z.eqb_neq; lia). apply Z.eqb_sym.
Qed.

Lemma upstream_cy_eq : forall f c, upstream_cy f c = ups f c.
Proof.
  intros f c. unfold upstream_cy, ups. rewrite range8.
  assert (G : forall ds, (forall d, In d ds -> 0 <= d <= 7) ->
    flat_map (fun d => match cell_in_direction_cy c d with
                     | Some nb => if cell_in_raster (nrows f) (ncols f) nb
                                     && is_upstream_cy f d nb then [nb] else []
                     | None => []
                     end) ds = flat_map (up_in f c) ds).
  { induction ds as [|d ds IH]; intros H; cbn [flat_map]; auto.
    rewrite IH by (intros; apply H; right; auto). f_equal.
    rewrite cell_in_direction_cy_ok by (specialize (H d (or_introl eq_refl)); lia).
    unfold up_in. destruct (offset d); auto. rewrite is_upstream_cy_eq. reflexivity. }
  apply G. intros d. apply in_dirs.
Qed.

Lemma opposite : forall d, 0 <= d <= 7 -> exists o, offset d = Some o /\
  offset ((d + 4) mod 8) = Some (- fst o, - snd o).
Proof. intros d H. dir_cases d; try lia; eexists; split; reflexivity. Qed.

Lemma offset_inj : forall d d' o, offset d = Some o -> offset d' = Some o -> d = d'.
Proof.
  intros d d' o H H'. pose proof (offset_some _ _ H). pose proof (offset_some _ _ H').
  dir_cases d; try lia; cbn in H; inversion H; subst o;
  clear H H0; dir_cases d'; try lia; cbn in H'; inversion H'; reflexivity.
Qed.

Lemma opposite_inv : forall d o, offset d = Some o ->
  exists d', 0 <= d' <= 7 /\ offset d' = Some (- fst o, - snd o) /\ d = (d' + 4) mod 8.
Proof.
  intros d o H. pose proof (offset_some _ _ H).
  dir_cases d; try lia; cbn in H; inversion H; subst o; cbn [fst snd].
  - exists 4. cbn. repeat split; lia.
  - exists 5. cbn. repeat split; lia.
  - exists 6. cbn. repeat split; lia.
  - exists 7. cbn. repeat split; lia.
  - exists 0. cbn. repeat split; lia.
  - exists 1. cbn. repeat split; lia.
  - exists 2. cbn. repeat split; lia.
  - exists 3. cbn. repeat split; lia.
Qed.

Lemma in_ups : forall f c u, In u (ups f c) <-> inside (nrows f) (ncols f) u /\ target f u = Some c.
Proof.
  intros f c u. unfold ups. rewrite in_flat_map. split.
  - intros (d & Hd & H). apply in_dirs in Hd. unfold up_in in H.
    destruct (opposite d Hd) as (o & Eo & Eo'). rewrite Eo in H. cbv zeta in H.
    destruct (cell_in_raster_spec (nrows f) (ncols f) (shift c o)) as [I|I]; cbn [andb] in H; [|destruct H].
    destruct (Z.eqb_spec (at_ f (shift c o)) ((d + 4) mod 8)) as [E|E]; [|destruct H].
    destruct H as [<-|[]]. split; auto. unfold target. rewrite E, Eo'.
    f_equal. unfold shift. cbn. destruct c. cbn. f_equal; lia.
  - intros [I E]. unfold target in E. destruct (offset (at_ f u)) as [o|] eqn:Eo; [|discriminate].
    inversion E; subst c. destruct (opposite_inv _ _ Eo) as (d' & Hd' & Ed' & Em).
    exists d'. split; [apply in_dirs; auto|]. unfold up_in. rewrite Ed'. cbv zeta.
    assert (Eu : shift (shift u o) (- fst o, - snd o) = u).
    { unfold shift. cbn. destruct u. cbn. f_equal; lia. }
    rewrite Eu. destruct (cell_in_raster_spec (nrows f) (ncols f) u); [|tauto].
    rewrite Em, Z.eqb_refl. left; auto.
Qed.

Lemma ups_nodup : forall f c, NoDup (ups f c).
Proof.
  intros f c. unfold ups.
  assert (G : forall ds, (forall d, In d ds -> 0 <= d <= 7) -> NoDup ds -> NoDup (flat_map (up_in f c) ds)).
  { induction ds as [|d ds IH]; intros H ND; cbn [flat_map]; [constructor|].
    inversion ND; subst.
    assert (IHd : NoDup (flat_map (up_in f c) ds)) by (apply IH; auto; intros; apply H; right; auto).
    destruct (up_in f c d) as [|x [|y l]] eqn:E; cbn; auto.
    - constructor; auto. intros X. apply in_flat_map in X. destruct X as (d' & Hd' & X).
      unfold up_in in E, X.
      destruct (offset d) as [o|] eqn:Eo; [|discriminate]. destruct (offset d') as [o'|] eqn:Eo'; [|destruct X].
      cbv zeta in E, X. destruct (_ && _) in E; [|discriminate]. destruct (_ && _) in X; [|destruct X].
      inversion E; subst x. destruct X as [X|[]].
      assert (o' = o).
      { unfold shift in X. destruct o, o'. cbn in X. inversion X. f_equal; lia. }
      subst o'. apply H2. rewrite (offset_inj _ _ _ Eo Eo'). auto.
    - unfold up_in in E. destruct (offset d); [|discriminate]. cbv zeta in E. destruct (_ && _) in E; discriminate. }
  apply G; [intros d; apply in_dirs|].
  unfold dirs. repeat constructor; cbn; lia.
Qed.

(** ** Downstream distance *)
Section Graph.
Variable f : raster Z.
Notation ins := (inside (nrows f) (ncols f)).

Inductive end_in : nat -> cell -> Prop :=
| ei_end : forall c, ins c -> (forall d, target f c = Some d -> ~ ins d) -> end_in 0 c
| ei_step : forall n c d, flows f c d -> end_in n d -> end_in (S n) c.

Lemma end_in_inside : forall n c, end_in n c -> ins c.
Proof. intros n c H. inversion H; subst; auto. apply H0. Qed.

Lemma end_in_det : forall n c, end_in n c -> forall m, end_in m c -> n = m.
Proof.
  intros n c H. induction H; intros m H'; inversion H'; subst; auto.
  - destruct H1 as (_ & I & E). exfalso. eapply H0; eauto.
  - destruct H as (_ & I & E). exfalso. eapply H2; eauto.
  - f_equal. apply IHend_in.
    match goal with A : flows f c d, B : flows f c ?d', C : end_in _ ?d' |- _ =>
      destruct A as (_ & _ & E), B as (_ & _ & E'); rewrite E in E'; inversion E'; subst; exact C end.
Qed.

Lemma flows_end : forall n a b, flows f a b -> end_in n b -> end_in (S n) a.
Proof. intros. econstructor; eauto. Qed.

Lemma flows_end_inv : forall n a b, flows f a b -> end_in n a -> exists m, n = S m /\ end_in m b.
Proof.
  intros n a b (I & J & E) H. inversion H; subst.
  - exfalso. eapply H1; eauto.
  - destruct H0 as (_ & _ & E'). exists n0. split; auto. congruence.
Qed.

Lemma passes_end : forall a b, passes f a b -> forall m, end_in m b -> exists n, (m <= n)%nat /\ end_in n a.
Proof.
  intros a b H. induction H; intros m Hm; eauto.
  destruct (IHpasses m Hm) as (n & L & E). exists (S n). split; [lia | eapply flows_end; eauto].
Qed.

Lemma passes_inside_r : forall a b, passes f a b -> ins b.
Proof. intros a b H. induction H; auto. Qed.
Lemma passes_inside_l : forall a b, passes f a b -> ins a.
Proof. intros a b H. inversion H; subst; auto. apply H0. Qed.

Lemma passes_trans : forall a b c, passes f a b -> passes f b c -> passes f a c.
Proof. intros a b c H. induction H; intros; auto. econstructor; eauto. Qed.

Lemma passes_snoc : forall a b c, passes f a b -> flows f b c -> passes f a c.
Proof.
  intros a b c H F. eapply passes_trans; eauto. econstructor; eauto. constructor. apply F.
Qed.

Lemma passes_last : forall a c, passes f a c -> a = c \/ exists u, In u (ups f c) /\ passes f a u.
Proof.
  intros a c H. induction H; auto. right. destruct IHpasses as [->|(u & Hu & P)].
  - exists a. split; [apply in_ups; split; apply H | constructor; apply H].
  - exists u. split; auto. econstructor; eauto.
Qed.

(** Distances are smaller than the number of cells. *)
Definition ncells : nat := length (rcells f).

Lemma end_in_path : forall n c, end_in n c -> exists l, NoDup l /\ length l = S n /\
  (forall x, In x l -> exists m, (m <= n)%nat /\ end_in m x).
Proof.
  intros n c H. induction H.
  - exists [c]. split; [repeat constructor; cbn; tauto|]. split; auto.
    intros x [<-|[]]. exists 0%nat. split; auto. constructor; auto.
  - destruct IHend_in as (l & ND & L & P). exists (c :: l). split; [|split; [cbn; lia|]].
    + constructor; auto. intros X. destruct (P c X) as (m & Hm & E).
      pose proof (end_in_det _ _ E _ (flows_end _ _ _ H H0)). lia.
    + intros x [<-|X].
      * exists (S n). split; auto. eapply flows_end; eauto.
      * destruct (P x X) as (m & Hm & E). exists m. split; auto.
Qed.

Lemma end_in_bound : forall n c, end_in n c -> (n < ncells)%nat.
Proof.
  intros n c H. destruct (end_in_path _ _ H) as (l & ND & L & P).
  assert (length l <= ncells)%nat; [|lia].
  apply NoDup_incl_length; auto. intros x Hx. destruct (P x Hx) as (m & _ & E).
  apply in_cells_of. eapply end_in_inside; eauto.
Qed.

(** Induction over the upstream tree. *)
Lemma up_ind : forall P : cell -> Prop,
  (forall c n, end_in n c -> (forall u, In u (ups f c) -> P u) -> P c) ->
  forall c n, end_in n c -> P c.
Proof.
  intros P H.
  assert (G : forall k c n, end_in n c -> (ncells - n <= k)%nat -> P c).
  { induction k as [|k IH]; intros c n E L.
    - pose proof (end_in_bound _ _ E). lia.
    - eapply H; eauto. intros u Hu. apply in_ups in Hu.
      assert (E' : end_in (S n) u).
      { econstructor; eauto. repeat split; try apply Hu. all: apply (end_in_inside _ _ E). }
      eapply IH; eauto. lia. }
  intros c n E. eapply G; eauto.
Qed.

(** ** The upstream tree as a list *)
Fixpoint tree (k : nat) (c : cell) : list cell :=
  match k with
  | O => [c]
  | S k => c :: flat_map (tree k) (ups f c)
  end.

Lemma ups_end : forall n c u, end_in n c -> In u (ups f c) -> end_in (S n) u.
Proof.
  intros n c u E Hu. apply in_ups in Hu. econstructor; eauto.
  destruct Hu. split; auto. split; auto. eapply end_in_inside; eauto.
Qed.

Lemma ups_flows : forall c u, ins c -> In u (ups f c) -> flows f u c.
Proof. intros c u I Hu. apply in_ups in Hu. split; [|split]; tauto. Qed.

Lemma ups_disjoint : forall n c u v x, end_in n c -> In u (ups f c) -> In v (ups f c) ->
  passes f x u -> passes f x v -> u = v.
Proof.
  intros n c u v x E Hu Hv Pu Pv.
  assert (L : forall a u, passes f a u -> forall v, passes f a v -> passes f u v \/ passes f v u).
  { clear. intros a u H. induction H; intros v Hv; auto.
    inversion Hv; subst.
    - right. econstructor; eauto.
    - apply IHpasses. destruct H as (_ & _ & T), H1 as (_ & _ & T'). congruence. }
  assert (S : forall u v, In u (ups f c) -> In v (ups f c) -> passes f u v -> u = v).
  { clear u v x Hu Hv Pu Pv L. intros u v Hu Hv P. inversion P; subst; auto.
    assert (b = c) by (destruct H as (_ & _ & T); apply in_ups in Hu; destruct Hu; congruence). subst b.
    pose proof (ups_end _ _ _ E Hv) as Ev.
    destruct (passes_end _ _ H0 _ Ev) as (m & Lm & Em).
    pose proof (end_in_det _ _ E _ Em). lia. }
  destruct (L x u Pu v Pv); [eauto | symmetry; eauto].
Qed.

Lemma NoDup_flat_map : forall {A B} (g : A -> list B) l, NoDup l ->
  (forall a, In a l -> NoDup (g a)) ->
  (forall a b x, In a l -> In b l -> In x (g a) -> In x (g b) -> a = b) ->
  NoDup (flat_map g l).
Proof.
  induction l as [|a l IH]; intros ND H D; cbn; [constructor|].
  inversion ND; subst.
  assert (NoDup (flat_map g l)).
  { apply IH; auto. intros; apply H; right; auto. intros; eapply D; eauto; right; auto. }
  assert (G : forall m, (forall x, In x m -> In x (g a)) -> NoDup m -> NoDup (m ++ flat_map g l)).
  { induction m as [|x m IHm]; intros S N; cbn; auto. inversion N; subst. constructor.
    - rewrite in_app_iff. intros [X|X]; [auto|]. apply in_flat_map in X. destruct X as (b & Hb & X).
      assert (a = b) by (eapply D; [left; auto | right; eauto | apply S; left; auto | auto]).
      subst. auto.
    - apply IHm; auto. intros; apply S; right; auto. }
  apply G; auto. apply H. left; auto.
Qed.

Lemma tree_spec : forall k c n, end_in n c -> (ncells <= n + k + 1)%nat ->
  NoDup (tree k c) /\ (forall d, In d (tree k c) <-> passes f d c).
Proof.
  induction k as [|k IH]; intros c n E L; cbn [tree].
  - split; [repeat constructor; cbn; tauto|]. intros d. split.
    + intros [<-|[]]. constructor. eapply end_in_inside; eauto.
    + intros P. left. destruct (passes_last _ _ P) as [->|(u & Hu & _)]; auto.
      pose proof (end_in_bound _ _ (ups_end _ _ _ E Hu)). lia.
  - assert (IHu : forall u, In u (ups f c) -> NoDup (tree k u) /\ (forall d, In d (tree k u) <-> passes f d u)).
    { intros u Hu. eapply IH; [eapply ups_end; eauto | lia]. }
    split.
    + constructor.
      * intros X. apply in_flat_map in X. destruct X as (u & Hu & X). apply (IHu u Hu) in X.
        destruct (passes_end _ _ X _ (ups_end _ _ _ E Hu)) as (m & Lm & Em).
        pose proof (end_in_det _ _ E _ Em). lia.
      * apply NoDup_flat_map; [apply ups_nodup | intros; apply IHu; auto |].
        intros a b x Ha Hb Xa Xb. apply (IHu a Ha) in Xa. apply (IHu b Hb) in Xb.
        eapply ups_disjoint; eauto.
    + intros d. cbn. rewrite in_flat_map. split.
      * intros [<-|(u & Hu & X)]; [constructor; eapply end_in_inside; eauto|].
        apply (IHu u Hu) in X. eapply passes_snoc; eauto. apply ups_flows; auto. eapply end_in_inside; eauto.
      * intros P. destruct (passes_last _ _ P) as [->|(u & Hu & X)]; auto.
        right. exists u. split; auto. apply IHu; auto.
Qed.

Definition cnt (c : cell) : Z := Z.of_nat (length (tree ncells c)).

Lemma same_length : forall {A} (l l' : list A), NoDup l -> NoDup l' ->
  (forall x, In x l <-> In x l') -> length l = length l'.
Proof.
  intros A l l' N N' H. apply Nat.le_antisymm; apply NoDup_incl_length; auto; intros x; apply H.
Qed.

Lemma cnt_counts : forall n c, end_in n c -> counts (fun d => passes f d c) (cnt c).
Proof.
  intros n c E. destruct (tree_spec ncells c n E) as [ND M]; [lia|].
  exists (tree ncells c). auto.
Qed.

Lemma counts_unique : forall P n m, counts P n -> counts P m -> n = m.
Proof.
  intros P n m (l & N & M & ->) (l' & N' & M' & ->). f_equal. apply same_length; auto.
  intros x. rewrite M, M'. tauto.
Qed.

Fixpoint zsum (l : list Z) : Z := match l with [] => 0 | x :: t => x + zsum t end.

Lemma length_flat_map : forall {A B} (g : A -> list B) l,
  Z.of_nat (length (flat_map g l)) = zsum (map (fun a => Z.of_nat (length (g a))) l).
Proof. induction l; cbn; auto. rewrite app_length. lia. Qed.

Lemma cnt_rec : forall n c, end_in n c -> cnt c = 1 + zsum (map cnt (ups f c)).
Proof.
  intros n c E. unfold cnt at 1. pose proof (end_in_bound _ _ E) as B.
  destruct ncells as [|k] eqn:K; [lia|]. cbn [tree length].
  assert (X : Z.of_nat (length (flat_map (tree k) (ups f c))) = zsum (map cnt (ups f c))).
  { rewrite length_flat_map. f_equal. apply map_ext_in. intros u Hu. unfold cnt. f_equal.
    pose proof (ups_end _ _ _ E Hu) as Eu.
    destruct (tree_spec k u (S n) Eu) as [N1 M1]; [lia|].
    destruct (tree_spec ncells u (S n) Eu) as [N2 M2]; [lia|].
    apply same_length; auto. intros x. rewrite M1, M2. tauto. }
  rewrite <- X. lia.
Qed.

Lemma cnt_pos : forall c, 0 < cnt c.
Proof. intros c. unfold cnt. destruct ncells; cbn [tree length]; lia. Qed.

(** ** Accumulated flow *)
Fixpoint sumup (l : list cell) (a : raster Z) (s : Z) : option Z :=
  match l with
  | [] => Some s
  | u :: t => if at_ a u <=? 0 then None else sumup t a (s + at_ a u)
  end.

(** The loop that both programs run. *)
Fixpoint tr (e : exn) (fuel : nat) (a : raster Z) (c : cell) : res (raster Z) :=
  if cell_in_raster (nrows f) (ncols f) c then
    match fuel with
    | O => Timeout
    | S k =>
        match sumup (ups f c) a 0 with
        | None => Ok a
        | Some s => match target f c with
                    | Some d => tr e k (rset a (fst c) (snd c) (s + 1)) d
                    | None => Exc e
                    end
        end
    end
  else Ok a.

Lemma sum_cells_eq : forall a l s, same_shape f a -> (forall u, In u l -> ins u) -> 0 <= s ->
  sum_cells l a s = Ok (match sumup l a s with Some x => x | None => -1 end) /\
  (forall x, sumup l a s = Some x -> s <= x /\ (l <> [] -> s < x)).
Proof.
  intros a l s (Sr & Sc). revert s. induction l as [|u l IH]; intros s H Hs; cbn [sum_cells sumup].
  - split; auto. intros x E. inversion E; subst. split; [lia | congruence].
  - assert (Iu : inside (nrows a) (ncols a) u) by (rewrite <- Sr, <- Sc; apply H; left; auto).
    rewrite rd_at by auto. cbn [bind]. destruct (Z.leb_spec (at_ a u) 0) as [L|L].
    + split; auto. discriminate.
    + destruct (IH (s + at_ a u)) as [E1 E2]; [intros; apply H; right; auto | lia|].
      rewrite E1. split; auto. intros x Ex. destruct (E2 x Ex). split; [lia | intros; lia].
Qed.

Lemma trace_eq : codes_ok f -> forall fuel a c, same_shape f a ->
  trace_accumulated_flow fuel f a c = tr TypeError fuel a c.
Proof.
  intros OK. induction fuel as [|k IH]; intros a c S; cbn [trace_accumulated_flow tr];
    destruct (cell_in_raster_spec (nrows f) (ncols f) c) as [I|I]; auto.
  rewrite upstream_cells_eq. cbn [bind].
  destruct (sum_cells_eq a (ups f c) 0 S) as [E1 E2]; [intros u Hu; apply in_ups in Hu; tauto | lia|].
  assert (X : match ups f c with
              | [] => Ok (Some 0)
              | _ :: _ => s <- sum_cells (ups f c) a 0 ;; Ok (if s <=? 0 then None else Some s)
              end = Ok (sumup (ups f c) a 0)).
  { rewrite E1. cbn [bind]. destruct (ups f c) as [|u l] eqn:U; [reflexivity|].
    destruct (sumup (u :: l) a 0) as [x|]; cbn; auto.
    destruct (E2 x eq_refl) as [_ P]. specialize (P ltac:(discriminate)).
    destruct (Z.leb_spec x 0); [lia | auto]. }
  rewrite X. cbn [bind]. destruct (sumup (ups f c) a 0) as [s|]; auto.
  destruct S as [Sr Sc].
  rewrite wr_at by (rewrite <- Sr, <- Sc; auto). cbn [bind].
  rewrite rd_at by auto. cbn [bind]. rewrite cell_in_direction_ok by (apply OK; auto).
  unfold target. destruct (offset (at_ f c)) as [o|]; cbn [bind]; auto.
  apply IH. split; auto.
Qed.

Lemma sum_upstream_cy_eq : forall a c ds s, (forall d, In d ds -> 0 <= d <= 7) ->
  sum_upstream_cy f a c ds s = sumup (flat_map (up_in f c) ds) a s.
Proof.
  induction ds as [|d ds IH]; intros s H; cbn [sum_upstream_cy flat_map]; auto.
  rewrite cell_in_direction_cy_ok by (specialize (H d (or_introl eq_refl)); lia).
  unfold up_in at 1. destruct (offset d) as [o|]; cbv zeta.
  - rewrite is_upstream_cy_eq. destruct (_ && _); cbn [app sumup].
    + destruct (_ <=? 0); auto. apply IH. intros; apply H; right; auto.
    + apply IH. intros; apply H; right; auto.
  - apply IH. intros; apply H; right; auto.
Qed.

Lemma trace_cy_eq : codes_ok f -> forall fuel a c,
  trace_accumulated_flow_cy fuel f a c = tr PlainException fuel a c.
Proof.
  intros OK. induction fuel as [|k IH]; intros a c; cbn [trace_accumulated_flow_cy tr];
    destruct (cell_in_raster_spec (nrows f) (ncols f) c) as [I|I]; auto.
  rewrite range8, sum_upstream_cy_eq by (intros d; apply in_dirs). fold (ups f c).
  destruct (sumup (ups f c) a 0) as [s|]; auto.
  rewrite cell_in_direction_cy_ok by (apply OK; auto). unfold target.
  destruct (offset (at_ f c)); auto.
Qed.

Definition resolved (a : raster Z) (c : cell) : Prop := 0 < at_ a c.
Definition nonneg (a : raster Z) : Prop := forall c, ins c -> 0 <= at_ a c.
(** Every cell but x that has upstream cells, all resolved, is resolved. *)
Definition settled_but (a : raster Z) (x : option cell) : Prop :=
  forall c, ins c -> Some c <> x -> ups f c <> [] ->
  (forall u, In u (ups f c) -> resolved a u) -> resolved a c.

Lemma sumup_some : forall a l s x, sumup l a s = Some x ->
  (forall u, In u l -> resolved a u) /\ x = s + zsum (map (at_ a) l).
Proof.
  intros a. induction l as [|u l IH]; intros s x H; cbn in *.
  - inversion H; subst. split; [tauto | lia].
  - destruct (Z.leb_spec (at_ a u) 0) as [L|L]; [discriminate|].
    destruct (IH _ _ H) as [A B]. split; [|lia]. intros v [<-|Hv]; auto.
Qed.

Lemma sumup_none : forall a l s, sumup l a s = None -> exists u, In u l /\ ~ resolved a u.
Proof.
  intros a. induction l as [|u l IH]; intros s H; cbn in *; [discriminate|].
  destruct (Z.leb_spec (at_ a u) 0) as [L|L].
  - exists u. split; auto. unfold resolved. lia.
  - destruct (IH _ H) as (v & Hv & N). exists v. auto.
Qed.

Lemma zsum_nonneg : forall l, (forall x, In x l -> 0 <= x) -> 0 <= zsum l.
Proof.
  induction l; intros H; cbn; [lia|]. pose proof (H a (or_introl eq_refl)).
  assert (0 <= zsum l) by (apply IHl; intros; apply H; right; auto). lia.
Qed.

Lemma tr_inv : forall e fuel a c a',
  tr e fuel a c = Ok a' -> same_shape f a -> nonneg a -> settled_but a (Some c) ->
  same_shape f a' /\ nonneg a' /\ settled_but a' None /\
  (forall d, ins d -> resolved a d -> resolved a' d) /\
  (ins c -> ups f c = [] -> resolved a' c) /\
  (forall x, target f x = None -> ins x -> at_ a' x = at_ a x).
Proof.
  intros e. induction fuel as [|k IH]; intros a c a' H S N J; cbn [tr] in H;
    destruct (cell_in_raster_spec (nrows f) (ncols f) c) as [I|I].
  - discriminate.
  - inversion H; subst. split; [auto|]. split; [auto|]. split; [|split; [auto|split; [tauto|auto]]].
    intros d Hd _. apply J; auto. intros E. inversion E; subst. tauto.
  - destruct (sumup (ups f c) a 0) as [s|] eqn:SU.
    + destruct (sumup_some _ _ _ _ SU) as [RU Es].
      destruct (target f c) as [d|] eqn:T; [|discriminate].
      set (b := rset a (fst c) (snd c) (s + 1)) in *.
      assert (Sb : same_shape f b) by exact S.
      assert (Ps : 0 <= s).
      { rewrite Es. cbn. apply zsum_nonneg. intros x Hx. apply in_map_iff in Hx.
        destruct Hx as (u & <- & Hu). apply N. apply in_ups in Hu. tauto. }
      assert (Bc : at_ b c = s + 1) by apply at_rset_same.
      assert (Bo : forall x, x <> c -> at_ b x = at_ a x) by (intros; apply at_rset_other; auto).
      assert (Rm : forall x, resolved a x -> resolved b x).
      { intros x Hx. destruct (cell_eq_dec x c) as [->|Nx]; unfold resolved in *; [lia | rewrite Bo; auto]. }
      assert (Nb : nonneg b).
      { intros x Hx. destruct (cell_eq_dec x c) as [->|Nx]; [lia | rewrite Bo; auto]. }
      assert (Jb : settled_but b (Some d)).
      { intros x Hx Nx Ux R. destruct (cell_eq_dec x c) as [->|Nxc]; [unfold resolved; lia|].
        apply Rm. apply J; auto; [congruence|]. intros u Hu.
        destruct (cell_eq_dec u c) as [->|Nuc].
        - apply in_ups in Hu. destruct Hu as [_ Hu]. exfalso. apply Nx. congruence.
        - specialize (R u Hu). unfold resolved in *. rewrite Bo in R; auto. }
      destruct (IH b d a' H Sb Nb Jb) as (A1 & A2 & A3 & A4 & A5 & A6).
      split; [auto|]. split; [auto|]. split; [auto|]. split; [intros; apply A4; auto|].
      split; [intros _ _; apply A4; auto; unfold resolved; lia|].
      intros x Tx Ix. rewrite A6 by auto. apply Bo. congruence.
    + inversion H; subst. destruct (sumup_none _ _ _ SU) as (u & Hu & Nu).
      split; [auto|]. split; [auto|]. split; [|split; [auto|split; [|auto]]].
      * intros x Hx _ Ux R. destruct (cell_eq_dec x c) as [->|Nx]; [exfalso; auto|].
        apply J; auto. congruence.
      * intros _ E. rewrite E in Hu. destruct Hu.
  - inversion H; subst. split; [auto|]. split; [auto|]. split; [|split; [auto|split; [tauto|auto]]].
    intros d Hd _. apply J; auto. intros E. inversion E; subst. tauto.
Qed.

Lemma tr_cnt : forall e fuel a c a', tr e fuel a c = Ok a' -> same_shape f a ->
  (forall x n, end_in n x -> at_ a x = 0 \/ at_ a x = cnt x) ->
  (forall x n, end_in n x -> at_ a' x = 0 \/ at_ a' x = cnt x).
Proof.
  intros e. induction fuel as [|k IH]; intros a c a' H S V; cbn [tr] in H;
    destruct (cell_in_raster_spec (nrows f) (ncols f) c) as [I|I]; try (inversion H; subst; auto; fail).
  destruct (sumup (ups f c) a 0) as [s|] eqn:SU; [|inversion H; subst; auto].
  destruct (target f c) as [d|] eqn:T; [|discriminate].
  refine (IH _ _ _ H _ _); auto.
  intros x n Ex. destruct (cell_eq_dec x c) as [->|Nx]; [|rewrite at_rset_other by auto; eauto].
  right. rewrite at_rset_same, (cnt_rec _ _ Ex).
  destruct (sumup_some _ _ _ _ SU) as [RU ->].
  rewrite (map_ext_in (at_ a) cnt); [lia|]. intros u Hu.
  destruct (V u _ (ups_end _ _ _ Ex Hu)) as [Z|Z]; auto.
  specialize (RU u Hu). unfold resolved in RU. lia.
Qed.

Lemma tr_total : forall e fuel a c n, (forall x, ins x -> target f x <> None) ->
  end_in n c -> (n < fuel)%nat -> exists a', tr e fuel a c = Ok a'.
Proof.
  intros e. induction fuel as [|k IH]; intros a c n ND E L; [lia|]. cbn [tr].
  pose proof (end_in_inside _ _ E) as I.
  destruct (cell_in_raster_spec (nrows f) (ncols f) c); [|tauto].
  destruct (sumup (ups f c) a 0) as [s|]; [|eauto].
  destruct (target f c) as [d|] eqn:T; [|exfalso; apply (ND c); auto].
  destruct (inside_dec (nrows f) (ncols f) d) as [J|J].
  - destruct (flows_end_inv n c d ltac:(split; [|split]; auto) E) as (m & -> & E').
    apply IH with m; auto. lia.
  - destruct k; cbn [tr]; destruct (cell_in_raster_spec (nrows f) (ncols f) d); try tauto; eauto.
Qed.
End Graph.
