(** * Flow directions *)

From Flocq Require Import IEEE754.BinarySingleNaN.
From Verif Require Import Base BaseProofs Num Float64 Float64Proofs Float64Arith Float64Scale
  FlowModel FillSpec FlowSpec FlowProofs AccumProofs.

Lemma mfold_write : forall {T} (v : cell -> T) L (a : raster T),
  (forall c, In c L -> inside (nrows a) (ncols a) c) ->
  exists b, mfold (fun a c => wr a (fst c) (snd c) (v c)) L a = Ok b /\
    nrows b = nrows a /\ ncols b = ncols a /\
    (forall c, In c L -> at_ b c = v c) /\ (forall c, ~ In c L -> at_ b c = at_ a c).
Proof.
  intros T v. induction L as [|x L IH]; intros a H; cbn [mfold].
  - exists a. split; [auto|]. split; [auto|]. split; [auto|]. split; [intros ? []|auto].
  - rewrite wr_at by (apply H; left; auto). cbn [bind].
    destruct (IH (rset a (fst x) (snd x) (v x))) as (b & E & B1 & B2 & B3 & B4).
    { intros c Hc. apply H. right; auto. }
    exists b. split; [auto|]. split; [auto|]. split; [auto|]. split.
    + intros c [<-|Hc]; auto. destruct (in_dec cell_eq_dec x L); auto.
      rewrite B4 by auto. apply at_rset_same.
    + intros c N. rewrite B4 by (intros X; apply N; right; auto).
      apply at_rset_other. intros ->. apply N. left; auto.
Qed.

Lemma offset_adjacent : forall d o c, offset d = Some o -> adjacent c (shift c o).
Proof.
  intros d o [r c] H. pose proof (offset_some _ _ H). unfold adjacent, shift.
  dir_cases d; cbn in H; inversion H; subst o; cbn [fst snd];
    (split; [intros E; inversion E; lia | lia]).
Qed.

Lemma offset_of_adjacent : forall c n, adjacent c n -> exists d o, 0 <= d <= 7 /\ offset d = Some o /\ shift c o = n.
Proof.
  intros [r c] [r' c'] (N & A & B). cbn in A, B.
  assert (E : exists d, 0 <= d <= 7 /\ offset d = Some (r' - r, c' - c)).
  { assert (r' - r = -1 \/ r' - r = 0 \/ r' - r = 1) as [X|[X|X]] by lia;
    assert (c' - c = -1 \/ c' - c = 0 \/ c' - c = 1) as [Y|[Y|Y]] by lia; rewrite X, Y.
    - exists 7. split; [lia | auto].
    - exists 0. split; [lia | auto].
    - exists 1. split; [lia | auto].
    - exists 6. split; [lia | auto].
    - exfalso. apply N. f_equal; lia.
    - exists 2. split; [lia | auto].
    - exists 5. split; [lia | auto].
    - exists 4. split; [lia | auto].
    - exists 3. split; [lia | auto]. }
  destruct E as (d & Hd & E). exists d, (r' - r, c' - c). split; auto. split; auto.
  unfold shift. cbn. f_equal; lia.
Qed.

Lemma interior_shift : forall rows cols c d o, interior rows cols c -> offset d = Some o ->
  inside rows cols (shift c o).
Proof.
  intros rows cols [r c] d [a b] I E.
  unfold interior, inside, shift in *. cbn in *.
  assert (-1 <= a <= 1 /\ -1 <= b <= 1); [|lia].
  pose proof (offset_some _ _ E). dir_cases d; cbn in E; inversion E; lia.
Qed.

Section Dir.
Variable g : b64 -> b64.
Hypothesis G : slope_op g.
Variable t : raster b64.
Hypothesis fin : dem_finite t.

Definition upd (c : cell) (st : Z * b64) (d : Z) : Z * b64 :=
  if Bltb (snd st) (slope g t c d) then (d, slope g t c d) else st.
Definition best (c : cell) : Z * b64 := fold_left (upd c) dirs (8, f64_zero).

Lemma blocks_eq : flow_blocks =
  map (fun d => match offset d with Some o => (fst o, snd o, Z.odd d, d) | None => (0, 0, false, d) end) dirs.
Proof. reflexivity. Qed.

Lemma blocks_fold : forall c, interior (nrows t) (ncols t) c -> forall ds st,
  (forall d, In d ds -> 0 <= d <= 7) ->
  mfold (fun st d => flow_block F64Ops g t (fst c) (snd c) (at_ t c) st
     match offset d with Some o => (fst o, snd o, Z.odd d, d) | None => (0, 0, false, d) end) ds st
  = Ok (fold_left (upd c) ds st).
Proof.
  intros c I. induction ds as [|d ds IH]; intros [i m] H; cbn [mfold fold_left]; auto.
  assert (Hd : 0 <= d <= 7) by (apply H; left; auto).
  destruct (opposite d Hd) as (o & Eo & _). unfold flow_block at 1. rewrite Eo.
  pose proof (interior_shift _ _ _ _ _ I Eo) as J.
  replace (fst c + fst o) with (fst (shift c o)) by reflexivity.
  replace (snd c + snd o) with (snd (shift c o)) by reflexivity.
  rewrite rd_at by auto. cbn [bind]. rewrite IH by (intros; apply H; right; auto).
  f_equal. f_equal. unfold upd, slope. rewrite Eo. cbn [snd nsub nltb F64Ops].
  destruct (Bltb _ _); reflexivity.
Qed.

Lemma flow_cell_eq : forall flow c, interior (nrows t) (ncols t) c ->
  flow_cell F64Ops g t flow c = wr flow (fst c) (snd c) (fst (best c)).
Proof.
  intros flow [r c] I. unfold flow_cell.
  assert (J : inside (nrows t) (ncols t) (r, c)) by (unfold interior, inside in *; cbn in *; lia).
  pose proof (rd_at t (r, c) J) as E. cbn [fst snd] in E. rewrite E. cbn [bind].
  rewrite blocks_eq, mfold_map.
  pose proof (blocks_fold (r, c) I dirs (FLOWDIR_NODIR, nofZ F64Ops 0) (fun d Hd => proj1 (in_dirs d) Hd)) as B.
  cbn [fst snd] in B. rewrite B. reflexivity.
Qed.

Definition interior_cells : list cell :=
  flat_map (fun r => map (fun c => (r, c)) (pyrange 1 (ncols t - 2 + 1) 1)) (pyrange 1 (nrows t - 2 + 1) 1).

Lemma in_interior_cells : forall c, In c interior_cells <-> interior (nrows t) (ncols t) c.
Proof.
  intros [r c]. unfold interior_cells, interior. rewrite in_flat_map. cbn [fst snd]. split.
  - intros (x & Hx & H). apply in_map_iff in H. destruct H as (y & E & Hy). inversion E; subst.
    rewrite in_pyrange_up in *. lia.
  - intros H. exists r. rewrite in_pyrange_up. split; [lia|]. apply in_map_iff. exists c.
    rewrite in_pyrange_up. split; [auto|lia].
Qed.

Lemma terrain_flow_ok : exists f, terrain_flow F64Ops g t = Ok f /\ nrows f = nrows t /\ ncols f = ncols t /\
  (forall c, interior (nrows t) (ncols t) c -> at_ f c = fst (best c)) /\
  (forall c, ~ interior (nrows t) (ncols t) c -> at_ f c = 8).
Proof.
  unfold terrain_flow. fold interior_cells.
  set (f0 := mkRaster (nrows t) (ncols t) (fun _ _ => FLOWDIR_NODIR)).
  rewrite (mfold_ext_in _ (fun a c => wr a (fst c) (snd c) (fst (best c)))).
  2:{ intros a c Hc. apply flow_cell_eq. apply in_interior_cells; auto. }
  destruct (mfold_write (fun c => fst (best c)) interior_cells f0) as (f & E & A & B & C & D).
  { intros c Hc. apply in_interior_cells in Hc. unfold interior, inside in *. cbn. lia. }
  exists f. split; [exact E|]. split; [auto|]. split; [auto|]. split.
  - intros c Hc. apply C. apply in_interior_cells; auto.
  - intros c Hc. rewrite D; auto. rewrite in_interior_cells. auto.
Qed.

(** ** The choice *)
Lemma slope_facts : forall c d, interior (nrows t) (ncols t) c -> 0 <= d <= 7 ->
  not_nan (slope g t c d) /\
  (forall o, offset d = Some o -> (0 < rank (slope g t c d) <-> rank (at_ t (shift c o)) < rank (at_ t c))).
Proof.
  intros c d I Hd. destruct (opposite d Hd) as (o & Eo & _).
  destruct G as (G1 & G2 & G3).
  assert (Fc : is_finite (at_ t c) = true).
  { apply fin. unfold interior, inside in *. lia. }
  pose proof (interior_shift _ _ _ _ _ I Eo) as J.
  assert (Fn : is_finite (at_ t (shift c o)) = true) by (apply fin; auto).
  assert (N : not_nan (f64_sub (at_ t c) (at_ t (shift c o)))).
  { apply sub_not_nan; auto. apply finite_not_nan; auto. }
  unfold slope. rewrite Eo. cbv zeta. split.
  - destruct (Z.odd d); auto.
  - intros o' E. inversion E; subst o'. rewrite <- sub_pos_iff by auto.
    destruct (Z.odd d); [apply G3; auto | tauto].
Qed.

Lemma best_inv : forall c, interior (nrows t) (ncols t) c -> forall n j st, j + Z.of_nat n <= 8 -> 0 <= j ->
  not_nan (snd st) ->
  (fst st = 8 /\ rank (snd st) = 0 /\ forall k, 0 <= k < j -> rank (slope g t c k) <= 0) \/
  (0 <= fst st < j /\ snd st = slope g t c (fst st) /\ 0 < rank (snd st) /\
   (forall k, 0 <= k < j -> rank (slope g t c k) <= rank (snd st)) /\
   (forall k, 0 <= k < fst st -> rank (slope g t c k) < rank (snd st))) ->
  let st' := fold_left (upd c) (zseq j n) st in let j' := j + Z.of_nat n in
  not_nan (snd st') /\
  ((fst st' = 8 /\ rank (snd st') = 0 /\ forall k, 0 <= k < j' -> rank (slope g t c k) <= 0) \/
  (0 <= fst st' < j' /\ snd st' = slope g t c (fst st') /\ 0 < rank (snd st') /\
   (forall k, 0 <= k < j' -> rank (slope g t c k) <= rank (snd st')) /\
   (forall k, 0 <= k < fst st' -> rank (slope g t c k) < rank (snd st')))).
Proof.
  intros c I. induction n as [|n IH]; intros j [i m] B P N H; cbn [zseq fold_left].
  - cbn zeta. rewrite Z.add_0_r. auto.
  - replace (j + Z.of_nat (S n)) with ((j + 1) + Z.of_nat n) by lia.
    destruct (slope_facts c j I) as [Ns _]; [lia|].
    cbn [fst snd] in *.
    assert (E : upd c (i, m) j = if rank m <? rank (slope g t c j) then (j, slope g t c j) else (i, m)).
    { unfold upd. cbn [snd]. rewrite Bltb_rank; auto. }
    rewrite E. clear E. destruct (Z.ltb_spec (rank m) (rank (slope g t c j))) as [L|L]; apply IH;
      cbn [fst snd]; auto; try lia.
    + right. split; [lia|]. split; [auto|].
      destruct H as [(-> & M & K)|(Hi & M & Pm & K1 & K2)].
      * split; [lia|]. split; intros k Hk.
        -- destruct (Z.eq_dec k j) as [->|Nk]; [lia|]. specialize (K k). lia.
        -- specialize (K k). lia.
      * split; [lia|]. split; intros k Hk.
        -- destruct (Z.eq_dec k j) as [->|Nk]; [lia|]. specialize (K1 k). lia.
        -- specialize (K1 k). lia.
    + destruct H as [(-> & M & K)|(Hi & M & Pm & K1 & K2)].
      * left. split; [auto|]. split; [auto|]. intros k Hk.
        destruct (Z.eq_dec k j) as [->|Nk]; [lia|]. apply K. lia.
      * right. split; [lia|]. split; [auto|]. split; [auto|]. split; [|auto]. intros k Hk.
        destruct (Z.eq_dec k j) as [->|Nk]; [lia|]. apply K1. lia.
Qed.

Lemma best_spec : forall c, interior (nrows t) (ncols t) c ->
  (fst (best c) = 8 /\ forall n, adjacent c n -> rank (at_ t c) <= rank (at_ t n)) \/
  (steepest g t c (fst (best c)) /\
   forall o, offset (fst (best c)) = Some o -> rank (at_ t (shift c o)) < rank (at_ t c)).
Proof.
  intros c I.
  destruct (best_inv c I 8 0 (8, f64_zero)) as [N H]; cbn [fst snd]; try lia; try reflexivity.
  { left. split; [auto|]. split; [reflexivity|]. intros; lia. }
  change (zseq 0 8) with dirs in *. fold (best c) in *.
  change (0 + Z.of_nat 8) with 8 in H.
  destruct H as [(E & _ & K)|(Hi & M & P & K1 & K2)].
  - left. split; auto. intros n A. destruct (offset_of_adjacent c n A) as (d & o & Hd & Eo & <-).
    destruct (slope_facts c d I Hd) as [_ S]. specialize (S o Eo). specialize (K d). lia.
  - right. rewrite M in *.
    assert (NN : forall k, 0 <= k <= 7 -> not_nan (slope g t c k)) by (intros; apply slope_facts; auto).
    split.
    + split; [lia|]. unfold lt64, le64. split; [|split].
      * rewrite Bltb_rank; [|reflexivity|apply NN; lia]. apply Z.ltb_lt. auto.
      * intros k Hk. rewrite Bleb_rank by (apply NN; lia). apply Z.leb_le. apply K1. lia.
      * intros k Hk. rewrite Bltb_rank by (apply NN; lia). apply Z.ltb_lt. apply K2. lia.
    + intros o Eo. destruct (slope_facts c (fst (best c)) I) as [_ S]; [lia|]. apply S; auto.
Qed.
End Dir.

(** ** Edges *)
Lemma pyidx_last : forall n, 1 <= n -> pyidx n (n - 1) = Some (n - 1).
Proof. intros n H. apply pyidx_in. lia. Qed.

Lemma edges_ok : forall f, 1 <= nrows f -> 1 <= ncols f ->
  exists f', set_edges_flow_outward f = Ok f' /\ nrows f' = nrows f /\ ncols f' = ncols f /\
    (forall c, on_edge (nrows f) (ncols f) c -> flows_off f' c) /\
    (forall c, interior (nrows f) (ncols f) c -> at_ f' c = at_ f c).
Proof.
  intros f Hr Hc. unfold set_edges_flow_outward, fill_row, fill_col, wr.
  cbn [bind nrows ncols rset].
  assert (P0 : forall n, 1 <= n -> pyidx n 0 = Some 0) by (intros; apply pyidx_in; lia).
  repeat (rewrite ?P0, ?pyidx_last by auto; cbn [bind nrows ncols rset]).
  eexists. split; [reflexivity|]. split; [reflexivity|]. split; [reflexivity|].
  split.
  - intros [r c] [I E]. cbn [fst snd] in E. unfold inside in I. cbn [fst snd] in I.
    unfold flows_off. cbn [nrows ncols rset]. split; [exact I|].
    unfold target, at_. cbn [rget rset fst snd].
    destruct (Z.eqb_spec r (nrows f - 1)) as [R1|R1]; destruct (Z.eqb_spec c (ncols f - 1)) as [C1|C1];
    destruct (Z.eqb_spec r 0) as [R0|R0]; destruct (Z.eqb_spec c 0) as [C0|C0]; cbn [andb offset];
    try (exfalso; lia);
    (eexists; split; [reflexivity|]; unfold shift, inside; cbn [fst snd]; lia).
  - intros [r c] I. unfold interior in I. cbn [fst snd] in I. unfold at_. cbn [rget rset fst snd].
    destruct (Z.eqb_spec r (nrows f - 1)) as [R1|R1]; destruct (Z.eqb_spec c (ncols f - 1)) as [C1|C1];
    destruct (Z.eqb_spec r 0) as [R0|R0]; destruct (Z.eqb_spec c 0) as [C0|C0]; cbn [andb]; auto; lia.
Qed.

Lemma edges_outward : forall f f', 2 <= nrows f -> 2 <= ncols f -> set_edges_flow_outward f = Ok f' ->
  forall c, on_edge (nrows f) (ncols f) c -> offset (at_ f' c) = Some (outward (nrows f) (fst c), outward (ncols f) (snd c)).
Proof.
  intros f f' Hr Hc. unfold set_edges_flow_outward, fill_row, fill_col, wr.
  cbn [bind nrows ncols rset].
  assert (P0 : forall n, 2 <= n -> pyidx n 0 = Some 0) by (intros; apply pyidx_in; lia).
  assert (P1 : forall n, 2 <= n -> pyidx n (n - 1) = Some (n - 1)) by (intros; apply pyidx_in; lia).
  repeat (rewrite ?P0, ?P1 by auto; cbn [bind nrows ncols rset]).
  intros H. injection H as <-. intros [r c] [I E]. cbn [fst snd] in E. unfold inside in I. cbn [fst snd] in I.
  unfold outward, at_. cbn [rget rset fst snd].
  destruct (Z.eqb_spec r (nrows f - 1)) as [R1|R1]; destruct (Z.eqb_spec c (ncols f - 1)) as [C1|C1];
  destruct (Z.eqb_spec r 0) as [R0|R0]; destruct (Z.eqb_spec c 0) as [C0|C0]; cbn [andb offset];
  try (exfalso; lia); reflexivity.
Qed.

(** ** terrain_flowdirection *)
Section TFD.
Variable g : b64 -> b64.
Hypothesis G : slope_op g.

Theorem flowdir_ok : forall t edges, 1 <= nrows t -> 1 <= ncols t ->
  exists f, terrain_flowdirection F64Ops g t edges = Ok f.
Proof.
  intros t edges Hr Hc. unfold terrain_flowdirection.
  destruct (terrain_flow_ok g t) as (f & E & A & B & _). rewrite E. cbn [bind].
  destruct edges; [|eauto].
  destruct (edges_ok f) as (f' & E' & _); try congruence. eauto.
Qed.

Theorem flowdir_steepest : forall t edges f, dem_finite t -> 1 <= nrows t -> 1 <= ncols t ->
  terrain_flowdirection F64Ops g t edges = Ok f ->
  same_shape t f /\ codes_ok f /\
  (forall c, interior (nrows t) (ncols t) c ->
     (at_ f c = 8 /\ forall n, adjacent c n -> le64 (at_ t c) (at_ t n)) \/
     (steepest g t c (at_ f c) /\ downhill f t c)) /\
  (forall c, on_edge (nrows t) (ncols t) c -> if edges then flows_off f c else at_ f c = 8).
Proof.
  intros t edges f Fin Hr Hc H. unfold terrain_flowdirection in H.
  destruct (terrain_flow_ok g t) as (f0 & E & A & B & C & D). rewrite E in H. cbn [bind] in H.
  assert (X : nrows f = nrows t /\ ncols f = ncols t /\
     (forall c, interior (nrows t) (ncols t) c -> at_ f c = fst (best g t c)) /\
     (forall c, on_edge (nrows t) (ncols t) c -> if edges then flows_off f c else at_ f c = 8)).
  { destruct edges.
    - destruct (edges_ok f0) as (f' & E' & A' & B' & C' & D'); try congruence.
      rewrite E' in H. inversion H; subst f'. rewrite A, B in *. split; [auto|]. split; [auto|]. split; [|auto].
      intros c Ic. rewrite D'; auto.
    - inversion H; subst f. split; [auto|]. split; [auto|]. split; [auto|].
      intros c [I O]. apply D. intros J. unfold interior, inside in *. lia. }
  clear H E A B C D f0. destruct X as (A & B & C & D).
  assert (Dich : forall c, inside (nrows t) (ncols t) c ->
     interior (nrows t) (ncols t) c \/ on_edge (nrows t) (ncols t) c).
  { intros c I. unfold interior, on_edge, inside in *. lia. }
  assert (Fin' : forall c, inside (nrows t) (ncols t) c -> not_nan (at_ t c)).
  { intros c I. apply finite_not_nan. apply Fin; auto. }
  split; [split; auto|]. split; [|split].
  - intros c I. rewrite A, B in I. destruct (Dich c I) as [J|J].
    + rewrite C by auto. destruct (best_spec g G t Fin c J) as [[-> _]|[[S _] _]]; lia.
    + specialize (D c J). destruct edges; [|lia].
      destruct D as (_ & d & T & _). unfold target in T.
      destruct (offset (at_ f c)) eqn:O; [|discriminate]. apply offset_some in O. lia.
  - intros c J. rewrite C by auto.
    assert (I : inside (nrows t) (ncols t) c) by (unfold interior, inside in *; lia).
    destruct (best_spec g G t Fin c J) as [[E K]|[S K]].
    + left. split; auto. intros n An. unfold le64. rewrite Bleb_rank; [apply Z.leb_le; auto|auto|].
      destruct (offset_of_adjacent c n An) as (d & o & Hd & Eo & <-). apply Fin'. eapply interior_shift; eauto.
    + right. split; auto. destruct S as (Hd & _). destruct (opposite _ Hd) as (o & Eo & _).
      specialize (K o Eo). pose proof (interior_shift _ _ _ _ _ J Eo) as In.
      exists (shift c o). split; [|split].
      * split; [|split]; rewrite ?A, ?B; auto. unfold target. rewrite C, Eo; auto.
      * eapply offset_adjacent; eauto.
      * unfold lt64. rewrite Bltb_rank; auto. apply Z.ltb_lt. auto.
  - auto.
Qed.

(** The directions alone, from the terrain: all cells drain if every interior
    cell has a strictly lower neighbour. *)
Theorem flowdir_drains : forall t f, dem_finite t -> 1 <= nrows t -> 1 <= ncols t ->
  (forall c, interior (nrows t) (ncols t) c -> exists n, adjacent c n /\ inside (nrows t) (ncols t) n /\
     lt64 (at_ t n) (at_ t c)) ->
  terrain_flowdirection F64Ops g t true = Ok f ->
  fully_draining f /\
  (forall c d, flows f c d -> lt64 (at_ t d) (at_ t c)).
Proof.
  intros t f Fin Hr Hc Low H.
  destruct (flowdir_steepest t true f Fin Hr Hc H) as ((A & B) & OK & S & E).
  assert (Fin' : forall c, inside (nrows t) (ncols t) c -> not_nan (at_ t c)).
  { intros c I. apply finite_not_nan. apply Fin; auto. }
  assert (Down : forall c, interior (nrows t) (ncols t) c -> downhill f t c).
  { intros c I. destruct (S c I) as [[_ K]|[_ K]]; auto. exfalso.
    destruct (Low c I) as (n & An & In & L). specialize (K n An).
    assert (Ic : inside (nrows t) (ncols t) c) by (unfold interior, inside in *; lia).
    unfold le64 in K. unfold lt64 in L. rewrite Bleb_rank in K by auto. rewrite Bltb_rank in L by auto.
    apply Z.leb_le in K. apply Z.ltb_lt in L. lia. }
  assert (Dich : forall c, inside (nrows t) (ncols t) c ->
     interior (nrows t) (ncols t) c \/ on_edge (nrows t) (ncols t) c).
  { intros c I. unfold interior, on_edge, inside in *. lia. }
  split.
  - split; auto. rewrite <- A, <- B.
    assert (P : forall n c, inside (nrows t) (ncols t) c -> rank (at_ t c) + RINF < Z.of_nat n -> drains_off f c).
    { induction n as [|n IH]; intros c I L.
      - pose proof (rank_bounds _ (Fin' c I)). lia.
      - destruct (Dich c I) as [J|J].
        + destruct (Down c J) as (d & F & _ & Ld). eapply do_step; eauto.
          assert (Id : inside (nrows t) (ncols t) d) by (rewrite A, B; apply F).
          unfold lt64 in Ld. rewrite Bltb_rank in Ld by auto. apply Z.ltb_lt in Ld.
          apply IH; auto. lia.
        + apply do_off. apply E; auto. }
    intros c I. apply (P (Z.to_nat (rank (at_ t c) + RINF + 1)) c I).
    pose proof (rank_bounds _ (Fin' c I)). lia.
  - intros c d F.
    assert (Ic : inside (nrows t) (ncols t) c) by (rewrite A, B; apply F).
    destruct (Dich c Ic) as [J|J].
    + destruct (Down c J) as (d' & F' & _ & L). destruct F as (_ & _ & T), F' as (_ & _ & T').
      rewrite T in T'. inversion T'; subst. auto.
    + destruct (E c J) as (_ & d' & T' & N). destruct F as (_ & Id & T).
      exfalso. rewrite T in T'. inversion T'; subst. auto.
Qed.
End TFD.

(** ** Tracing downstream on a draining raster *)
Theorem trace_drains : forall f c, fully_draining f -> inside (nrows f) (ncols f) c ->
  exists path, NoDup path /\ (forall d, In d path <-> passes f c d) /\
    (forall d, In d path -> at_ f d <> 8) /\
    forall fuel, (length path <= fuel)%nat -> trace_downstream fuel f c = Ok path.
Proof.
  intros f c [OK D] I.
  assert (P : forall n c, end_in f n c -> exists path, length path = S n /\ NoDup path /\
    (forall d, In d path <-> passes f c d) /\
    forall fuel, (length path <= fuel)%nat -> trace_downstream fuel f c = Ok path).
  { induction n as [|n IH]; intros x E; pose proof (end_in_inside _ _ _ E) as Ix.
    - exists [x]. split; [auto|]. split; [repeat constructor; cbn; tauto|]. split.
      + intros d. split.
        * intros [<-|[]]. constructor; auto.
        * intros P. inversion P; subst; [left; auto|]. destruct (flows_end_inv f 0 x b H E) as (m & X & _). discriminate.
      + intros [|fuel] L; [cbn in L; lia|]. cbn [trace_downstream].
        destruct (cell_in_raster_spec (nrows f) (ncols f) x); [|tauto].
        rewrite rd_at by auto. cbn [bind]. rewrite delta_offset by (apply OK; auto). cbn [bind].
        inversion E as [x' Ix' Hx'|]; subst. destruct (offset (at_ f x)) as [[a b]|] eqn:O; auto.
        assert (N : ~ inside (nrows f) (ncols f) (fst x + a, snd x + b)).
        { apply Hx'. unfold target. rewrite O. reflexivity. }
        destruct fuel; cbn [trace_downstream];
          destruct (cell_in_raster_spec (nrows f) (ncols f) (fst x + a, snd x + b)); try tauto; reflexivity.
    - inversion E as [|n' x' d F Ed]; subst. destruct (IH d Ed) as (p & L & ND & M & T).
      exists (x :: p). split; [cbn; lia|]. split; [|split].
      + constructor; auto. intros X. apply M in X.
        destruct (passes_end f _ _ X _ E) as (m & Lm & Em). pose proof (end_in_det f _ _ Ed _ Em). lia.
      + intros y. cbn. rewrite M. split.
        * intros [<-|H]; [constructor; auto | econstructor; eauto].
        * intros H. inversion H; subst; auto. right. destruct F as (_ & _ & T1), H0 as (_ & _ & T2).
          rewrite T1 in T2. inversion T2; subst. auto.
      + intros [|fuel] Lf; [cbn in Lf; lia|]. cbn [trace_downstream].
        destruct (cell_in_raster_spec (nrows f) (ncols f) x); [|tauto].
        rewrite rd_at by auto. cbn [bind]. rewrite delta_offset by (apply OK; auto). cbn [bind].
        destruct F as (_ & _ & T1). unfold target in T1. destruct (offset (at_ f x)) as [[a b]|]; [|discriminate].
        inversion T1; subst d. unfold shift in T. cbn [fst snd] in T. rewrite T by (cbn in Lf; lia).
        reflexivity. }
  destruct (drains_end f c (D c I)) as (n & E). destruct (P n c E) as (p & L & ND & M & T).
  exists p. split; auto. split; auto. split; auto.
  intros d Hd E8. apply M in Hd. apply passes_inside_r in Hd.
  apply (drains_target f d (D d Hd)). unfold target. rewrite E8. reflexivity.
Qed.
