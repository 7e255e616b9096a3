(** * Terrain with water standing in it: lemmas behind P_Stand.v

    Filling a terrain in which some water already stands goes through the same steps as filling the bare terrain. *)

From Flocq Require Import IEEE754.BinarySingleNaN.
From Verif Require Import Base BaseProofs Num Float64 Float64Proofs Float32Proofs BluespotThms FillModel FillSpec RelaxProofs FillProofs FillThms LevelProofs DemModel DemProofs.

Section Lock.
Context {T : Type}.
Variable rk : T -> Z.
Variable good : T -> Prop.
Variable inf : T.
Hypothesis Hinf : good inf.
Hypothesis Hinfmax : forall x, good x -> rk x <= rk inf.
Variable store : T -> T.
Hypothesis Hsinf : store inf = inf.
Variables d e : raster T.
Notation rows := (nrows d).
Notation cols := (ncols d).
Hypothesis Hd : forall c, inside rows cols c -> good (at_ d c) /\ store (at_ d c) = at_ d c.
Hypothesis Her : nrows e = rows.
Hypothesis Hec : ncols e = cols.
Hypothesis He : forall c, inside rows cols c -> good (at_ e c) /\ store (at_ e c) = at_ e c.
Hypothesis Hde : forall c, inside rows cols c -> rk (at_ d c) <= rk (at_ e c).
Variable mx : T -> T -> T.
Hypothesis Hmx : is_max rk good mx.
Variable step : cell -> cell -> T -> T.
Hypothesis Sg : forall c d v, good v -> good (step c d v).
Hypothesis Ss : forall c d v, good v -> store v = v -> store (step c d v) = step c d v.
Hypothesis Sm : forall c d v w, good v -> good w -> rk v <= rk w -> rk (step c d v) <= rk (step c d w).
Hypothesis Si : forall c d v, good v -> rk v <= rk (step c d v).
Variables cf cf' : raster T -> Z -> Z -> res (raster T * bool).
Hypothesis Hcf : cell_ok rk good store d mx step cf.
Hypothesis Hcf' : cell_ok rk good store e mx step cf'.

Notation I := (Inv rk good store d).
Notation I' := (Inv rk good store e).
Definition alike (f f' : raster T) : Prop := I f /\ I' f' /\ forall c, inside rows cols c -> rk (at_ f' c) = rk (at_ f c).
Definition over (f : raster T) : Prop := forall c, inside rows cols c -> rk (at_ e c) <= rk (at_ f c).

Lemma e_good : forall c, inside (nrows e) (ncols e) c -> good (at_ e c) /\ store (at_ e c) = at_ e c.
Proof. rewrite Her, Hec. exact He. Qed.

Lemma cell_lower : forall f c g ch, I f -> inside rows cols c -> cf f (fst c) (snd c) = Ok (g, ch) -> I g /\ forall x, inside rows cols x -> rk (at_ g x) <= rk (at_ f x).
Proof.
  intros f c g ch F J E. destruct (Hcf f c F) as (A & B). destruct (inside_cases _ _ _ J) as [K|K].
  - rewrite (A K) in E. injection E as <- <-. split; [exact F|]. intros; lia.
  - destruct (B K) as [(X & _)|(nv & n & X & Ad & Nv & Lt & _)]; rewrite X in E; injection E as <- <-.
    + split; [exact F|]. intros; lia.
    + split; [apply (upd_Inv rk good store d Hd mx Hmx step Sg Ss Si f F c n nv); auto|]. apply (upd_below rk d f c nv Lt).
Qed.

Lemma cell_lock : forall f f' c g ch, alike f f' -> inside rows cols c -> cf f (fst c) (snd c) = Ok (g, ch) -> over g ->
  exists g', cf' f' (fst c) (snd c) = Ok (g', ch) /\ alike g g'.
Proof.
  intros f f' c g ch (F & F' & Q) J E O. destruct (Hcf f c F) as (A & B). destruct (Hcf' f' c F') as (A' & B'). rewrite Her, Hec in A', B'.
  destruct (inside_cases _ _ _ J) as [K|K].
  { rewrite (A K) in E. injection E as <- <-. exists f'. split; [apply A', K|]. split; [exact F|split; [exact F'|exact Q]]. }
  pose proof F as (_ & _ & G & _). pose proof F' as (_ & _ & G' & _). rewrite Her, Hec in G'.
  assert (ST : forall n, adjacent c n -> good (step c n (at_ f n)) /\ good (step c n (at_ f' n)) /\ rk (step c n (at_ f' n)) = rk (step c n (at_ f n))).
  { intros n Ad. pose proof (adjacent_inside _ _ _ _ K Ad) as Jn. destruct (G n Jn) as (G1 & _). destruct (G' n Jn) as (G2 & _). specialize (Q n Jn).
    split; [auto|]. split; [auto|]. apply Z.le_antisymm; apply Sm; auto; lia. }
  pose proof (Q c J) as Qc. pose proof (Hde c J) as Dc. destruct (Hd c J) as (Gd & _). destruct (He c J) as (Ge & _).
  destruct (B K) as [(X & L)|(nv & n & X & Ad & Nv & Lt & Mn)]; rewrite X in E; injection E as <- <-; pose proof (O c J) as Oc.
  - destruct (B' K) as [(X' & _)|(nv' & n' & X' & Ad' & Nv' & Lt' & _)].
    + exists f'. split; [exact X'|]. split; [exact F|split; [exact F'|exact Q]].
    + exfalso. destruct (ST n' Ad') as (S1 & S2 & S3). specialize (L n' Ad'). rewrite Nv', (is_max_rk _ _ _ _ _ Hmx S2 Ge) in Lt'. lia.
  - rewrite at_upd_same in Oc. destruct (ST n Ad) as (S1 & S2 & S3). pose proof (is_max_rk _ _ _ _ _ Hmx S1 Gd) as R. rewrite <- Nv in R.
    destruct (B' K) as [(_ & L')|(nv' & n' & X' & Ad' & Nv' & Lt' & Mn')].
    + exfalso. specialize (L' n Ad). lia.
    + destruct (ST n' Ad') as (S1' & S2' & S3'). pose proof (is_max_rk _ _ _ _ _ Hmx S2' Ge) as R'. rewrite <- Nv' in R'.
      specialize (Mn n' Ad'). specialize (Mn' n Ad). assert (V : rk nv' = rk nv) by lia.
      exists (upd f' c nv'). split; [exact X'|]. split; [apply (upd_Inv rk good store d Hd mx Hmx step Sg Ss Si f F c n nv); auto|].
      split; [apply (upd_Inv rk good store e e_good mx Hmx step Sg Ss Si f' F' c n' nv'); auto; rewrite Her, Hec; exact K|].
      intros x Jx. destruct (cell_eq_dec x c) as [->|Ne]; [rewrite !at_upd_same; exact V|rewrite !at_upd_other by exact Ne; auto].
Qed.

Lemma run_lower : forall l f b g b', I f -> (forall c, In c l -> inside rows cols c) -> run_cells cf l (f, b) = Ok (g, b') ->
  I g /\ forall x, inside rows cols x -> rk (at_ g x) <= rk (at_ f x).
Proof.
  induction l as [|c l IH]; intros f b g b' F J E; cbn [run_cells mfold fst snd] in E.
  - injection E as <- <-. split; [exact F|]. intros; lia.
  - destruct (cf f (fst c) (snd c)) as [[f1 ch]|x|] eqn:C; cbn [bind] in E; try discriminate E.
    destruct (cell_lower f c f1 ch F (J c (or_introl eq_refl)) C) as (F1 & L1).
    destruct (IH _ _ _ _ F1 (fun x H => J x (or_intror H)) E) as (G & L2). split; [exact G|]. intros x Jx. specialize (L1 x Jx). specialize (L2 x Jx). lia.
Qed.

Lemma run_lock : forall l f f' b g b', alike f f' -> (forall c, In c l -> inside rows cols c) -> run_cells cf l (f, b) = Ok (g, b') -> over g ->
  exists g', run_cells cf' l (f', b) = Ok (g', b') /\ alike g g'.
Proof.
  induction l as [|c l IH]; intros f f' b g b' A J E O; cbn [run_cells mfold fst snd] in E |- *.
  - injection E as <- <-. exists f'. auto.
  - destruct (cf f (fst c) (snd c)) as [[f1 ch]|x|] eqn:C; cbn [bind] in E; try discriminate E.
    pose proof (J c (or_introl eq_refl)) as Jc. destruct (cell_lower f c f1 ch (proj1 A) Jc C) as (F1 & _).
    destruct (run_lower l f1 _ g b' F1 (fun x H => J x (or_intror H)) E) as (_ & L).
    assert (O1 : over f1) by (intros x Jx; specialize (L x Jx); specialize (O x Jx); lia).
    destruct (cell_lock f f' c f1 ch A Jc C O1) as (f1' & C' & A1). rewrite C'. cbn [bind].
    apply (IH f1 f1' _ g b' A1 (fun x H => J x (or_intror H)) E O).
Qed.

Variables sw sw' : raster T -> Z -> Z -> Z -> Z -> res (raster T * bool).
Hypothesis Hsw : forall x y z w,
  (x, y, z, w) = (1, rows - 2, 1, cols - 2) \/ (x, y, z, w) = (rows - 2, 1, cols - 2, 1) \/
  (x, y, z, w) = (1, rows - 2, cols - 2, 1) \/ (x, y, z, w) = (rows - 2, 1, 1, cols - 2) ->
  exists l, (forall c, In c l -> inside rows cols c) /\
    (forall f, sw f x y z w = run_cells cf l (f, false)) /\ (forall f, sw' f x y z w = run_cells cf' l (f, false)).

Lemma sweep_lower : forall x y z w f g b,
  (x, y, z, w) = (1, rows - 2, 1, cols - 2) \/ (x, y, z, w) = (rows - 2, 1, cols - 2, 1) \/
  (x, y, z, w) = (1, rows - 2, cols - 2, 1) \/ (x, y, z, w) = (rows - 2, 1, 1, cols - 2) ->
  I f -> sw f x y z w = Ok (g, b) -> I g /\ (over g -> over f).
Proof.
  intros x y z w f g b C F E. destruct (Hsw x y z w C) as (l & J & S1 & _). rewrite S1 in E. destruct (run_lower _ _ _ _ _ F J E) as (G & L).
  split; [exact G|]. intros O c Jc. specialize (L c Jc). specialize (O c Jc). lia.
Qed.
Lemma sweep_lock : forall x y z w f f' g b,
  (x, y, z, w) = (1, rows - 2, 1, cols - 2) \/ (x, y, z, w) = (rows - 2, 1, cols - 2, 1) \/
  (x, y, z, w) = (1, rows - 2, cols - 2, 1) \/ (x, y, z, w) = (rows - 2, 1, 1, cols - 2) ->
  alike f f' -> sw f x y z w = Ok (g, b) -> over g -> exists g', sw' f' x y z w = Ok (g', b) /\ alike g g'.
Proof.
  intros x y z w f f' g b C A E O. destruct (Hsw x y z w C) as (l & J & S1 & S2). rewrite S1 in E. rewrite S2. apply (run_lock l f f' false g b A J E O).
Qed.

Lemma loop_lower : forall k f g, I f -> fill_loop sw k f = Ok g -> I g /\ (over g -> over f).
Proof.
  induction k as [|k IH]; intros f g F E; [discriminate E|]. cbn [fill_loop] in E. pose proof F as (R & C & _). rewrite R, C in E.
  destruct (sw f 1 (rows - 2) 1 (cols - 2)) as [[f1 b1]|x|] eqn:E1; cbn [bind] in E; try discriminate E.
  destruct (sweep_lower _ _ _ _ _ _ _ (or_introl eq_refl) F E1) as (F1 & L1). destruct b1; [|injection E as <-; auto].
  destruct (sw f1 (rows - 2) 1 (cols - 2) 1) as [[f2 b2]|x|] eqn:E2; cbn [bind] in E; try discriminate E.
  destruct (sweep_lower _ _ _ _ _ _ _ (or_intror (or_introl eq_refl)) F1 E2) as (F2 & L2). destruct b2; [|injection E as <-; auto].
  destruct (sw f2 1 (rows - 2) (cols - 2) 1) as [[f3 b3]|x|] eqn:E3; cbn [bind] in E; try discriminate E.
  destruct (sweep_lower _ _ _ _ _ _ _ (or_intror (or_intror (or_introl eq_refl))) F2 E3) as (F3 & L3). destruct b3; [|injection E as <-; auto].
  destruct (sw f3 (rows - 2) 1 1 (cols - 2)) as [[f4 b4]|x|] eqn:E4; cbn [bind] in E; try discriminate E.
  destruct (sweep_lower _ _ _ _ _ _ _ (or_intror (or_intror (or_intror eq_refl))) F3 E4) as (F4 & L4). destruct b4; [|injection E as <-; auto 8].
  destruct (IH f4 g F4 E) as (G & L5). auto 9.
Qed.

Lemma loop_lock : forall k f f' g, alike f f' -> fill_loop sw k f = Ok g -> over g -> exists g', fill_loop sw' k f' = Ok g' /\ alike g g'.
Proof.
  induction k as [|k IH]; intros f f' g A E O; [discriminate E|]. cbn [fill_loop] in E |- *.
  pose proof A as ((R & C & _) & (R' & C' & _) & _). rewrite R, C in E. rewrite R', C', Her, Hec. pose proof (proj1 A) as F. clear R C R' C'.
  destruct (sw f 1 (rows - 2) 1 (cols - 2)) as [[f1 b1]|x|] eqn:E1; cbn [bind] in E; try discriminate E.
  destruct (sweep_lower _ _ _ _ _ _ _ (or_introl eq_refl) F E1) as (F1 & L1).
  destruct b1; [|injection E as <-; destruct (sweep_lock _ _ _ _ _ _ _ _ (or_introl eq_refl) A E1 O) as (g' & H & A1); rewrite H; exists g'; split; [reflexivity|assumption]].
  destruct (sw f1 (rows - 2) 1 (cols - 2) 1) as [[f2 b2]|x|] eqn:E2; cbn [bind] in E; try discriminate E.
  destruct (sweep_lower _ _ _ _ _ _ _ (or_intror (or_introl eq_refl)) F1 E2) as (F2 & L2).
  assert (M : forall h, over h -> (over h -> over f1) -> exists f1', sw' f' 1 (rows - 2) 1 (cols - 2) = Ok (f1', true) /\ alike f1 f1')
    by (intros h Oh Lh; apply (sweep_lock _ _ _ _ _ _ _ _ (or_introl eq_refl) A E1); auto).
  destruct b2.
  2:{ injection E as <-. destruct (M _ O L2) as (f1' & H1 & A1). rewrite H1. cbn [bind].
      destruct (sweep_lock _ _ _ _ _ _ _ _ (or_intror (or_introl eq_refl)) A1 E2 O) as (g' & H & A2). rewrite H. exists g'. split; [reflexivity|assumption]. }
  destruct (sw f2 1 (rows - 2) (cols - 2) 1) as [[f3 b3]|x|] eqn:E3; cbn [bind] in E; try discriminate E.
  destruct (sweep_lower _ _ _ _ _ _ _ (or_intror (or_intror (or_introl eq_refl))) F2 E3) as (F3 & L3).
  assert (M2 : forall h, over h -> (over h -> over f2) -> exists f1' f2', sw' f' 1 (rows - 2) 1 (cols - 2) = Ok (f1', true) /\ sw' f1' (rows - 2) 1 (cols - 2) 1 = Ok (f2', true) /\ alike f2 f2').
  { intros h Oh Lh. destruct (M f2 (Lh Oh) L2) as (f1' & H1 & A1). destruct (sweep_lock _ _ _ _ _ _ _ _ (or_intror (or_introl eq_refl)) A1 E2 (Lh Oh)) as (f2' & H2 & A2). eauto. }
  destruct b3.
  2:{ injection E as <-. destruct (M2 _ O L3) as (f1' & f2' & H1 & H2 & A2). rewrite H1. cbn [bind]. rewrite H2. cbn [bind].
      destruct (sweep_lock _ _ _ _ _ _ _ _ (or_intror (or_intror (or_introl eq_refl))) A2 E3 O) as (g' & H & A3). rewrite H. exists g'. split; [reflexivity|assumption]. }
  destruct (sw f3 (rows - 2) 1 1 (cols - 2)) as [[f4 b4]|x|] eqn:E4; cbn [bind] in E; try discriminate E.
  destruct (sweep_lower _ _ _ _ _ _ _ (or_intror (or_intror (or_intror eq_refl))) F3 E4) as (F4 & L4).
  assert (O4 : over f4) by (destruct b4; [apply (loop_lower k f4 g F4 E); exact O|injection E as <-; exact O]).
  destruct (M2 f3 (L4 O4) L3) as (f1' & f2' & H1 & H2 & A2). rewrite H1. cbn [bind]. rewrite H2. cbn [bind].
  destruct (sweep_lock _ _ _ _ _ _ _ _ (or_intror (or_intror (or_introl eq_refl))) A2 E3 (L4 O4)) as (f3' & H3 & A3). rewrite H3. cbn [bind].
  destruct (sweep_lock _ _ _ _ _ _ _ _ (or_intror (or_intror (or_intror eq_refl))) A3 E4 O4) as (f4' & H4 & A4). rewrite H4. cbn [bind].
  destruct b4; [apply (IH f4 f4' g A4 E O)|injection E as <-; eauto].
Qed.

Hypothesis Hrows : 2 <= rows.
Hypothesis Hcols : 2 <= cols.
Theorem fill_lock : forall k g, fill_loop sw k (init_f inf store d) = Ok g -> over g ->
  exists g', fill_loop sw' k (init_f inf store e) = Ok g' /\ alike g g'.
Proof.
  intros k g E O. pose proof (proj1 (init_St rk good inf Hinf Hinfmax store Hsinf d Hd mx step Hrows Hcols)) as J0.
  destruct (loop_lower k _ g J0 E) as ((_ & _ & _ & G) & _).
  apply (loop_lock k (init_f inf store d) (init_f inf store e) g); auto.
  split; [exact J0|]. split; [refine (proj1 (init_St rk good inf Hinf Hinfmax store Hsinf e e_good mx step _ _)); lia|].
  intros c J. destruct (inside_cases _ _ _ J) as [K|K].
  - rewrite (init_edge good inf store d Hd Hrows Hcols c K). rewrite (init_edge good inf store e e_good ltac:(lia) ltac:(lia) c) by (rewrite Her, Hec; exact K).
    specialize (O c J). rewrite (G c K) in O. specialize (Hde c J). lia.
  - rewrite (init_interior inf store d c K). rewrite (init_interior inf store e c) by (rewrite Her, Hec; exact K). reflexivity.
Qed.
End Lock.

(** ** The sweeps visit the same cells *)
Definition four (rows cols x y z w : Z) : Prop :=
  (x, y, z, w) = (1, rows - 2, 1, cols - 2) \/ (x, y, z, w) = (rows - 2, 1, cols - 2, 1) \/
  (x, y, z, w) = (1, rows - 2, cols - 2, 1) \/ (x, y, z, w) = (rows - 2, 1, 1, cols - 2).
Lemma py_cells : forall {T} (cf cf' : raster T -> Z -> Z -> res (raster T * bool)) rows cols, 2 <= rows -> 2 <= cols -> forall x y z w, four rows cols x y z w ->
  exists l, (forall c, In c l -> inside rows cols c) /\
    (forall f, sweep_py cf f x y z w = run_cells cf l (f, false)) /\ (forall f, sweep_py cf' f x y z w = run_cells cf' l (f, false)).
Proof.
  intros T cf cf' rows cols R C x y z w H. eexists. split; [|split; intros f; unfold sweep_py; rewrite run_grid; reflexivity].
  intros [r e]. rewrite in_grid. unfold inside. cbn [fst snd].
  destruct H as [E|[E|[E|E]]]; inversion E; subst; clear E;
    repeat match goal with |- context [?x <? ?y] => destruct (Z.ltb_spec x y) end;
    rewrite ?in_pyrange_up, ?in_pyrange_down; lia.
Qed.
Lemma cy_cells : forall {T} (cf cf' : raster T -> Z -> Z -> res (raster T * bool)) rows cols, 4 <= rows -> 4 <= cols -> forall x y z w, four rows cols x y z w ->
  exists l, (forall c, In c l -> inside rows cols c) /\
    (forall f, sweep_cy cf f x y z w = run_cells cf l (f, false)) /\ (forall f, sweep_cy cf' f x y z w = run_cells cf' l (f, false)).
Proof.
  intros T cf cf' rows cols R C x y z w H.
  assert (HH : 0 <= x /\ 0 <= y /\ 0 <= z /\ 0 <= w /\ x <> y /\ z <> w) by (destruct H as [E|[E|[E|E]]]; inversion E; subst; lia).
  destruct HH as (? & ? & ? & ? & ? & ?). exists (grid (cy_rows x y) (cy_rows z w)). split; [|split; intros f; apply sweep_cy_grid; auto].
  intros [r e]. rewrite in_grid, !in_cy_rows by auto. unfold inside. cbn [fst snd]. destruct H as [E|[E|[E|E]]]; inversion E; subst; clear E; lia.
Qed.

(** ** Filling *)
Theorem fill_standing : forall (sp : bool) d e, (if sp then 4 <= nrows d /\ 4 <= ncols d else 2 <= nrows d /\ 2 <= ncols d) -> same_shape d e -> dem32 d -> dem32 e ->
  forall fuel f, (if sp then fill64_cy else fill64) fuel d = Ok f ->
  (forall c, inside (nrows d) (ncols d) c -> le64 (at_ d c) (at_ e c) /\ le64 (at_ e c) (at_ f c)) ->
  exists g, (if sp then fill64_cy else fill64) fuel e = Ok g /\ forall c, inside (nrows d) (ncols d) c -> eq64 (at_ g c) (at_ f c).
Proof.
  intros sp d e Z (E1 & E2) D D' fuel f H B.
  assert (De : forall c, inside (nrows d) (ncols d) c -> not_nan (at_ e c) /\ store32 (at_ e c) = at_ e c) by (intros c J; apply D'; rewrite <- E1, <- E2; exact J).
  assert (L : forall c, inside (nrows d) (ncols d) c -> rank (at_ d c) <= rank (at_ e c)) by (intros c J; apply le64_rank; [apply D, J|apply De, J|apply B, J]).
  assert (N : forall x y, le64 x y -> not_nan y) by (intros x y X; destruct y; try reflexivity; destruct x as [[]|[]| |[]]; discriminate X).
  assert (O : over rank d e f) by (intros c J; apply le64_rank; [apply De, J|apply (N (at_ e c)), B, J|apply B, J]).
  assert (SZ : 2 <= nrows d /\ 2 <= ncols d) by (destruct sp; lia).
  assert (X : exists g, (if sp then fill64_cy else fill64) fuel e = Ok g /\ alike rank not_nan store32 d e f g).
  { destruct sp; unfold fill64_cy, fill64, fill_terrain_cy, fill_terrain in *; rewrite initialize_filled_ok in H by lia; rewrite initialize_filled_ok by lia; cbn [bind] in *.
    - apply (fill_lock rank not_nan f64_inf eq_refl rank_inf_max store32 eq_refl d e D (eq_sym E1) (eq_sym E2) De L cmax cmax_ok id_step)
        with (cf := fill_cell_cy F64Ops store32 d) (cf' := fill_cell_cy F64Ops store32 e) (sw := sweep_cy (fill_cell_cy F64Ops store32 d));
        unfold id_step; auto; try lia.
      + apply fill_cell_cy_ok; auto using ltb_law, leb_law, eqb_law, cmax_ok.
      + apply fill_cell_cy_ok; auto using ltb_law, leb_law, eqb_law, cmax_ok.
      + intros x y z w Q. apply cy_cells; auto; lia.
    - apply (fill_lock rank not_nan f64_inf eq_refl rank_inf_max store32 eq_refl d e D (eq_sym E1) (eq_sym E2) De L pmax pmax_ok id_step)
        with (cf := fill_cell F64Ops store32 d) (cf' := fill_cell F64Ops store32 e) (sw := sweep_py (fill_cell F64Ops store32 d));
        unfold id_step; auto; try lia.
      + apply fill_cell_ok; auto using ltb_law, leb_law, eqb_law, pmax_ok.
      + apply fill_cell_ok; auto using ltb_law, leb_law, eqb_law, pmax_ok.
      + intros x y z w Q. apply py_cells; auto; lia. }
  destruct X as (g & G & (_ & _ & I1 & _) & (_ & _ & I2 & _) & Q). exists g. split; [exact G|]. intros c J.
  apply eq64_rank; [apply I2; rewrite <- E1, <- E2; exact J|apply I1, J|apply Q, J].
Qed.

Theorem no_flats_standing : forall (sp : bool) d e short diag, (if sp then 4 <= nrows d /\ 4 <= ncols d else 2 <= nrows d /\ 2 <= ncols d) -> same_shape d e -> dem64 d -> dem64 e ->
  nonneg64 short -> nonneg64 diag ->
  forall fuel f, (if sp then fill_nf64_cy else fill_nf64) short diag fuel d = Ok f ->
  (forall c, inside (nrows d) (ncols d) c -> le64 (at_ d c) (at_ e c) /\ le64 (at_ e c) (at_ f c)) ->
  exists g, (if sp then fill_nf64_cy else fill_nf64) short diag fuel e = Ok g /\ forall c, inside (nrows d) (ncols d) c -> eq64 (at_ g c) (at_ f c).
Proof.
  intros sp d e short diag Z (E1 & E2) D D' Hs Hd fuel f H B.
  assert (De : forall c, inside (nrows d) (ncols d) c -> not_nan (at_ e c) /\ (fun x : b64 => x) (at_ e c) = at_ e c) by (intros c J; split; [apply D'; rewrite <- E1, <- E2; exact J|reflexivity]).
  assert (Dd : forall c, inside (nrows d) (ncols d) c -> not_nan (at_ d c) /\ (fun x : b64 => x) (at_ d c) = at_ d c) by (intros c J; split; [apply D, J|reflexivity]).
  assert (L : forall c, inside (nrows d) (ncols d) c -> rank (at_ d c) <= rank (at_ e c)) by (intros c J; apply le64_rank; [apply D, J|apply De, J|apply B, J]).
  assert (N : forall x y, le64 x y -> not_nan y) by (intros x y X; destruct y; try reflexivity; destruct x as [[]|[]| |[]]; discriminate X).
  assert (O : over rank d e f) by (intros c J; apply le64_rank; [apply De, J|apply (N (at_ e c)), B, J|apply B, J]).
  assert (SZ : 2 <= nrows d /\ 2 <= ncols d) by (destruct sp; lia).
  apply nonneg_rank in Hs. apply nonneg_rank in Hd.
  pose proof (nf_step_good short diag Hs Hd) as P1. pose proof (nf_step_mono short diag Hs Hd) as P2. pose proof (nf_step_infl short diag Hs Hd) as P3.
  assert (X : exists g, (if sp then fill_nf64_cy else fill_nf64) short diag fuel e = Ok g /\ alike rank not_nan (fun x => x) d e f g).
  { destruct sp; unfold fill_nf64_cy, fill_nf64, fill_terrain_no_flats_cy, fill_terrain_no_flats in *; rewrite initialize_filled_ok in H by lia; rewrite initialize_filled_ok by lia; cbn [bind] in *.
    - apply (fill_lock rank not_nan f64_inf eq_refl rank_inf_max (fun x => x) eq_refl d e Dd (eq_sym E1) (eq_sym E2) De L cmax cmax_ok (raise_by short diag) P1 (fun _ _ _ _ _ => eq_refl) P2 P3)
        with (cf := fill_cell_no_flats_cy F64Ops (fun x => x) short diag d) (cf' := fill_cell_no_flats_cy F64Ops (fun x => x) short diag e) (sw := sweep_cy (fill_cell_no_flats_cy F64Ops (fun x => x) short diag d));
        auto; try lia.
      + apply fill_cell_no_flats_cy_ok; auto using ltb_law, leb_law, eqb_law, cmax_ok.
      + apply fill_cell_no_flats_cy_ok; auto using ltb_law, leb_law, eqb_law, cmax_ok.
      + intros x y z w Q. apply cy_cells; auto; lia.
    - apply (fill_lock rank not_nan f64_inf eq_refl rank_inf_max (fun x => x) eq_refl d e Dd (eq_sym E1) (eq_sym E2) De L pmax pmax_ok (raise_by short diag) P1 (fun _ _ _ _ _ => eq_refl) P2 P3)
        with (cf := fill_cell_no_flats F64Ops (fun x => x) short diag d) (cf' := fill_cell_no_flats F64Ops (fun x => x) short diag e) (sw := sweep_py (fill_cell_no_flats F64Ops (fun x => x) short diag d));
        auto; try lia.
      + apply fill_cell_no_flats_ok; auto using ltb_law, leb_law, eqb_law, pmax_ok.
      + apply fill_cell_no_flats_ok; auto using ltb_law, leb_law, eqb_law, pmax_ok.
      + intros x y z w Q. apply py_cells; auto; lia. }
  destruct X as (g & G & (_ & _ & I1 & _) & (_ & _ & I2 & _) & Q). exists g. split; [exact G|]. intros c J.
  apply eq64_rank; [apply I2; rewrite <- E1, <- E2; exact J|apply I1, J|apply Q, J].
Qed.

(** ** The DEM tool *)
Theorem depths_standing : forall (sp : bool) d e, size_ok sp d -> same_shape d e -> dem32 d -> dem32 e -> dem_finite d -> dem_finite e ->
  forall fuel fuel' t1 t5 t1' t5' out out', dem_process sp fuel t1 t5 d = Ok out -> dem_process sp fuel' t1' t5' e = Ok out' ->
  (forall c, inside (nrows d) (ncols d) c -> le64 (at_ d c) (at_ e c) /\ le64 (at_ e c) (at_ (do_filled out) c)) ->
  forall c, inside (nrows d) (ncols d) c ->
  eq64 (at_ (do_filled out') c) (at_ (do_filled out) c) /\
  le64 (at_ (do_depths out') c) (at_ (do_depths out) c) /\
  (lt64 f64_zero (at_ (do_depths out') c) <-> lt64 (at_ e c) (at_ (do_filled out) c)).
Proof.
  intros sp d e Z S D D' F F' fuel fuel' t1 t5 t1' t5' out out' H H' B c J. pose proof S as (E1 & E2).
  assert (Z' : size_ok sp e) by (destruct sp; cbn in *; lia).
  assert (J' : inside (nrows e) (ncols e) c) by (rewrite <- E1, <- E2; exact J).
  destruct (dem_process_parts _ _ _ _ _ _ H) as (_ & E & _). destruct (dem_process_parts _ _ _ _ _ _ H') as (_ & E' & _).
  destruct (filled_facts sp fuel t1 t5 d out Z D F H) as (A1 & A2 & A3 & A4 & A5 & _ & A6).
  destruct (filled_facts sp fuel' t1' t5' e out' Z' D' F' H') as (B1 & B2 & B3 & B4 & B5 & _ & B6).
  assert (If : inside (nrows (do_filled out)) (ncols (do_filled out)) c) by (rewrite A1, A2; exact J).
  assert (If' : inside (nrows (do_filled out')) (ncols (do_filled out')) c) by (rewrite B1, B2; exact J').
  assert (Q : eq64 (at_ (do_filled out') c) (at_ (do_filled out) c)).
  { destruct (fill_standing sp d e ltac:(destruct sp; cbn in Z; lia) S D D' fuel (do_filled out) E B) as (g & G & Q).
    replace (do_filled out') with g; [apply Q, J|]. clear - G E'. destruct sp; unfold fill64_cy, fill64, fill_terrain_cy, fill_terrain in *;
      (destruct (initialize_filled f64_inf store32 e) as [i|x|]; cbn [bind] in *; [|discriminate G|discriminate G]);
      pose proof (fill_loop_mono _ _ _ _ G (Nat.max fuel fuel') ltac:(lia)) as X; rewrite (fill_loop_mono _ _ _ _ E' (Nat.max fuel fuel') ltac:(lia)) in X; congruence. }
  destruct (depths_facts sp _ _ _ d out Z D F H) as (_ & P1 & _). destruct (depths_facts sp _ _ _ e out' Z' D' F' H') as (_ & P2 & _).
  assert (N : forall x, le64 f64_zero x -> not_nan x) by (intros [s|s| |s m q W] X; try reflexivity; discriminate X).
  pose proof Q as Qr. apply eq64_rank in Qr; [|apply B3, If'|apply A3, If]. destruct (B c J) as (L1 & L2).
  split; [exact Q|]. split.
  - apply le64_rank; [apply N, P2, J'|apply N, P1, J|]. rewrite A6, B6. unfold raster_sub32, at_. cbn [rget].
    apply le64_rank in L1; [|apply D, J|apply D', J']. apply le64_rank in L2; [|apply D', J'|apply A3, If].
    apply sub32_anti; first [apply A3; exact If|apply B3; exact If'|apply D'; exact J'|apply D; exact J|apply A4; exact If|apply B4; exact If'|apply F'; exact J'|apply F; exact J|idtac].
    + unfold at_ in Qr. rewrite Qr. apply Z.le_refl.
    + exact L1.
    + unfold at_ in Qr, L2. rewrite Qr. exact L2.
  - rewrite (proj2 (P2 c J')). rewrite !lt64_rank by first [apply D', J'|apply B3, If'|apply A3, If]. rewrite Qr. reflexivity.
Qed.

(** ** Example *)
(** A hollow, and the same with 2 of water standing in it. *)
Definition bare : raster b64 := zrows [[9;9;9;9];[9;2;3;9];[9;9;2;6];[9;9;9;9]].
Definition wetter : raster b64 := zrows [[9;9;9;9];[9;4;4;9];[9;9;4;6];[9;9;9;9]].
Definition fills (sp : bool) (dem : raster b64) (vs : list (list Z)) : bool :=
  on_ok (fun f => leb_cells f (zrows vs) && leb_cells (zrows vs) f) ((if sp then fill64_cy else fill64) 20%nat dem).
Lemma bare_wetter : (dem32 bare /\ dem_finite bare) /\ (dem32 wetter /\ dem_finite wetter) /\ same_shape bare wetter /\
  (forall c, inside (nrows bare) (ncols bare) c -> le64 (at_ bare c) (at_ wetter c)) /\
  (forall sp, fills sp bare [[9;9;9;9];[9;6;6;9];[9;9;6;6];[9;9;9;9]] = true /\ fills sp wetter [[9;9;9;9];[9;6;6;9];[9;9;6;6];[9;9;9;9]] = true).
Proof.
  split; [apply dem_ok; vm_compute; reflexivity|]. split; [apply dem_ok; vm_compute; reflexivity|]. split; [split; reflexivity|].
  split; [apply leb_cells_ok; vm_compute; reflexivity|]. intros []; split; vm_compute; reflexivity.
Qed.
