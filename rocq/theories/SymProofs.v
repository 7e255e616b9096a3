(** * Symmetries of the grid; filling a turned terrain *)

From Flocq Require Import IEEE754.BinarySingleNaN.
From Verif Require Import Base Num Float64 Float64Proofs FillModel FillSpec FillProofs FillThms SymSpec.

Lemma sym_inv : forall r c r' c' s, symmetry r c r' c' s ->
  exists s', symmetry r' c' r c s' /\ (forall x, s' (s x) = x) /\ (forall x, s (s' x) = x).
Proof.
  induction 1 as [r c|r c|r c|r c r1 c1 r2 c2 s t H1 IH1 H2 IH2].
  - exists (fun x => (r - 1 - fst x, snd x)). split; [apply sy_rows|]. split; intros [i j]; cbn; f_equal; lia.
  - exists (fun x => (fst x, c - 1 - snd x)). split; [apply sy_cols|]. split; intros [i j]; cbn; f_equal; lia.
  - exists (fun x => (snd x, fst x)). split; [apply sy_swap|]. split; intros [i j]; reflexivity.
  - destruct IH1 as (s' & A1 & B1 & C1), IH2 as (t' & A2 & B2 & C2). exists (fun x => s' (t' x)).
    split; [eapply (sy_comp _ _ _ _ _ _ t' s'); eassumption|]. split; intros x; [rewrite B2; apply B1|rewrite C1; apply C2].
Qed.

Lemma sym_inside : forall r c r' c' s, symmetry r c r' c' s -> forall x, inside r c x -> inside r' c' (s x).
Proof. induction 1; intros x [A B]; unfold inside in *; cbn; try lia. apply IHsymmetry2, IHsymmetry1. split; assumption. Qed.

Lemma cell_ne : forall a b : cell, a <> b <-> (fst a <> fst b \/ snd a <> snd b).
Proof.
  intros [i j] [k l]; cbn. split.
  - intros H. destruct (Z.eq_dec i k) as [->|N]; [|left; exact N]. right. intros ->. apply H. reflexivity.
  - intros [H|H] E; injection E as -> ->; apply H; reflexivity.
Qed.

Lemma sym_adjacent : forall r c r' c' s, symmetry r c r' c' s -> forall x y, adjacent x y -> adjacent (s x) (s y).
Proof.
  induction 1; intros x y A; [| | |apply IHsymmetry2, IHsymmetry1, A];
    destruct A as (N & A & B); apply cell_ne in N; (split; [apply cell_ne; cbn; lia|cbn; lia]).
Qed.

Lemma sym_diagonal : forall r c r' c' s, symmetry r c r' c' s -> forall x y, diagonalb (s x) (s y) = diagonalb x y.
Proof.
  induction 1; intros x y; [| | |rewrite IHsymmetry2; apply IHsymmetry1]; unfold diagonalb; cbn.
  - f_equal. f_equal. destruct (Z.eqb_spec (r - 1 - fst x) (r - 1 - fst y)), (Z.eqb_spec (fst x) (fst y)); auto; lia.
  - f_equal. f_equal. destruct (Z.eqb_spec (c - 1 - snd x) (c - 1 - snd y)), (Z.eqb_spec (snd x) (snd y)); auto; lia.
  - apply andb_comm.
Qed.

Lemma sym_edge : forall r c r' c' s, symmetry r c r' c' s -> forall x, on_edge r c x -> on_edge r' c' (s x).
Proof.
  induction 1; intros x E; [| | |apply IHsymmetry2, IHsymmetry1, E]; destruct E as [[A B] E]; split; unfold inside; cbn; lia.
Qed.

Lemma sym_interior : forall r c r' c' s, symmetry r c r' c' s -> forall x, interior r c x -> interior r' c' (s x).
Proof. induction 1; intros x E; [| | |apply IHsymmetry2, IHsymmetry1, E]; destruct E as [A B]; split; cbn; lia. Qed.

Lemma sym_sides : forall r c r' c' s, symmetry r c r' c' s -> (r' = r /\ c' = c) \/ (r' = c /\ c' = r).
Proof. induction 1; lia. Qed.

(** ** Turned rasters *)

Lemma eq64_sym : forall x y, eq64 x y -> eq64 y x.
Proof.
  intros x y E. assert (N : not_nan x /\ not_nan y).
  { unfold eq64, not_nan in *. destruct x; [| |discriminate|]; (split; [reflexivity|]); destruct y; auto; discriminate. }
  destruct N. apply eq64_rank in E; auto. apply eq64_rank; auto.
Qed.

Lemma turned_inv : forall s a b, turned s a b ->
  exists s', turned s' b a /\ (forall x, s' (s x) = x) /\ (forall x, s (s' x) = x).
Proof.
  intros s a b [S V]. destruct (sym_inv _ _ _ _ _ S) as (s' & S' & I1 & I2). exists s'. split; [|auto].
  split; [exact S'|]. intros x Hx. specialize (V (s' x) (sym_inside _ _ _ _ _ S' _ Hx)). rewrite I2 in V. apply eq64_sym. exact V.
Qed.

Lemma turned_nan : forall s a b, turned s a b -> forall x, inside (nrows a) (ncols a) x -> not_nan (at_ a x) /\ not_nan (at_ b (s x)).
Proof.
  intros s a b [_ V] x Hx. specialize (V x Hx). unfold eq64 in V. split; unfold not_nan.
  - destruct (at_ a x); auto. destruct (at_ b (s x)) as [[]|[]| |[]]; discriminate V.
  - destruct (at_ b (s x)); auto; discriminate V.
Qed.

Lemma turned_rank : forall s a b, turned s a b -> forall x, inside (nrows a) (ncols a) x -> rank (at_ b (s x)) = rank (at_ a x).
Proof. intros s a b T x Hx. destruct (turned_nan _ _ _ T x Hx) as [N N']. destruct T as [_ V]. apply eq64_rank; auto. Qed.

Lemma turned_shape : forall s a b, turned s a b -> 2 <= nrows a -> 2 <= ncols a -> 2 <= nrows b /\ 2 <= ncols b.
Proof. intros s a b [S _] A B. destruct (sym_sides _ _ _ _ _ S); lia. Qed.

Lemma turned_escapes : forall s a b L, turned s a b -> not_nan L -> forall x,
  escapes le64 (nrows a) (ncols a) (at_ a) L x -> escapes le64 (nrows b) (ncols b) (at_ b) L (s x).
Proof.
  intros s a b L T NL x H.
  assert (LE : forall y, inside (nrows a) (ncols a) y -> le64 (at_ a y) L -> le64 (at_ b (s y)) L).
  { intros y Hy. destruct (turned_nan _ _ _ T y Hy). rewrite !le64_rank by auto. rewrite (turned_rank _ _ _ T y Hy). auto. }
  pose proof (proj1 T) as Sy. induction H as [x E V|x y I V A H IH].
  - apply esc_edge; [exact (sym_edge _ _ _ _ _ Sy _ E)|]. apply LE; [apply E|exact V].
  - apply (esc_step le64 _ _ _ _ (s x) (s y)); [exact (sym_inside _ _ _ _ _ Sy _ I)|apply LE; auto|exact (sym_adjacent _ _ _ _ _ Sy _ _ A)|exact IH].
Qed.

Lemma fill_turned_le : forall s dem dem', turned s dem dem' -> 2 <= nrows dem -> 2 <= ncols dem -> dem32 dem -> dem32 dem' ->
  forall fuel f fuel' f', fill64 fuel dem = Ok f -> fill64 fuel' dem' = Ok f' ->
  forall x, inside (nrows dem) (ncols dem) x -> le64 (at_ f' (s x)) (at_ f x).
Proof.
  intros s dem dem' T Hr Hc D D' fuel f fuel' f' F F' x Hx.
  destruct (turned_shape _ _ _ T Hr Hc) as [Hr' Hc'].
  destruct (fill64_basic dem Hr Hc D _ _ F) as (E1 & E2 & Df & _).
  assert (N : not_nan (at_ f x)) by (apply Df; rewrite E1, E2; exact Hx).
  apply (fill64_level dem' Hr' Hc' D' _ _ F'); [exact (sym_inside _ _ _ _ _ (proj1 T) _ Hx)|exact N|].
  apply (turned_escapes _ _ _ _ T N). apply (fill64_level dem Hr Hc D _ _ F); auto. apply le64_rank; auto. lia.
Qed.

Theorem fill_turned : forall s dem dem', turned s dem dem' -> 2 <= nrows dem -> 2 <= ncols dem -> dem32 dem -> dem32 dem' ->
  forall fuel f fuel' f', fill64 fuel dem = Ok f -> fill64 fuel' dem' = Ok f' -> turned s f f'.
Proof.
  intros s dem dem' T Hr Hc D D' fuel f fuel' f' F F'.
  destruct (turned_shape _ _ _ T Hr Hc) as [Hr' Hc'].
  destruct (fill64_basic dem Hr Hc D _ _ F) as (E1 & E2 & Df & _).
  destruct (fill64_basic dem' Hr' Hc' D' _ _ F') as (E1' & E2' & Df' & _).
  split; [rewrite E1, E2, E1', E2'; apply T|]. intros x Hx.
  assert (Hx' : inside (nrows f') (ncols f') (s x)) by (rewrite E1', E2'; apply (sym_inside _ _ _ _ _ (proj1 T)); rewrite <- E1, <- E2; exact Hx).
  apply rank_le_eq; [apply Df'; exact Hx'|apply Df; exact Hx| |].
  - apply (fill_turned_le s dem dem' T Hr Hc D D' _ _ _ _ F F'). rewrite <- E1, <- E2. exact Hx.
  - destruct (turned_inv _ _ _ T) as (s' & T' & I1 & I2).
    pose proof (fill_turned_le s' dem' dem T' Hr' Hc' D' D _ _ _ _ F' F (s x)) as K. rewrite I1 in K. apply K. rewrite <- E1', <- E2'. exact Hx'.
Qed.

(** ** Without flats *)

Lemma turned_cost : forall short diag s a b, turned s a b -> nonneg64 short -> nonneg64 diag -> forall x v,
  route_cost (nrows a) (ncols a) (pymax F64Ops) (raise_by short diag) (at_ a) x v ->
  inside (nrows a) (ncols a) x /\ not_nan v /\
  exists v', route_cost (nrows b) (ncols b) (pymax F64Ops) (raise_by short diag) (at_ b) (s x) v' /\ not_nan v' /\ rank v' = rank v.
Proof.
  intros short diag s a b T Ps Pd x v H. apply nonneg_rank in Ps, Pd. pose proof (proj1 T) as Sy.
  induction H as [x E|x y v I A H IH].
  - destruct E as [Hx E]. destruct (turned_nan _ _ _ T x Hx). split; [exact Hx|]. split; [auto|]. exists (at_ b (s x)).
    split; [apply rc_edge, (sym_edge _ _ _ _ _ Sy); split; assumption|]. split; [auto|apply (turned_rank _ _ _ T x Hx)].
  - destruct IH as (Hy & Nv & v' & R' & Nv' & Ev).
    assert (Hx : inside (nrows a) (ncols a) x) by (destruct I; split; lia).
    destruct (turned_nan _ _ _ T x Hx) as [Na Nb]. pose proof (turned_rank _ _ _ T x Hx) as Er.
    pose proof (nf_step_good short diag Ps Pd x y v Nv) as G. pose proof (nf_step_good short diag Ps Pd (s x) (s y) v' Nv') as G'.
    assert (ER : rank (raise_by short diag (s x) (s y) v') = rank (raise_by short diag x y v)).
    { unfold raise_by in *. rewrite (sym_diagonal _ _ _ _ _ Sy).
      pose proof (nf_step_mono short diag Ps Pd x y v v' Nv Nv') as M1. pose proof (nf_step_mono short diag Ps Pd x y v' v Nv' Nv) as M2.
      unfold raise_by in *. lia. }
    assert (PM : forall p q, not_nan p -> not_nan q -> not_nan (pymax F64Ops p q) /\ rank (pymax F64Ops p q) = Z.max (rank p) (rank q)).
    { intros p q Np Nq. unfold pymax. rewrite ltb_law by auto. destruct (Z.ltb_spec (rank p) (rank q)); split; auto; lia. }
    split; [exact Hx|]. split; [apply PM; auto|].
    exists (pymax F64Ops (raise_by short diag (s x) (s y) v') (at_ b (s x))).
    split; [apply rc_step; [exact (sym_interior _ _ _ _ _ Sy _ I)|exact (sym_adjacent _ _ _ _ _ Sy _ _ A)|exact R']|].
    split; [apply PM; auto|]. rewrite (proj2 (PM _ _ G' Nb)), (proj2 (PM _ _ G Na)), ER, Er. reflexivity.
Qed.

Lemma nf_turned_le : forall short diag s dem dem', turned s dem dem' -> 2 <= nrows dem -> 2 <= ncols dem -> nonneg64 short -> nonneg64 diag ->
  dem64 dem -> dem64 dem' -> forall fuel f fuel' f', fill_nf64 short diag fuel dem = Ok f -> fill_nf64 short diag fuel' dem' = Ok f' ->
  forall x, inside (nrows dem) (ncols dem) x -> le64 (at_ f' (s x)) (at_ f x).
Proof.
  intros short diag s dem dem' T Hr Hc Ps Pd D D' fuel f fuel' f' F F' x Hx.
  destruct (turned_shape _ _ _ T Hr Hc) as [Hr' Hc'].
  destruct (nf_cheapest dem short diag Hr Hc D Ps Pd _ _ F) as (E1 & E2 & Df & K).
  destruct (nf_cheapest dem' short diag Hr' Hc' D' Ps Pd _ _ F') as (E1' & E2' & Df' & K').
  pose proof (sym_inside _ _ _ _ _ (proj1 T) _ Hx) as Hx'.
  destruct (K x Hx) as (_ & _ & (v & R & Ev) & _). destruct (K' (s x) Hx') as (_ & _ & _ & Least).
  destruct (turned_cost _ _ _ _ _ T Ps Pd _ _ R) as (_ & Nv & v' & R' & Nv' & Er).
  assert (Nf : not_nan (at_ f x)) by (apply Df; rewrite E1, E2; exact Hx).
  assert (Nf' : not_nan (at_ f' (s x))) by (apply Df'; rewrite E1', E2'; exact Hx').
  apply eq64_rank in Ev; auto. specialize (Least v' R'). apply le64_rank in Least; auto. apply le64_rank; auto. lia.
Qed.

Theorem nf_turned : forall short diag s dem dem', turned s dem dem' -> 2 <= nrows dem -> 2 <= ncols dem -> nonneg64 short -> nonneg64 diag ->
  dem64 dem -> dem64 dem' -> forall fuel f fuel' f', fill_nf64 short diag fuel dem = Ok f -> fill_nf64 short diag fuel' dem' = Ok f' -> turned s f f'.
Proof.
  intros short diag s dem dem' T Hr Hc Ps Pd D D' fuel f fuel' f' F F'.
  destruct (turned_shape _ _ _ T Hr Hc) as [Hr' Hc'].
  destruct (nf_cheapest dem short diag Hr Hc D Ps Pd _ _ F) as (E1 & E2 & Df & _).
  destruct (nf_cheapest dem' short diag Hr' Hc' D' Ps Pd _ _ F') as (E1' & E2' & Df' & _).
  split; [rewrite E1, E2, E1', E2'; apply T|]. intros x Hx.
  assert (Hx' : inside (nrows f') (ncols f') (s x)) by (rewrite E1', E2'; apply (sym_inside _ _ _ _ _ (proj1 T)); rewrite <- E1, <- E2; exact Hx).
  apply rank_le_eq; [apply Df'; exact Hx'|apply Df; exact Hx| |].
  - apply (nf_turned_le short diag s dem dem' T Hr Hc Ps Pd D D' _ _ _ _ F F'). rewrite <- E1, <- E2. exact Hx.
  - destruct (turned_inv _ _ _ T) as (s' & T' & I1 & I2).
    pose proof (nf_turned_le short diag s' dem' dem T' Hr' Hc' Ps Pd D' D _ _ _ _ F' F (s x)) as K. rewrite I1 in K. apply K. rewrite <- E1', <- E2'. exact Hx'.
Qed.

(** ** Elevations mapped by a monotone function *)

Lemma escapes_higher : forall rows cols (d : cell -> b64) L M x, (forall c, inside rows cols c -> not_nan (d c)) -> not_nan L -> not_nan M ->
  rank L <= rank M -> escapes le64 rows cols d L x -> escapes le64 rows cols d M x.
Proof.
  intros rows cols d L M x N NL NM LM H. induction H as [x E V|x y I V A H IH].
  - apply esc_edge; auto. assert (I : inside rows cols x) by apply E. apply le64_rank in V; auto. apply le64_rank; auto. lia.
  - apply (esc_step le64 _ _ _ _ x y); auto. apply le64_rank in V; auto. apply le64_rank; auto. lia.
Qed.

Lemma escapes_mapped : forall rows cols (d d' : cell -> b64) L L' x, 
  (forall c, inside rows cols c -> le64 (d c) L -> le64 (d' c) L') -> escapes le64 rows cols d L x -> escapes le64 rows cols d' L' x.
Proof.
  intros rows cols d d' L L' x K H. induction H as [x E V|x y I V A H IH].
  - apply esc_edge; [exact E|]. apply K; [apply E|exact V].
  - apply (esc_step le64 _ _ _ _ x y); auto.
Qed.

Theorem fill_mapped : forall (g : b64 -> b64) dem dem', same_shape dem dem' -> 2 <= nrows dem -> 2 <= ncols dem -> dem32 dem -> dem32 dem' ->
  (forall x, inside (nrows dem) (ncols dem) x -> at_ dem' x = g (at_ dem x)) -> (forall a b, le64 a b -> le64 (g a) (g b)) ->
  forall fuel f fuel' f', fill64 fuel dem = Ok f -> fill64 fuel' dem' = Ok f' ->
  forall x, inside (nrows dem) (ncols dem) x -> eq64 (at_ f' x) (g (at_ f x)).
Proof.
  intros g dem dem' [S1 S2] Hr Hc D D' V Mo fuel f fuel' f' F F' x Hx.
  assert (Hr' : 2 <= nrows dem') by lia. assert (Hc' : 2 <= ncols dem') by lia.
  assert (N : forall c, inside (nrows dem) (ncols dem) c -> not_nan (at_ dem c)) by (intros c Hi; apply D, Hi).
  assert (N' : forall c, inside (nrows dem') (ncols dem') c -> not_nan (at_ dem' c)) by (intros c Hi; apply D', Hi).
  assert (Hx' : inside (nrows dem') (ncols dem') x) by (rewrite <- S1, <- S2; exact Hx).
  destruct (fill64_basic dem Hr Hc D _ _ F) as (E1 & E2 & Df & _).
  destruct (fill64_basic dem' Hr' Hc' D' _ _ F') as (E1' & E2' & Df' & _).
  assert (Nf : not_nan (at_ f x)) by (apply Df; rewrite E1, E2; exact Hx).
  assert (Nf' : not_nan (at_ f' x)) by (apply Df'; rewrite E1', E2'; exact Hx').
  assert (Gn : forall a, not_nan a -> not_nan (g a)).
  { intros a Na. assert (R : le64 a a) by (apply le64_rank; auto; lia). specialize (Mo a a R). unfold le64, not_nan in *. destruct (g a); auto; discriminate. }
  apply rank_le_eq; auto.
  - apply (fill64_level dem' Hr' Hc' D' _ _ F' x (g (at_ f x)) Hx' (Gn _ Nf)). rewrite <- S1, <- S2.
    apply escapes_mapped with (d := at_ dem) (L := at_ f x).
    + intros c Hi Le. rewrite (V c Hi). apply Mo, Le.
    + apply (fill64_level dem Hr Hc D _ _ F x (at_ f x) Hx Nf). apply le64_rank; auto. lia.
  - assert (X : escapes le64 (nrows dem') (ncols dem') (at_ dem') (at_ f' x) x).
    { apply (fill64_level dem' Hr' Hc' D' _ _ F' x (at_ f' x) Hx' Nf'). apply le64_rank; auto. lia. }
    (* the highest cell of dem on a route that dem' admits *)
    rewrite <- S1, <- S2 in X.
    assert (Y : exists e, inside (nrows dem) (ncols dem) e /\ le64 (at_ dem' e) (at_ f' x) /\ escapes le64 (nrows dem) (ncols dem) (at_ dem) (at_ dem e) x).
    { clear Hx Hx' Nf Nf'. revert X. generalize (at_ f' x). intros L X. induction X as [y E W|y z I W A X IH].
      - assert (I : inside (nrows dem) (ncols dem) y) by apply E. exists y. split; [exact I|]. split; [exact W|]. apply esc_edge; [exact E|]. apply le64_rank; auto. lia.
      - destruct IH as (e & Ie & We & He). destruct (Z_le_gt_dec (rank (at_ dem y)) (rank (at_ dem e))) as [Le|Gt].
        + exists e. split; [exact Ie|]. split; [exact We|]. apply (esc_step le64 _ _ _ _ y z); auto. apply le64_rank; auto.
        + exists y. split; [exact I|]. split; [exact W|]. apply (esc_step le64 _ _ _ _ y z); auto; [apply le64_rank; auto; lia|].
          apply (escapes_higher _ _ (at_ dem) (at_ dem e) (at_ dem y)); auto. lia. }
    destruct Y as (e & Ie & We & He). apply (fill64_level dem Hr Hc D _ _ F x (at_ dem e) Hx (N e Ie)) in He.
    apply Mo in He. rewrite <- (V e Ie) in He.
    assert (Ne : not_nan (at_ dem' e)) by (apply N'; rewrite <- S1, <- S2; exact Ie).
    apply le64_rank in He; auto. apply le64_rank in We; auto. apply le64_rank; auto. lia.
Qed.
