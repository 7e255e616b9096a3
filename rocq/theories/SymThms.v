(** * The tools on a turned terrain *)

From Flocq Require Import IEEE754.BinarySingleNaN.
From Verif Require Import Base BaseProofs Num Float64 Float64Proofs Float32Proofs FillModel FillSpec FillProofs FillThms NoFlatsProofs FlowModel FlowSpec FlowProofs
  AccumProofs FlowDirProofs WatershedProofs DemModel DemProofs LevelProofs LabelModel LabelSpec CompSpec BluespotModel BluespotSpec BluespotProofs PolygonThms
  SymSpec SymProofs.

(** ** Zeros of either sign *)

Definition zero_eq {p e} (x y : binary_float p e) : Prop := x = y \/ (exists u v, x = B754_zero u /\ y = B754_zero v).

Lemma eq64_zero : forall x y : b64, eq64 x y -> zero_eq x y.
Proof.
  intros x y E.
  destruct x as [u|u| |u m k B]; destruct y as [v|v| |v m' k' B'];
    try (right; eauto; fail); try (exfalso; unfold eq64, Beqb, SpecFloat.SFeqb in E; first [destruct u|idtac]; first [destruct v|idtac]; discriminate E).
  - unfold eq64, Beqb, SpecFloat.SFeqb in E. destruct u, v; try discriminate E; left; reflexivity.
  - left. apply B2R_inj; [reflexivity|reflexivity|]. apply rank_eq_R; [reflexivity|reflexivity|].
    apply eq64_rank in E; [exact E|reflexivity|reflexivity].
Qed.

Lemma zero_eq64 : forall x y : b64, zero_eq x y -> not_nan x -> eq64 x y.
Proof.
  intros x y [->|(u & v & -> & ->)] N; [|reflexivity]. apply eq64_rank; auto.
Qed.

Lemma zero_narrow : forall x y : b64, zero_eq x y -> zero_eq (f64_to_f32 x) (f64_to_f32 y).
Proof. intros x y [->|(u & v & -> & ->)]; [left; reflexivity|right; exists u, v; split; reflexivity]. Qed.

Lemma zero_widen : forall x y : b32, zero_eq x y -> zero_eq (f32_to_f64 x) (f32_to_f64 y).
Proof. intros x y [->|(u & v & -> & ->)]; [left; reflexivity|right; exists u, v; split; reflexivity]. Qed.

Lemma zero_minus : forall p e (Hp : FLX.Prec_gt_0 p) (He : Prec_lt_emax p e) (x y a b : binary_float p e),
  zero_eq x y -> zero_eq a b -> zero_eq (Bminus mode_NE x a) (Bminus mode_NE y b).
Proof.
  intros p e Hp He x y a b [->|(u & v & -> & ->)] [->|(w & z & -> & ->)].
  - left; reflexivity.
  - destruct y as [s|s| |s m k B]; [|left; reflexivity|left; reflexivity|left; reflexivity].
    destruct s, w, z; right; cbn; eauto.
  - destruct b as [s|s| |s m k B]; [|left; reflexivity|left; reflexivity|left; reflexivity].
    destruct s, u, v; right; cbn; eauto.
  - destruct u, v, w, z; right; cbn; eauto.
Qed.

Lemma zero_div : forall x y : b64, zero_eq x y -> zero_eq (f64_div x f64_sqrt2) (f64_div y f64_sqrt2).
Proof.
  intros x y [->|(u & v & -> & ->)]; [left; reflexivity|]. right.
  exists u, v. split; vm_compute; [destruct u|destruct v]; reflexivity.
Qed.

(** ** Depths *)

Lemma depths_turned : forall s a b f g, turned s a b -> turned s f g -> same_shape a f -> same_shape b g ->
  dem32 a -> dem32 f -> dem_finite a -> dem_finite f -> turned s (raster_sub32 f a) (raster_sub32 g b).
Proof.
  intros s a b f g [Sy V] [_ V'] [R C] [R' C'] D32 F32 DF FF.
  split; [unfold raster_sub32; cbn; rewrite <- R, <- C, <- R', <- C'; exact Sy|]. intros x Hx. unfold raster_sub32 in Hx; cbn in Hx.
  assert (Hx' : inside (nrows a) (ncols a) x) by (rewrite R, C; exact Hx).
  change (at_ (raster_sub32 g b) (s x)) with (f32_sub (at_ g (s x)) (at_ b (s x))).
  change (at_ (raster_sub32 f a) x) with (f32_sub (at_ f x) (at_ a x)).
  apply eq64_sym. apply zero_eq64.
  - unfold f32_sub. apply zero_widen, zero_minus; apply zero_narrow, eq64_zero, eq64_sym; [apply V'|apply V]; assumption.
  - apply sub32_not_nan; [apply F32|apply D32|apply FF|apply DF]; assumption.
Qed.

(** ** The increments *)

Lemma turned_amax : forall s a b x, turned s a b -> np_amax a = Ok x -> exists y, np_amax b = Ok y /\ eq64 x y.
Proof.
  assert (Half : forall s a b x y, turned s a b -> np_amax a = Ok x -> np_amax b = Ok y -> not_nan x /\ not_nan y /\ rank x <= rank y).
  { intros s a b x y T A B. destruct (turned_inv _ _ _ T) as (s' & T' & I1 & I2). unfold np_amax in *.
    assert (Na : forall v, In v (map (at_ a) (rcells a)) -> not_nan v).
    { intros v Iv. apply in_map_iff in Iv. destruct Iv as (c & <- & Ic). apply in_cells_of in Ic. apply (turned_nan _ _ _ T c Ic). }
    assert (Nb : forall v, In v (map (at_ b) (rcells b)) -> not_nan v).
    { intros v Iv. apply in_map_iff in Iv. destruct Iv as (c & <- & Ic). apply in_cells_of in Ic. apply (turned_nan _ _ _ T' c Ic). }
    assert (K : forall v, In v (map (at_ a) (rcells a)) -> exists w, In w (map (at_ b) (rcells b)) /\ rank w = rank v).
    { intros v Iv. apply in_map_iff in Iv. destruct Iv as (c & <- & Ic). apply in_cells_of in Ic. exists (at_ b (s c)).
      split; [apply in_map, in_cells_of, (sym_inside _ _ _ _ _ (proj1 T)), Ic|apply (turned_rank _ _ _ T c Ic)]. }
    destruct (map (at_ a) (rcells a)) as [|p l]; [discriminate|]. destruct (map (at_ b) (rcells b)) as [|q m]; [discriminate|].
    injection A as A. injection B as B.
    destruct (fold_max_ok l p) as (I3 & L1); [apply Na; left; reflexivity|intros; apply Na; right; assumption|].
    destruct (fold_max_ok m q) as (I4 & L2); [apply Nb; left; reflexivity|intros; apply Nb; right; assumption|].
    rewrite A in *. rewrite B in *. split; [apply Na, I3|]. split; [apply Nb, I4|].
    destruct (K x I3) as (w & Iw & Ew). specialize (L2 w Iw). lia. }
  intros s a b x T A. destruct (turned_inv _ _ _ T) as (s' & T' & I1 & I2).
  assert (B : exists y, np_amax b = Ok y).
  { unfold np_amax in *. destruct (map (at_ b) (rcells b)) eqn:E; [|eauto]. destruct (rcells a) as [|c l] eqn:Ea; [discriminate|].
    assert (Ic : inside (nrows a) (ncols a) c) by (apply in_cells_of; change (In c (rcells a)); rewrite Ea; left; reflexivity).
    apply (sym_inside _ _ _ _ _ (proj1 T)) in Ic. apply in_cells_of in Ic. apply (in_map (at_ b)) in Ic. change (cells_of (nrows b) (ncols b)) with (rcells b) in Ic.
    rewrite E in Ic. destruct Ic. }
  destruct B as (y & B). exists y. split; [exact B|].
  destruct (Half s a b x y T A B) as (N1 & N2 & L). destruct (Half s' b a y x T' B A) as (_ & _ & L'). apply eq64_rank; auto; lia.
Qed.

Lemma turned_amin : forall s a b x, turned s a b -> np_amin a = Ok x -> exists y, np_amin b = Ok y /\ eq64 x y.
Proof.
  assert (Half : forall s a b x y, turned s a b -> np_amin a = Ok x -> np_amin b = Ok y -> not_nan x /\ not_nan y /\ rank y <= rank x).
  { intros s a b x y T A B. destruct (turned_inv _ _ _ T) as (s' & T' & I1 & I2). unfold np_amin in *.
    assert (Na : forall v, In v (map (at_ a) (rcells a)) -> not_nan v).
    { intros v Iv. apply in_map_iff in Iv. destruct Iv as (c & <- & Ic). apply in_cells_of in Ic. apply (turned_nan _ _ _ T c Ic). }
    assert (Nb : forall v, In v (map (at_ b) (rcells b)) -> not_nan v).
    { intros v Iv. apply in_map_iff in Iv. destruct Iv as (c & <- & Ic). apply in_cells_of in Ic. apply (turned_nan _ _ _ T' c Ic). }
    assert (K : forall v, In v (map (at_ a) (rcells a)) -> exists w, In w (map (at_ b) (rcells b)) /\ rank w = rank v).
    { intros v Iv. apply in_map_iff in Iv. destruct Iv as (c & <- & Ic). apply in_cells_of in Ic. exists (at_ b (s c)).
      split; [apply in_map, in_cells_of, (sym_inside _ _ _ _ _ (proj1 T)), Ic|apply (turned_rank _ _ _ T c Ic)]. }
    destruct (map (at_ a) (rcells a)) as [|p l]; [discriminate|]. destruct (map (at_ b) (rcells b)) as [|q m]; [discriminate|].
    injection A as A. injection B as B.
    destruct (fold_min_ok l p) as (I3 & L1); [apply Na; left; reflexivity|intros; apply Na; right; assumption|].
    destruct (fold_min_ok m q) as (I4 & L2); [apply Nb; left; reflexivity|intros; apply Nb; right; assumption|].
    rewrite A in *. rewrite B in *. split; [apply Na, I3|]. split; [apply Nb, I4|].
    destruct (K x I3) as (w & Iw & Ew). specialize (L2 w Iw). lia. }
  intros s a b x T A. destruct (turned_inv _ _ _ T) as (s' & T' & I1 & I2).
  assert (B : exists y, np_amin b = Ok y).
  { unfold np_amin in *. destruct (map (at_ b) (rcells b)) eqn:E; [|eauto]. destruct (rcells a) as [|c l] eqn:Ea; [discriminate|].
    assert (Ic : inside (nrows a) (ncols a) c) by (apply in_cells_of; change (In c (rcells a)); rewrite Ea; left; reflexivity).
    apply (sym_inside _ _ _ _ _ (proj1 T)) in Ic. apply in_cells_of in Ic. apply (in_map (at_ b)) in Ic. change (cells_of (nrows b) (ncols b)) with (rcells b) in Ic.
    rewrite E in Ic. destruct Ic. }
  destruct B as (y & B). exists y. split; [exact B|].
  destruct (Half s a b x y T A B) as (N1 & N2 & L). destruct (Half s' b a y x T' B A) as (_ & _ & L'). apply eq64_rank; auto; lia.
Qed.

Lemma abs_zero : forall x y : b64, zero_eq x y -> Babs x = Babs y.
Proof. intros x y [->|(u & v & -> & ->)]; reflexivity. Qed.

Lemma safe_turned : forall s a b sd, turned s a b -> minimum_safe_short_and_diag a = Ok sd -> minimum_safe_short_and_diag b = Ok sd.
Proof.
  intros s a b sd T H. unfold minimum_safe_short_and_diag in *.
  apply bind_ok in H. destruct H as (mx & E1 & H). apply bind_ok in H. destruct H as (mn & E2 & H).
  destruct (turned_amax _ _ _ _ T E1) as (mx' & -> & Q1). destruct (turned_amin _ _ _ _ T E2) as (mn' & -> & Q2). cbn [bind].
  rewrite <- (abs_zero mx mx' (eq64_zero _ _ Q1)), <- (abs_zero mn mn' (eq64_zero _ _ Q2)). exact H.
Qed.

(** ** Directions *)

Notation by_sqrt2 := (fun x : b64 => f64_div x f64_sqrt2).

Lemma slope_dir : forall g (t : raster b64) c k o, offset k = Some o -> slope g t c k = slope_to g t c (shift c o).
Proof.
  intros g t c k o O. unfold slope, slope_to. rewrite O. f_equal.
  assert (D : diagonalb c (shift c o) = Z.odd k).
  { unfold offset in O. unfold diagonalb, shift. destruct k as [|[[[]|[]|]|[[]|[]|]|]|]; try discriminate O; injection O as <-; cbn;
      repeat (match goal with |- context [?x =? ?y] => destruct (Z.eqb_spec x y) end); try lia; reflexivity. }
  rewrite D. reflexivity.
Qed.

Lemma slope_zero : forall s a b c n, turned s a b -> inside (nrows a) (ncols a) c -> inside (nrows a) (ncols a) n ->
  zero_eq (slope_to by_sqrt2 b (s c) (s n)) (slope_to by_sqrt2 a c n).
Proof.
  intros s a b c n T Ic In. unfold slope_to. rewrite (sym_diagonal _ _ _ _ _ (proj1 T)).
  assert (Z : zero_eq (f64_sub (at_ b (s c)) (at_ b (s n))) (f64_sub (at_ a c) (at_ a n))).
  { apply zero_minus; apply eq64_zero; apply T; assumption. }
  destruct (diagonalb c n); [apply zero_div; exact Z|exact Z].
Qed.

Lemma lt_zero_eq : forall x x' y y' : b64, zero_eq x x' -> zero_eq y y' -> lt64 x y -> lt64 x' y'.
Proof.
  intros x x' y y' [->|(u & v & -> & ->)] [->|(w & z & -> & ->)] L.
  - exact L.
  - destruct x' as [q|q| |q m e B]; exact L.
  - destruct y' as [q|q| |q m e B]; exact L.
  - discriminate L.
Qed.

Lemma le_lt_false : forall x y : b64, le64 x y -> lt64 y x -> False.
Proof.
  intros x y L K. assert (N : not_nan x /\ not_nan y).
  { unfold le64, lt64, not_nan in *. split; [destruct x; auto; discriminate L|destruct y; auto; discriminate K]. }
  destruct N. apply le64_rank in L; auto. apply lt64_rank in K; auto. lia.
Qed.

Lemma interior_nbr : forall r c x y, interior r c x -> adjacent x y -> inside r c y.
Proof. intros r c x y [A B] (_ & C & D). unfold inside. lia. Qed.

Theorem direction_turned : forall s t t' e f f', turned s t t' -> dem_finite t -> dem_finite t' -> 1 <= nrows t -> 1 <= ncols t ->
  flowdir64 t e = Ok f -> flowdir64 t' e = Ok f' ->
  (forall c, interior (nrows t) (ncols t) c -> at_ f c = 8 -> at_ f' (s c) = 8) /\
  (forall c n, interior (nrows t) (ncols t) c -> flows f c n -> only_steepest by_sqrt2 t c n -> flows f' (s c) (s n)).
Proof.
  intros s t t' e f f' T Ft Ft' Hr Hc E E'.
  assert (Hs : 1 <= nrows t' /\ 1 <= ncols t') by (destruct (sym_sides _ _ _ _ _ (proj1 T)); lia).
  destruct (py_steepest t e f Ft Hr Hc E) as ([S1 S2] & C & K & _). destruct (py_steepest t' e f' Ft' (proj1 Hs) (proj2 Hs) E') as ([S1' S2'] & C' & K' & _).
  destruct (turned_inv _ _ _ T) as (s' & T' & I1 & I2). split.
  - intros c Ic E8. destruct (K c Ic) as [[_ Low]|[St _]]; [|destruct St as [D _]; lia].
    destruct (K' (s c) (sym_interior _ _ _ _ _ (proj1 T) _ Ic)) as [[E8' _]|[_ Dn]]; [exact E8'|exfalso].
    destruct Dn as (d & _ & A & Lt).
    assert (Ia : inside (nrows t) (ncols t) c) by (destruct Ic; split; lia).
    assert (A' : adjacent c (s' d)) by (rewrite <- (I1 c); apply (sym_adjacent _ _ _ _ _ (proj1 T') _ _ A)).
    pose proof (interior_nbr _ _ _ _ Ic A') as Id. pose proof (Low _ A') as Le.
    apply (le_lt_false _ _ Le).
    apply (lt_zero_eq (at_ t' d) _ (at_ t' (s c)) _); [|apply eq64_zero, T, Ia|exact Lt].
    rewrite <- (I2 d). apply eq64_zero. rewrite (I1 (s' d)). apply T, Id.
  - intros c n Ic Fl [An Only]. pose proof (sym_interior _ _ _ _ _ (proj1 T) _ Ic) as Ic'.
    assert (Ia : inside (nrows t) (ncols t) c) by (destruct Ic; split; lia).
    pose proof (interior_nbr _ _ _ _ Ic An) as In.
    destruct (K' (s c) Ic') as [[_ Low]|[St Dn]].
    + exfalso. destruct (K c Ic) as [[E8 _]|[_ (d & Fd & Ad & Lt)]].
      * destruct Fl as (_ & _ & Tg). unfold target in Tg. rewrite E8 in Tg. discriminate Tg.
      * assert (d = n) by (destruct Fl as (_ & _ & A), Fd as (_ & _ & B); congruence). subst d.
        apply (le_lt_false _ _ (Low (s n) (sym_adjacent _ _ _ _ _ (proj1 T) _ _ An))).
        apply (lt_zero_eq (at_ t n) _ (at_ t c) _); [| |exact Lt].
        -- apply eq64_zero, eq64_sym, T, In.
        -- apply eq64_zero, eq64_sym, T, Ia.
    + destruct Dn as (d & Fd & Ad & _). assert (Eq : s' d = n).
      { destruct (Z.eq_dec (fst (s' d)) (fst n)) as [E1|E1], (Z.eq_dec (snd (s' d)) (snd n)) as [E2|E2];
          [destruct (s' d), n; cbn in *; congruence| | |]; exfalso;
          (assert (Ne : s' d <> n) by (intros Q; rewrite Q in *; lia));
          (assert (A' : adjacent c (s' d)) by (rewrite <- (I1 c); apply (sym_adjacent _ _ _ _ _ (proj1 T') _ _ Ad)));
          pose proof (interior_nbr _ _ _ _ Ic A') as Id; pose proof (Only _ A' Ne) as Lt;
          destruct St as (Rg & _ & Best & _);
          destruct (offset_of_adjacent (s c) (s n) (sym_adjacent _ _ _ _ _ (proj1 T) _ _ An)) as (k & o & Rk & Ok & Sk);
          specialize (Best k Rk); rewrite (slope_dir _ _ _ _ _ Ok), Sk in Best;
          destruct Fd as (_ & _ & Tg); unfold target in Tg; destruct (offset (at_ f' (s c))) as [o'|] eqn:Oo; try discriminate Tg;
          injection Tg as Tg; rewrite (slope_dir _ _ _ _ _ Oo), Tg in Best;
          apply (le_lt_false _ _ Best);
          (apply (lt_zero_eq (slope_to by_sqrt2 t c (s' d)) _ (slope_to by_sqrt2 t c n) _); [| |exact Lt]).
        all: try (rewrite <- (I2 d) at 2; destruct (slope_zero s t t' c (s' d) T Ia Id) as [W|(u & v & W1 & W2)]; [left; rewrite W; reflexivity|right; exists v, u; split; assumption]).
        all: destruct (slope_zero s t t' c n T Ia In) as [W|(u & v & W1 & W2)]; [left; rewrite W; reflexivity|right; exists v, u; split; assumption]. }
      rewrite <- Eq, I2. exact Fd.
Qed.
