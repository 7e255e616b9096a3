(** * Filling a window cut out of a terrain *)

From Flocq Require Import IEEE754.BinarySingleNaN.
From Verif Require Import Base BaseProofs Num Float64 Float64Proofs Float32Proofs FillModel FillSpec FillProofs FillThms SymProofs DemModel DemProofs LabelModel CompSpec CompProofs
  BluespotModel BluespotSpec BluespotThms LevelProofs WindowSpec.

Section Window.
Variables (r0 c0 : Z) (dem w : raster b64).
Hypothesis Hw : window r0 c0 dem w.
Hypothesis Wr : 2 <= nrows w.
Hypothesis Wc : 2 <= ncols w.

Notation inw := (inside (nrows w) (ncols w)).
Notation ind := (inside (nrows dem) (ncols dem)).
Notation mv := (moved r0 c0).

Lemma mv_inside : forall c, inw c -> ind (mv c).
Proof. destruct Hw as (A & B & C & D & _). intros c (I & J). unfold inside, moved. cbn. lia. Qed.
Lemma mv_val : forall c, inw c -> at_ w c = at_ dem (mv c).
Proof. apply Hw. Qed.
Lemma dem_big : 2 <= nrows dem /\ 2 <= ncols dem.
Proof. destruct Hw as (A & B & C & D & _). lia. Qed.
Lemma mv_adjacent : forall c d, adjacent (mv c) (mv d) <-> adjacent c d.
Proof.
  intros [i j] [k l]. unfold adjacent, moved. cbn. split; intros (N & A & B); (split; [|lia]); intros E; apply N; injection E as E1 E2; f_equal; lia.
Qed.
Lemma mv_diagonal : forall c d, diagonalb (mv c) (mv d) = diagonalb c d.
Proof.
  intros [i j] [k l]. unfold diagonalb, moved. cbn. f_equal; f_equal.
  - destruct (Z.eqb_spec (r0 + i) (r0 + k)), (Z.eqb_spec i k); auto; lia.
  - destruct (Z.eqb_spec (c0 + j) (c0 + l)), (Z.eqb_spec j l); auto; lia.
Qed.
(** A neighbour of a cell that is not on the edge of the window lies in the window. *)
Lemma mv_neighbour : forall c d, interior (nrows w) (ncols w) c -> adjacent (mv c) d -> exists e, inw e /\ d = mv e /\ adjacent c e.
Proof.
  intros [i j] [k l] (I & J) A. exists (k - r0, l - c0). assert (E : (k, l) = mv (k - r0, l - c0)) by (unfold moved; cbn; f_equal; lia).
  split; [|split; [exact E|]].
  - destruct A as (_ & A & B). unfold inside, moved in *. cbn in *. lia.
  - rewrite E in A. apply (proj1 (mv_adjacent _ _)). exact A.
Qed.
Lemma edge_or_interior : forall c, inw c -> on_edge (nrows w) (ncols w) c \/ interior (nrows w) (ncols w) c.
Proof. intros [i j] (I & J). unfold on_edge, interior, inside. cbn in *. lia. Qed.
Lemma mv_interior : forall c, interior (nrows w) (ncols w) c -> interior (nrows dem) (ncols dem) (mv c).
Proof. destruct Hw as (A & B & C & D & _). intros [i j] (I & J). unfold interior, moved in *. cbn in *. lia. Qed.
Lemma interior_inside : forall c, interior (nrows w) (ncols w) c -> inw c.
Proof. intros [i j] (I & J). unfold inside. cbn in *. lia. Qed.

(** ** fill_terrain *)
Lemma escapes_window : forall L c', escapes le64 (nrows dem) (ncols dem) (at_ dem) L c' -> forall c, inw c -> c' = mv c ->
  escapes le64 (nrows w) (ncols w) (at_ w) L c.
Proof.
  intros L c' H. induction H as [c' E V|c' d' I V A H IH]; intros c Hc ->.
  - destruct (edge_or_interior c Hc) as [Ed|In]; [apply esc_edge; [exact Ed|rewrite mv_val by exact Hc; exact V]|].
    exfalso. apply mv_interior in In. destruct E as (_ & E), In as (I1 & I2). lia.
  - assert (V' : le64 (at_ w c) L) by (rewrite mv_val by exact Hc; exact V).
    destruct (edge_or_interior c Hc) as [Ed|In]; [apply esc_edge; assumption|].
    destruct (mv_neighbour c d' In A) as (e & He & -> & A'). apply (esc_step le64 _ _ _ _ c e); auto.
Qed.

Section Fill.
Hypothesis D : dem32 dem.
Variables (fuel fuel' : nat) (f g : raster b64).
Hypothesis F : fill64 fuel dem = Ok f.
Hypothesis G : fill64 fuel' w = Ok g.

Lemma w32 : dem32 w.
Proof. intros c Hc. rewrite mv_val by exact Hc. apply D, mv_inside, Hc. Qed.

Lemma nan_f : forall c, inw c -> not_nan (at_ f (mv c)).
Proof.
  intros c Hc. destruct dem_big as (A & B). destruct (fill64_basic dem A B D _ _ F) as (E1 & E2 & Df & _). apply Df. rewrite E1, E2. apply mv_inside, Hc.
Qed.
Lemma nan_g : forall c, inw c -> not_nan (at_ g c).
Proof. intros c Hc. destruct (fill64_basic w Wr Wc w32 _ _ G) as (E1 & E2 & Df & _). apply Df. rewrite E1, E2. exact Hc. Qed.

Theorem fill_window : forall c, inw c -> le64 (at_ g c) (at_ f (mv c)).
Proof.
  intros c Hc. destruct dem_big as (A & B). pose proof (nan_f c Hc) as N.
  apply (fill64_level w Wr Wc w32 _ _ G c _ Hc N).
  apply (escapes_window _ (mv c)); auto. apply (fill64_level dem A B D _ _ F (mv c) _ (mv_inside c Hc) N). apply le64_rank; auto. lia.
Qed.

Theorem fill_window_exact :
  (forall c, inw c -> eq64 (at_ g c) (at_ f (mv c))) <-> (forall c, on_edge (nrows w) (ncols w) c -> eq64 (at_ f (mv c)) (at_ dem (mv c))).
Proof.
  destruct dem_big as (A & B). destruct (fill64_basic w Wr Wc w32 _ _ G) as (_ & _ & _ & _ & GE). split.
  - intros H c E. pose proof (H c (proj1 E)) as X. rewrite (GE c E), (mv_val c (proj1 E)) in X. apply eq64_sym. exact X.
  - intros H c Hc. apply rank_le_eq; [apply nan_g; exact Hc|apply nan_f; exact Hc|apply fill_window; exact Hc|].
    assert (K : forall L, not_nan L -> forall c, escapes le64 (nrows w) (ncols w) (at_ w) L c -> inw c /\ escapes le64 (nrows dem) (ncols dem) (at_ dem) L (mv c)).
    { clear c Hc. intros L NL c E. induction E as [c E V|c d I V Ad E IH].
      - split; [apply E|]. pose proof (H c E) as Q. pose proof (mv_inside c (proj1 E)) as Im. pose proof (nan_f c (proj1 E)) as N.
        apply (fill64_level dem A B D _ _ F (mv c) L Im NL). rewrite (mv_val c (proj1 E)) in V.
        assert (Nd : not_nan (at_ dem (mv c))) by (apply D, Im).
        apply eq64_rank in Q; auto. apply le64_rank in V; auto. apply le64_rank; auto. lia.
      - split; [exact I|]. destruct IH as (Hd & IH). apply (esc_step le64 _ _ _ _ (mv c) (mv d)); [apply mv_inside, I| | |exact IH].
        + rewrite <- (mv_val c I). exact V.
        + apply mv_adjacent. exact Ad. }
    pose proof (nan_g c Hc) as N. apply (fill64_level dem A B D _ _ F (mv c) _ (mv_inside c Hc) N).
    apply (K _ N c). apply (fill64_level w Wr Wc w32 _ _ G c _ Hc N). apply le64_rank; auto. lia.
Qed.
End Fill.

(** ** fill_terrain_no_flats, for the same increments *)
Section NoFlats.
Variables short diag : b64.
Hypothesis Ps : nonneg64 short.
Hypothesis Pd : nonneg64 diag.
Hypothesis D : dem64 dem.
Variables (fuel fuel' : nat) (f g : raster b64).
Hypothesis F : fill_nf64 short diag fuel dem = Ok f.
Hypothesis G : fill_nf64 short diag fuel' w = Ok g.
Notation cost r := (route_cost (nrows r) (ncols r) (pymax F64Ops) (raise_by short diag) (at_ r)).

Lemma w64 : dem64 w.
Proof. intros c Hc. rewrite mv_val by exact Hc. apply D, mv_inside, Hc. Qed.

Lemma pymax_rank : forall p q, not_nan p -> not_nan q -> not_nan (pymax F64Ops p q) /\ rank (pymax F64Ops p q) = Z.max (rank p) (rank q).
Proof. intros p q Np Nq. unfold pymax. rewrite ltb_law by auto. destruct (Z.ltb_spec (rank p) (rank q)); split; auto; lia. Qed.

Lemma cost_window : forall c' v, cost dem c' v -> not_nan v /\ forall c, inw c -> c' = mv c -> exists u, cost w c u /\ not_nan u /\ rank u <= rank v.
Proof.
  pose proof Ps as Ps'. pose proof Pd as Pd'. apply nonneg_rank in Ps', Pd'.
  intros c' v H. induction H as [c' E|c' d' v I A H IH].
  - split; [apply D, E|]. intros c Hc ->. exists (at_ w c). rewrite <- (mv_val c Hc). split; [|split; [apply w64, Hc|lia]].
    apply rc_edge. destruct (edge_or_interior c Hc) as [Ed|In]; [exact Ed|]. exfalso. apply mv_interior in In. destruct E as (_ & E), In as (I1 & I2). lia.
  - destruct IH as (Nv & IH). assert (Ic : ind c') by (destruct I; split; lia). pose proof (D c' Ic) as Nd.
    pose proof (nf_step_good short diag Ps' Pd' c' d' v Nv) as Ng. destruct (pymax_rank (raise_by short diag c' d' v) (at_ dem c') Ng Nd) as (PN & PR).
    split; [exact PN|]. intros c Hc ->.
    destruct (edge_or_interior c Hc) as [Ed|In].
    + exists (at_ w c). split; [apply rc_edge; exact Ed|]. split; [apply w64, Hc|]. rewrite PR, (mv_val c Hc). lia.
    + destruct (mv_neighbour c d' In A) as (e & He & -> & A'). destruct (IH e He eq_refl) as (u & Cu & Nu & Ru).
      pose proof (nf_step_good short diag Ps' Pd' c e u Nu) as Ng'. destruct (pymax_rank (raise_by short diag c e u) (at_ w c) Ng' (w64 c Hc)) as (PN' & PR').
      exists (pymax F64Ops (raise_by short diag c e u) (at_ w c)). split; [apply rc_step; auto|]. split; [exact PN'|].
      rewrite PR, PR', (mv_val c Hc). pose proof (nf_step_mono short diag Ps' Pd' (mv c) (mv e) u v Nu Nv Ru) as M.
      unfold raise_by in *. rewrite mv_diagonal in *. lia.
Qed.

Theorem nf_window : forall c, inw c -> le64 (at_ g c) (at_ f (mv c)).
Proof.
  intros c Hc. destruct dem_big as (A & B).
  destruct (nf_cheapest dem short diag A B D Ps Pd _ _ F) as (E1 & E2 & Df & K).
  destruct (nf_cheapest w short diag Wr Wc w64 Ps Pd _ _ G) as (E1' & E2' & Df' & K').
  destruct (K (mv c) (mv_inside c Hc)) as (_ & _ & (v & Cv & Ev) & _). destruct (K' c Hc) as (_ & _ & _ & Least).
  destruct (cost_window _ _ Cv) as (Nv & X). destruct (X c Hc eq_refl) as (u & Cu & Nu & Ru). specialize (Least u Cu).
  assert (Nf : not_nan (at_ f (mv c))) by (apply Df; rewrite E1, E2; apply mv_inside, Hc).
  assert (Ng : not_nan (at_ g c)) by (apply Df'; rewrite E1', E2'; exact Hc).
  apply eq64_rank in Ev; auto. apply le64_rank in Least; auto. apply le64_rank; auto. lia.
Qed.

Theorem nf_window_exact :
  (forall c, inw c -> eq64 (at_ g c) (at_ f (mv c))) <-> (forall c, on_edge (nrows w) (ncols w) c -> eq64 (at_ f (mv c)) (at_ dem (mv c))).
Proof.
  pose proof Ps as Ps'. pose proof Pd as Pd'. apply nonneg_rank in Ps', Pd'. destruct dem_big as (A & B).
  destruct (nf_cheapest dem short diag A B D Ps Pd _ _ F) as (E1 & E2 & Df & K).
  destruct (nf_cheapest w short diag Wr Wc w64 Ps Pd _ _ G) as (E1' & E2' & Df' & K').
  assert (Nf : forall c, inw c -> not_nan (at_ f (mv c))) by (intros c Hc; apply Df; rewrite E1, E2; apply mv_inside, Hc).
  assert (Ng : forall c, inw c -> not_nan (at_ g c)) by (intros c Hc; apply Df'; rewrite E1', E2'; exact Hc). split.
  - intros H c E. pose proof (H c (proj1 E)) as X. destruct (K' c (proj1 E)) as (_ & GE & _). rewrite (GE E), (mv_val c (proj1 E)) in X. apply eq64_sym. exact X.
  - intros H c Hc. apply rank_le_eq; [apply Ng; exact Hc|apply Nf; exact Hc|apply nf_window; exact Hc|].
    assert (X : forall c v, cost w c v -> not_nan v /\ inw c /\ exists u, cost dem (mv c) u /\ not_nan u /\ rank u = rank v).
    { clear c Hc. intros c v Cv. induction Cv as [c E|c d v I Ad Cv IH].
      - pose proof (proj1 E) as Hc. split; [apply w64, Hc|]. split; [exact Hc|].
        destruct (K (mv c) (mv_inside c Hc)) as (_ & _ & (u & Cu & Eu) & _). exists u. destruct (cost_window _ _ Cu) as (Nu & _).
        split; [exact Cu|]. split; [exact Nu|]. pose proof (H c E) as Q. rewrite (mv_val c Hc).
        assert (Nd : not_nan (at_ dem (mv c))) by (apply D, mv_inside, Hc).
        apply eq64_rank in Q; auto. apply eq64_rank in Eu; auto. lia.
      - destruct IH as (Nv & Hd & u & Cu & Nu & Eu). pose proof (interior_inside c I) as Hc.
        pose proof (nf_step_good short diag Ps' Pd' c d v Nv) as G1. pose proof (nf_step_good short diag Ps' Pd' (mv c) (mv d) u Nu) as G2.
        destruct (pymax_rank (raise_by short diag c d v) (at_ w c) G1 (w64 c Hc)) as (P1 & P2).
        assert (Nd : not_nan (at_ dem (mv c))) by (apply D, mv_inside, Hc).
        destruct (pymax_rank (raise_by short diag (mv c) (mv d) u) (at_ dem (mv c)) G2 Nd) as (P3 & P4).
        split; [exact P1|]. split; [exact Hc|]. exists (pymax F64Ops (raise_by short diag (mv c) (mv d) u) (at_ dem (mv c))).
        split; [apply rc_step; [apply mv_interior; exact I|apply mv_adjacent; exact Ad|exact Cu]|]. split; [exact P3|].
        rewrite P2, P4, (mv_val c Hc). f_equal.
        pose proof (nf_step_mono short diag Ps' Pd' c d u v Nu Nv ltac:(lia)) as M1. pose proof (nf_step_mono short diag Ps' Pd' c d v u Nv Nu ltac:(lia)) as M2.
        unfold raise_by in *. rewrite mv_diagonal. lia. }
    destruct (K' c Hc) as (_ & _ & (v & Cv & Ev) & _). destruct (X c v Cv) as (Nv & _ & u & Cu & Nu & Eu).
    destruct (K (mv c) (mv_inside c Hc)) as (_ & _ & _ & Least). specialize (Least u Cu).
    pose proof (Nf c Hc). pose proof (Ng c Hc). apply eq64_rank in Ev; auto. apply le64_rank in Least; auto. apply le64_rank; auto. lia.
Qed.
End NoFlats.

(** ** Depths and bluespots *)
Section Depths.
Hypothesis D : dem32 dem.
Hypothesis DF : dem_finite dem.
Hypothesis S50 : ncols dem <= 2 ^ 50.
Variables (fuel fuel' : nat) (t1 t5 t1' t5' : b64) (out out' : dem_out).
Hypothesis H : dem_process false fuel t1 t5 dem = Ok out.
Hypothesis H' : dem_process false fuel' t1' t5' w = Ok out'.

Theorem depths_window :
  (forall c, inw c -> le64 (at_ (do_depths out') c) (at_ (do_depths out) (mv c))) /\
  (forall c d, bluespot (do_depths out') c d -> bluespot (do_depths out) (mv c) (mv d)) /\
  ((forall c, inw c -> eq64 (at_ (do_depths out') c) (at_ (do_depths out) (mv c))) <->
   (forall c, on_edge (nrows w) (ncols w) c -> eq64 (at_ (do_depths out) (mv c)) f64_zero)).
Proof.
  destruct dem_big as (A & B).
  assert (SO : size_ok false dem) by (cbn; lia). assert (SO' : size_ok false w) by (pose proof Hw as (? & ? & ? & ? & _); cbn; lia).
  assert (W32 : dem32 w) by (apply w32; exact D).
  assert (WF : dem_finite w) by (intros c Hc; rewrite mv_val by exact Hc; apply DF, mv_inside, Hc).
  destruct (filled_facts false _ _ _ _ _ SO D DF H) as (E1 & E2 & F32 & FF & Ge & Ed & ED).
  destruct (filled_facts false _ _ _ _ _ SO' W32 WF H') as (E1' & E2' & F32' & FF' & Ge' & Ed' & ED').
  destruct (dem_process_parts _ _ _ _ _ _ H) as (_ & F & _). destruct (dem_process_parts _ _ _ _ _ _ H') as (_ & G & _).
  set (f := do_filled out) in *. set (g := do_filled out') in *.
  pose proof (fill_window D _ _ f g F G) as LE. pose proof (fill_window_exact D _ _ f g F G) as EX.
  assert (If : forall c, inw c -> inside (nrows f) (ncols f) (mv c)) by (intros c Hc; rewrite E1, E2; apply mv_inside, Hc).
  assert (Ig : forall c, inw c -> inside (nrows g) (ncols g) c) by (intros c Hc; rewrite E1', E2'; exact Hc).
  assert (AD : forall c, at_ (do_depths out) c = f32_sub (at_ f c) (at_ dem c)) by (intros c; rewrite ED; reflexivity).
  assert (AD' : forall c, at_ (do_depths out') c = f32_sub (at_ g c) (at_ w c)) by (intros c; rewrite ED'; reflexivity).
  assert (N : forall c, inw c -> not_nan (at_ (do_depths out) (mv c))).
  { intros c Hc. rewrite AD. apply sub32_not_nan; [apply F32|apply D|apply FF|apply DF]; auto using mv_inside. }
  assert (N' : forall c, inw c -> not_nan (at_ (do_depths out') c)).
  { intros c Hc. rewrite AD'. apply sub32_not_nan; [apply F32'|apply W32|apply FF'|apply WF]; auto. }
  assert (LD : forall c, inw c -> le64 (at_ (do_depths out') c) (at_ (do_depths out) (mv c))).
  { intros c Hc. apply le64_rank; auto. rewrite AD, AD', (mv_val c Hc). pose proof (mv_inside c Hc) as Hm.
    assert (M : not_nan (at_ f (mv c))) by (apply F32; auto). assert (M' : not_nan (at_ g c)) by (apply F32'; auto).
    assert (Md : not_nan (at_ dem (mv c))) by (apply D; auto).
    pose proof (LE c Hc) as L1. apply le64_rank in L1; auto. pose proof (Ge' c Hc) as L2. rewrite (mv_val c Hc) in L2. apply le64_rank in L2; auto.
    apply sub32_anti; auto; try (apply F32; auto; fail); try (apply F32'; auto; fail); try (apply D; auto; fail); try (apply FF; auto; fail); try (apply FF'; auto; fail); try (apply DF; auto; fail); lia. }
  assert (Sgn : forall c, inw c -> (0 < rank (at_ (do_depths out) (mv c)) <-> rank (at_ dem (mv c)) < rank (at_ f (mv c))) /\
     (rank (at_ (do_depths out) (mv c)) = 0 <-> rank (at_ f (mv c)) = rank (at_ dem (mv c)))).
  { intros c Hc. rewrite AD. pose proof (mv_inside c Hc) as Hm.
    apply sub32_sign; [apply F32|apply D|apply FF|apply DF]; auto. }
  split; [exact LD|]. split.
  - assert (S1 : nrows (do_depths out) = nrows dem /\ ncols (do_depths out) = ncols dem) by (rewrite ED; cbn; auto).
    assert (S2 : nrows (do_depths out') = nrows w /\ ncols (do_depths out') = ncols w) by (rewrite ED'; cbn; auto).
    assert (NZ : forall c, inw c -> at_ (nonzero (do_depths out')) c = true -> at_ (nonzero (do_depths out)) (mv c) = true).
    { intros c Hc Z. destruct (depths_facts false _ _ _ _ _ SO' W32 WF H') as (_ & P' & _). destruct (P' c Hc) as (Q' & _).
      pose proof (LD c Hc) as L. apply le64_rank in L; auto. apply le64_rank in Q'; [|reflexivity|auto]. rewrite rank0 in Q'.
      change (negb (Beqb (at_ (do_depths out') c) f64_zero) = true) in Z. change (negb (Beqb (at_ (do_depths out) (mv c)) f64_zero) = true).
      rewrite Beqb_rank in Z by (auto; reflexivity). rewrite Beqb_rank by (auto; reflexivity). rewrite rank0 in *.
      apply Bool.negb_true_iff in Z. apply Bool.negb_true_iff. apply Z.eqb_neq in Z. apply Z.eqb_neq. lia. }
    unfold bluespot. intros c d Cn. destruct S1 as (S1 & S1'), S2 as (S2 & S2').
    assert (IN : forall x, inside (nrows (nonzero (do_depths out'))) (ncols (nonzero (do_depths out'))) x -> inw x) by (cbn; rewrite S2, S2'; auto).
    assert (IN' : forall x, inw x -> inside (nrows (nonzero (do_depths out))) (ncols (nonzero (do_depths out))) (mv x)) by (cbn; rewrite S1, S1'; apply mv_inside).
    induction Cn as [x Hx W|x y z Cn IH Ad Hz W].
    + apply co_here; auto.
    + apply co_step with (mv y); auto. apply mv_adjacent. exact Ad.
  - split.
    + intros Q c E. pose proof (Q c (proj1 E)) as X. destruct (depths_facts false _ _ _ _ _ SO' W32 WF H') as (_ & _ & P').
      specialize (P' c E). apply eq64_rank in X; [|apply N', E|apply N, E]. apply eq64_rank in P'; [|apply N', E|reflexivity].
      apply eq64_rank; [apply N, E|reflexivity|lia].
    + intros Q. assert (Q' : forall c, inw c -> eq64 (at_ g c) (at_ f (mv c))).
      { apply EX. intros c E. pose proof (proj1 E) as Hc. pose proof (mv_inside c Hc) as Hm. specialize (Q c E). apply eq64_rank in Q; [|apply N; exact Hc|reflexivity].
        rewrite rank0 in Q. apply (proj2 (Sgn c Hc)) in Q. apply eq64_rank; [apply F32; auto|apply D; auto|exact Q]. }
      intros c Hc. specialize (Q' c Hc). pose proof (mv_inside c Hc) as Hm. apply eq64_rank in Q'; [|apply F32'; auto|apply F32; auto].
      pose proof (LD c Hc) as L. apply rank_le_eq; auto. apply le64_rank; auto. rewrite AD, AD', (mv_val c Hc).
      pose proof (Ge (mv c) Hm) as L2. apply le64_rank in L2; [|apply D; auto|apply F32; auto].
      apply sub32_anti; auto; try (apply F32; auto; fail); try (apply F32'; auto; fail); try (apply D; auto; fail); try (apply FF; auto; fail); try (apply FF'; auto; fail); try (apply DF; auto; fail); lia.
Qed.
End Depths.
End Window.

(** ** Examples *)
(** Columns 1 to 4 of a terrain with a hollow that its left edge cuts; and columns 3 to 6, with a hollow of its own. *)
Definition tile_dem : raster b64 := zrows [[9;9;9;9;9;9;9]; [9;2;3;8;5;6;9]; [9;9;9;9;9;9;7]].
Definition cut_tile : raster b64 := zrows [[9;9;9;9]; [2;3;8;5]; [9;9;9;9]].
Definition whole_tile : raster b64 := zrows [[9;9;9;9]; [8;5;6;9]; [9;9;9;7]].
Definition tile_run (dem : raster b64) (depths : list Z) : bool :=
  on_ok (fun o => forallb (fun p => Beqb (at_ (do_depths o) (1, fst p)) (f64_ofZ (snd p))) (combine (zseq 0 7) depths))
    (dem_process false 20 (f64_ofZ 1) (f64_ofZ 1) dem).

Lemma zrows_get : forall l i j, rget (zrows l) i j = f64_ofZ (rget (of_rows 0 l) i j).
Proof.
  intros l i j. unfold zrows, of_rows. cbn [rget]. change f64_zero with (f64_ofZ 0). change (@nil b64) with (map f64_ofZ []).
  rewrite map_nth, map_nth. reflexivity.
Qed.

Lemma zrows_window : forall r0 c0 rows rows', 0 <= r0 -> 0 <= c0 ->
  r0 + nrows (zrows rows') <= nrows (zrows rows) -> c0 + ncols (zrows rows') <= ncols (zrows rows) ->
  forallb (fun c => rget (of_rows 0 rows') (fst c) (snd c) =? rget (of_rows 0 rows) (r0 + fst c) (c0 + snd c)) (rcells (zrows rows')) = true ->
  window r0 c0 (zrows rows) (zrows rows').
Proof.
  intros r0 c0 rows rows' A B C D E. split; [exact A|]. split; [exact B|]. split; [exact C|]. split; [exact D|].
  intros c Hc. rewrite forallb_forall in E. specialize (E c). unfold at_. rewrite !zrows_get. f_equal. apply Z.eqb_eq. cbn [moved fst snd]. apply E. apply in_cells_of. exact Hc.
Qed.

Lemma tiles : window 0 1 tile_dem cut_tile /\ window 0 3 tile_dem whole_tile /\ dem32 tile_dem /\ dem_finite tile_dem /\
  tile_run tile_dem [0;6;5;0;2;1;0] = true /\ tile_run cut_tile [0;0;0;0] = true /\ tile_run whole_tile [0;2;1;0] = true.
Proof.
  split; [apply zrows_window; [vm_compute; discriminate ..|vm_compute; reflexivity]|].
  split; [apply zrows_window; [vm_compute; discriminate ..|vm_compute; reflexivity]|].
  assert (D : dem32 tile_dem /\ dem_finite tile_dem) by (apply dem_ok; vm_compute; reflexivity).
  split; [apply D|]. split; [apply D|]. split; [vm_compute; reflexivity|]. split; vm_compute; reflexivity.
Qed.

(** ** With speedups *)
Definition step_dem : raster b64 := zrows [[10;10;10;3;3];[10;10;0;10;10];[10;0;0;10;10];[10;10;10;10;10];[10;10;10;10;10]].
Definition step_tile : raster b64 := zrows [[10;10;10;3];[10;10;0;10];[10;0;0;10];[10;10;10;10]].
Theorem window_compiled : exists r0 c0 dem w fuel f g c, window r0 c0 dem w /\ dem32 dem /\ dem_finite dem /\ size_ok true dem /\ size_ok true w /\
  fill64_cy fuel dem = Ok f /\ fill64_cy fuel w = Ok g /\ inside (nrows w) (ncols w) c /\ lt64 (at_ f (moved r0 c0 c)) (at_ g c).
Proof.
  assert (A : on_ok (fun f => Beqb (at_ f (2, 2)) (f64_ofZ 3)) (fill64_cy 20 step_dem) = true) by (vm_compute; reflexivity).
  assert (B : on_ok (fun f => Beqb (at_ f (2, 2)) (f64_ofZ 10)) (fill64_cy 20 step_tile) = true) by (vm_compute; reflexivity).
  apply on_ok_ex in A. destruct A as (f & F & A). apply on_ok_ex in B. destruct B as (g & G & B).
  exists 0, 0, step_dem, step_tile, 20%nat, f, g, (2, 2).
  assert (D : dem32 step_dem /\ dem_finite step_dem) by (apply dem_ok; vm_compute; reflexivity).
  split; [apply zrows_window; [vm_compute; discriminate ..|vm_compute; reflexivity]|].
  split; [apply D|]. split; [apply D|]. split; [cbn; lia|]. split; [cbn; lia|]. split; [exact F|]. split; [exact G|].
  split; [unfold inside; cbn; lia|]. change (moved 0 0 (2, 2)) with (2, 2).
  assert (NN : forall (x : b64) k, not_nan (f64_ofZ k) -> Beqb x (f64_ofZ k) = true -> not_nan x /\ rank x = rank (f64_ofZ k)).
  { intros x k N E. assert (Nx : not_nan x) by (unfold not_nan; destruct x; auto; discriminate E). split; [exact Nx|]. rewrite Beqb_rank in E by auto. apply Z.eqb_eq. exact E. }
  apply NN in A; [|reflexivity]. apply NN in B; [|reflexivity]. destruct A as (A1 & A2), B as (B1 & B2). apply lt64_rank; [exact A1|exact B1|].
  assert (L : rank (f64_ofZ 3) < rank (f64_ofZ 10)) by (vm_compute; reflexivity). exact (eq_ind_r (fun z => z < _) (eq_ind_r (fun z => _ < z) L B2) A2).
Qed.

Theorem window_fill : forall r0 c0 dem w, window r0 c0 dem w -> 2 <= nrows w -> 2 <= ncols w -> dem32 dem ->
  forall fuel fuel' f g, fill64 fuel dem = Ok f -> fill64 fuel' w = Ok g ->
  (forall c, inside (nrows w) (ncols w) c -> le64 (at_ g c) (at_ f (moved r0 c0 c))) /\
  ((forall c, inside (nrows w) (ncols w) c -> eq64 (at_ g c) (at_ f (moved r0 c0 c))) <->
   (forall c, on_edge (nrows w) (ncols w) c -> eq64 (at_ f (moved r0 c0 c)) (at_ dem (moved r0 c0 c)))).
Proof.
  intros r0 c0 dem w W R C D fuel fuel' f g F G. split; [exact (fill_window r0 c0 dem w W R C D fuel fuel' f g F G)|exact (fill_window_exact r0 c0 dem w W R C D fuel fuel' f g F G)].
Qed.

Theorem window_nf : forall r0 c0 dem w, window r0 c0 dem w -> 2 <= nrows w -> 2 <= ncols w ->
  forall short diag, nonneg64 short -> nonneg64 diag -> dem64 dem ->
  forall fuel fuel' f g, fill_nf64 short diag fuel dem = Ok f -> fill_nf64 short diag fuel' w = Ok g ->
  (forall c, inside (nrows w) (ncols w) c -> le64 (at_ g c) (at_ f (moved r0 c0 c))) /\
  ((forall c, inside (nrows w) (ncols w) c -> eq64 (at_ g c) (at_ f (moved r0 c0 c))) <->
   (forall c, on_edge (nrows w) (ncols w) c -> eq64 (at_ f (moved r0 c0 c)) (at_ dem (moved r0 c0 c)))).
Proof.
  intros r0 c0 dem w W R C short diag Ps Pd D fuel fuel' f g F G.
  split; [exact (nf_window r0 c0 dem w W R C short diag Ps Pd D fuel fuel' f g F G)|exact (nf_window_exact r0 c0 dem w W R C short diag Ps Pd D fuel fuel' f g F G)].
Qed.
