(** * Filling in binary64: lemmas behind P_Fill.v *)

From Flocq Require Import IEEE754.BinarySingleNaN.
From Verif Require Import Base BaseProofs Num Float64 Float64Proofs FillModel FillSpec RelaxProofs.

Lemma le64_rank : forall x y, not_nan x -> not_nan y -> (le64 x y <-> rank x <= rank y).
Proof. intros. unfold le64. rewrite Bleb_rank by auto. apply Z.leb_le. Qed.
Lemma lt64_rank : forall x y, not_nan x -> not_nan y -> (lt64 x y <-> rank x < rank y).
Proof. intros. unfold lt64. rewrite Bltb_rank by auto. apply Z.ltb_lt. Qed.
Lemma eq64_rank : forall x y, not_nan x -> not_nan y -> (eq64 x y <-> rank x = rank y).
Proof. intros. unfold eq64. rewrite Beqb_rank by auto. apply Z.eqb_eq. Qed.

Lemma fill_loop_mono : forall {T} (sweep : raster T -> Z -> Z -> Z -> Z -> res (raster T * bool)) fuel f r,
  fill_loop sweep fuel f = Ok r -> forall fuel', (fuel' >= fuel)%nat -> fill_loop sweep fuel' f = Ok r.
Proof.
  induction fuel as [|fuel IH]; intros f r H fuel' Hf; [discriminate|].
  destruct fuel' as [|fuel']; [lia|]. cbn [fill_loop] in *.
  repeat match goal with
  | H : bind ?x _ = Ok _ |- _ =>
      let f1 := fresh "f" in let c1 := fresh "c" in
      destruct x as [[f1 c1]|e|]; cbn [bind] in *; try discriminate
  | H : (if ?c then _ else _) = Ok _ |- _ => destruct c; auto
  end.
  apply IH; auto. lia.
Qed.

Lemma loop_det : forall {T} (sweep : raster T -> Z -> Z -> Z -> Z -> res (raster T * bool)) fuel f r r' k,
  fill_loop sweep fuel f = Ok r -> (forall n, (n >= k)%nat -> fill_loop sweep n f = Ok r') -> r = r'.
Proof.
  intros. pose proof (fill_loop_mono _ _ _ _ H (Nat.max fuel k)) as H1.
  rewrite (H0 (Nat.max fuel k)) in H1 by lia. specialize (H1 ltac:(lia)). congruence.
Qed.

Lemma rank_inf_max : forall x, not_nan x -> rank x <= rank f64_inf.
Proof. intros x H. apply rank_bounds; auto. Qed.

Lemma ltb_law : forall x y, not_nan x -> not_nan y -> nltb F64Ops x y = (rank x <? rank y).
Proof. exact Bltb_rank. Qed.
Lemma leb_law : forall x y, not_nan x -> not_nan y -> nleb F64Ops x y = (rank x <=? rank y).
Proof. exact Bleb_rank. Qed.
Lemma eqb_law : forall x y, not_nan x -> not_nan y -> neqb F64Ops x y = (rank x =? rank y).
Proof. exact Beqb_rank. Qed.

Definition id_step (c d : cell) (v : b64) : b64 := v.

Section Fill32.
Variable dtm : raster b64.
Hypothesis Hrows : 2 <= nrows dtm.
Hypothesis Hcols : 2 <= ncols dtm.
Hypothesis Hdem : dem32 dtm.
Notation rows := (nrows dtm).
Notation cols := (ncols dtm).

Definition Inv32 := Inv rank not_nan store32 dtm.
Definition Fix32 := Fix rank dtm id_step.
Definition pmax := pymax F64Ops.
Definition cmax := cy_max F64Ops.
Lemma pmax_ok : is_max rank not_nan pmax.
Proof. apply pymax_is_max. apply Bltb_rank. Qed.
Lemma cmax_ok : is_max rank not_nan cmax.
Proof. apply cymax_is_max. apply Bleb_rank. Qed.

Lemma fill64_run : exists f k,
  St rank not_nan f64_inf store32 dtm pmax id_step f /\ Fix32 f /\
  forall fuel, (fuel >= k)%nat -> fill64 fuel dtm = Ok f.
Proof.
  destruct (run_py rank not_nan f64_inf eq_refl rank_inf_max store32 eq_refl dtm Hdem
     pmax pmax_ok id_step) with (cellf := fill_cell F64Ops store32 dtm) as (f & k & HS & HF & HL);
    unfold id_step; auto; try (intros; lia).
  - apply fill_cell_ok; auto using ltb_law, leb_law, eqb_law, pmax_ok.
  - exists f, k. split; [auto|]. split; [auto|]. intros fuel Hf.
    unfold fill64, fill_terrain. rewrite initialize_filled_ok by auto. cbn [bind]. apply HL; auto.
Qed.

Lemma fill64_result : forall fuel f, fill64 fuel dtm = Ok f ->
  St rank not_nan f64_inf store32 dtm pmax id_step f /\ Fix32 f.
Proof.
  intros fuel f H. destruct fill64_run as (f' & k & HS & HF & HL).
  unfold fill64, fill_terrain in *. rewrite initialize_filled_ok in * by auto. cbn [bind] in *.
  rewrite (loop_det _ _ _ _ _ _ H HL). auto.
Qed.

Lemma St_values : forall mx st f c, St rank not_nan f64_inf store32 dtm mx st f -> inside rows cols c ->
  not_nan (at_ f c) /\ is_f32 (at_ f c) /\ rank (at_ dtm c) <= rank (at_ f c).
Proof. intros mx st f c ((_ & _ & HI & _) & _) Hc. apply HI; auto. Qed.

Lemma St_shape : forall mx st f, St rank not_nan f64_inf store32 dtm mx st f -> nrows f = rows /\ ncols f = cols.
Proof. intros mx st f ((Hr & Hc & _) & _). auto. Qed.

(** Orders by rank and by comparison agree on NaN-free rasters. *)
Lemma escapes_ext : forall (d : cell -> b64) L c, (forall c, inside rows cols c -> not_nan (d c)) -> not_nan L ->
  (escapes (fun x y => rank x <= rank y) rows cols d L c <-> escapes le64 rows cols d L c).
Proof.
  intros d L c Hd HL. split; intros H; induction H as [c Hc Hle | c e Hc Hle Ha Hs IH].
  - apply esc_edge; auto. apply le64_rank; auto. apply Hd. apply edge_inside; auto.
  - apply esc_step with e; auto. apply le64_rank; auto.
  - apply esc_edge; auto. apply le64_rank in Hle; auto. apply Hd. apply edge_inside; auto.
  - apply esc_step with e; auto. apply le64_rank in Hle; auto.
Qed.

Lemma drains_in : forall {T} (le : T -> T -> Prop) f c, drains le rows cols f c -> inside rows cols c.
Proof. intros T le f c H. destruct H; auto. apply edge_inside; auto. Qed.

Lemma drains_ext : forall (f : cell -> b64) c, (forall c, inside rows cols c -> not_nan (f c)) ->
  (drains (fun x y => rank x <= rank y) rows cols f c <-> drains le64 rows cols f c).
Proof.
  intros f c Hf. split; intros H; induction H as [c Hc | c e Hc Ha Hle Hs IH].
  - apply dr_edge; auto.
  - apply dr_step with e; auto. apply le64_rank; auto. apply Hf. eapply drains_in; eauto.
  - apply dr_edge; auto.
  - apply dr_step with e; auto. apply le64_rank in Hle; auto. apply Hf. eapply drains_in; eauto.
Qed.

Lemma fill64_level : forall fuel f, fill64 fuel dtm = Ok f -> forall c L, inside rows cols c -> not_nan L ->
  (le64 (at_ f c) L <-> escapes le64 rows cols (at_ dtm) L c).
Proof.
  intros fuel f H c L Hc HL. destruct (fill64_result _ _ H) as [HS HF].
  destruct (St_values _ _ _ c HS Hc) as (Gf & _ & _).
  rewrite <- escapes_ext; [|intros e He; apply Hdem; auto|auto]. rewrite le64_rank by auto.
  destruct HS as (HI & HB & _).
  apply (level_iff rank not_nan f64_inf rank_inf_max store32 dtm Hdem pmax pmax_ok id_step); auto.
Qed.

Lemma fill64_drains : forall fuel f, fill64 fuel dtm = Ok f -> forall c, inside rows cols c ->
  drains le64 rows cols (at_ f) c.
Proof.
  intros fuel f H c Hc. destruct (fill64_result _ _ H) as [HS HF].
  apply drains_ext. { intros e He. apply (St_values _ _ _ e HS He). }
  destruct HS as (_ & _ & HD & _). apply HD; auto.
Qed.

(** Any depressionless surface above the DEM gives escape routes. *)
Lemma drains_escapes : forall (g : cell -> b64),
  (forall c, inside rows cols c -> not_nan (g c) /\ le64 (at_ dtm c) (g c)) ->
  forall c, drains le64 rows cols g c -> forall L, not_nan L -> le64 (g c) L -> escapes le64 rows cols (at_ dtm) L c.
Proof.
  intros g Hg c H. induction H as [c Hc | c d Hc Ha Hle Hd IH]; intros L HL HgL.
  - destruct (Hg c (edge_inside _ _ _ Hc)) as [Gc Dc].
    destruct (Hdem c (edge_inside _ _ _ Hc)) as [Gd _].
    apply esc_edge; auto. apply le64_rank in Dc, HgL; auto. apply le64_rank; auto. lia.
  - destruct (Hg c Hc) as [Gc Dc]. destruct (Hdem c Hc) as [Gd _].
    assert (Hdi : inside rows cols d) by (eapply drains_in; eauto).
    destruct (Hg d Hdi) as [Gdd Ddd].
    apply esc_step with d; auto.
    + apply le64_rank in Dc, HgL; auto. apply le64_rank; auto. lia.
    + apply IH; auto. apply le64_rank in Hle, HgL; auto. apply le64_rank; auto. lia.
Qed.

(** *** Compiled sweeps *)
Section Cy.
Hypothesis H4r : 4 <= rows.
Hypothesis H4c : 4 <= cols.
Hypothesis Hfin : dem_finite dtm.

Lemma fill64_cy_run : exists f k,
  St rank not_nan f64_inf store32 dtm cmax id_step f /\
  (forall c, inside rows cols c -> rank (at_ f c) < rank f64_inf) /\
  forall fuel, (fuel >= k)%nat -> fill64_cy fuel dtm = Ok f.
Proof.
  destruct (run_cy rank not_nan f64_inf eq_refl rank_inf_max store32 eq_refl dtm Hdem
     cmax cmax_ok id_step) with (cellf := fill_cell_cy F64Ops store32 dtm) (bnd := fun _ : Z => rank f64_inf - 1)
     as (f & k & HS & HF & HL);
    unfold id_step; auto; try (intros; lia).
  - apply fill_cell_cy_ok; auto using ltb_law, leb_law, eqb_law, cmax_ok.
  - intros c Hc. pose proof (rank_finite_bound _ (Hfin c Hc)). unfold f64_inf. rewrite rank_pinf. lia.
  - exists f, k. split; [auto|]. split.
    + intros c Hc. specialize (HF c Hc). unfold fin in HF. lia.
    + intros fuel Hf. unfold fill64_cy, fill_terrain_cy. rewrite initialize_filled_ok by auto. cbn [bind]. apply HL; auto.
Qed.

Lemma fill64_cy_result : forall fuel f, fill64_cy fuel dtm = Ok f ->
  St rank not_nan f64_inf store32 dtm cmax id_step f /\
  (forall c, inside rows cols c -> rank (at_ f c) < rank f64_inf).
Proof.
  intros fuel f H. destruct fill64_cy_run as (f' & k & HS & HF & HL).
  unfold fill64_cy, fill_terrain_cy in *. rewrite initialize_filled_ok in * by auto. cbn [bind] in *.
  rewrite (loop_det _ _ _ _ _ _ H HL). auto.
Qed.

Lemma cy_above_py : forall fuel fuel' f g, fill64 fuel dtm = Ok f -> fill64_cy fuel' dtm = Ok g ->
  forall c, inside rows cols c -> rank (at_ f c) <= rank (at_ g c).
Proof.
  intros fuel fuel' f g Hf Hg c Hc.
  destruct (fill64_result _ _ Hf) as [HS HF]. destruct (fill64_cy_result _ _ Hg) as [HS' HF'].
  destruct HS' as (_ & HB' & _). destruct HS as (HI & _).
  destruct (HB' c Hc) as [E|E].
  - specialize (HF' c Hc). rewrite E in HF'. lia.
  - apply (route_min rank not_nan store32 dtm Hdem id_step) with (mx' := cmax); auto using cmax_ok.
Qed.
End Cy.
End Fill32.

(** ** No flats *)

Section NoFlats.
Variable dtm : raster b64.
Variables short diag : b64.
Hypothesis Hrows : 2 <= nrows dtm.
Hypothesis Hcols : 2 <= ncols dtm.
Hypothesis Hdem : dem64 dtm.
Hypothesis Hs : finite64 short /\ 0 <= rank short.
Hypothesis Hd : finite64 diag /\ 0 <= rank diag.
Notation rows := (nrows dtm).
Notation cols := (ncols dtm).

Notation nf_step := (raise_by short diag).

Lemma nf_dem : forall c, inside rows cols c -> not_nan (at_ dtm c) /\ (fun x : b64 => x) (at_ dtm c) = at_ dtm c.
Proof. intros c Hc. split; auto. Qed.

Lemma nf_inc : forall c d, finite64 (if diagonalb c d then diag else short) /\
  0 <= rank (if diagonalb c d then diag else short).
Proof. intros. destruct (diagonalb c d); auto. Qed.

Lemma nf_step_good : forall c d v, not_nan v -> not_nan (nf_step c d v).
Proof. intros. apply add_not_nan; auto. apply nf_inc. Qed.
Lemma nf_step_mono : forall c d v w, not_nan v -> not_nan w -> rank v <= rank w ->
  rank (nf_step c d v) <= rank (nf_step c d w).
Proof. intros. apply add_mono; auto. apply nf_inc. Qed.
Lemma nf_step_infl : forall c d v, not_nan v -> rank v <= rank (nf_step c d v).
Proof. intros. apply add_infl; auto; apply nf_inc. Qed.

Notation St64 := (St rank not_nan f64_inf (fun x => x) dtm (pymax F64Ops) nf_step).
Notation Fix64 := (Fix rank dtm nf_step).

Lemma fill_nf64_run : exists f k, St64 f /\ Fix64 f /\
  forall fuel, (fuel >= k)%nat -> fill_nf64 short diag fuel dtm = Ok f.
Proof.
  destruct (run_py rank not_nan f64_inf eq_refl rank_inf_max (fun x => x) eq_refl dtm nf_dem
     (pymax F64Ops) pmax_ok nf_step) with (cellf := fill_cell_no_flats F64Ops (fun x => x) short diag dtm)
     as (f & k & HS & HF & HL);
    auto using nf_step_good, nf_step_infl, nf_step_mono.
  - apply fill_cell_no_flats_ok; auto using ltb_law, leb_law, eqb_law, pmax_ok, nf_step_good, nf_step_mono, nf_dem.
  - exists f, k. split; [auto|]. split; [auto|]. intros fuel Hf.
    unfold fill_nf64, fill_terrain_no_flats. rewrite initialize_filled_ok by auto. cbn [bind]. apply HL; auto.
Qed.

Lemma fill_nf64_result : forall fuel f, fill_nf64 short diag fuel dtm = Ok f -> St64 f /\ Fix64 f.
Proof.
  intros fuel f H. destruct fill_nf64_run as (f' & k & HS & HF & HL).
  unfold fill_nf64, fill_terrain_no_flats in *. rewrite initialize_filled_ok in * by auto. cbn [bind] in *.
  rewrite (loop_det _ _ _ _ _ _ H HL). auto.
Qed.

(** *** Compiled sweeps *)
Notation St64cy := (St rank not_nan f64_inf (fun x => x) dtm (cy_max F64Ops) nf_step).

Lemma fill_nf64_cy_run : 4 <= rows -> 4 <= cols -> forall bnd : Z -> Z,
  (forall n m, n <= m -> bnd n <= bnd m) ->
  (forall n, n <= rows -> bnd n < rank f64_inf) ->
  (forall n c d v, 0 <= n < rows -> interior rows cols c -> adjacent c d -> not_nan v ->
     rank (at_ dtm d) <= rank v -> rank v <= bnd n -> rank (nf_step c d v) <= bnd (n + 1)) ->
  (forall c, inside rows cols c -> rank (at_ dtm c) <= bnd 0) ->
  exists f k, St64cy f /\ (forall c, inside rows cols c -> rank (at_ f c) <= bnd rows) /\
  forall fuel, (fuel >= k)%nat -> fill_nf64_cy short diag fuel dtm = Ok f.
Proof.
  intros H4r H4c bnd B1 B2 B3 B4.
  destruct (run_cy rank not_nan f64_inf eq_refl rank_inf_max (fun x => x) eq_refl dtm nf_dem
     (cy_max F64Ops) cmax_ok nf_step) with (cellf := fill_cell_no_flats_cy F64Ops (fun x => x) short diag dtm)
     (bnd := bnd)
     as (f & k & HS & HF & HL);
    auto using nf_step_good, nf_step_infl, nf_step_mono.
  - apply fill_cell_no_flats_cy_ok; auto using ltb_law, leb_law, eqb_law, cmax_ok, nf_step_good, nf_step_mono, nf_dem.
  - exists f, k. split; [auto|]. split; [auto|]. intros fuel Hf.
    unfold fill_nf64_cy, fill_terrain_no_flats_cy. rewrite initialize_filled_ok by auto. cbn [bind]. apply HL; auto.
Qed.

Lemma nf_min : forall f, St64 f -> Fix64 f -> forall c v,
  route_cost rows cols (pymax F64Ops) nf_step (at_ dtm) c v -> not_nan v /\ rank (at_ f c) <= rank v.
Proof.
  intros f (HI & _) HF c v H.
  apply (route_min rank not_nan (fun x => x) dtm nf_dem nf_step) with (mx' := pymax F64Ops);
    auto using nf_step_good, nf_step_mono, pmax_ok.
Qed.

(** The minimum is attained, also at cells whose value is infinite. *)
Lemma nf_attained : forall f, St64 f -> Fix64 f -> forall c, inside rows cols c ->
  exists v, route_cost rows cols (pymax F64Ops) nf_step (at_ dtm) c v /\ rank v = rank (at_ f c).
Proof.
  intros f HS HF c Hc. pose proof HS as (HI & HB & _).
  destruct (HB c Hc) as [E|E]; [|eauto].
  destruct (route_exists dtm (pymax F64Ops) nf_step c Hc) as (v & Hv). exists v. split; auto.
  destruct (nf_min f HS HF c v Hv) as [Gv Hle]. rewrite E in *.
  pose proof (rank_inf_max v Gv). lia.
Qed.
End NoFlats.
