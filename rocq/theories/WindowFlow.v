(** * Flow directions in a window *)

From Flocq Require Import IEEE754.BinarySingleNaN.
From Verif Require Import Base BaseProofs Num Float64 Float64Proofs BluespotThms FillModel FillSpec FillProofs FillThms FlowModel FlowSpec FlowProofs FlowDirProofs SymProofs SymThms WindowSpec WindowThms.

Lemma Bltb_zero_eq : forall x x' y y' : b64, zero_eq x x' -> zero_eq y y' -> Bltb x y = Bltb x' y'.
Proof.
  intros x x' y y' X Y. assert (X' : zero_eq x' x) by (destruct X as [->|(u & v & -> & ->)]; [left; reflexivity|right; eauto]).
  assert (Y' : zero_eq y' y) by (destruct Y as [->|(u & v & -> & ->)]; [left; reflexivity|right; eauto]).
  destruct (Bltb x y) eqn:E, (Bltb x' y') eqn:E'; auto.
  - pose proof (lt_zero_eq x x' y y' X Y E) as H. unfold lt64 in H. congruence.
  - pose proof (lt_zero_eq x' x y' y X' Y' E') as H. unfold lt64 in H. congruence.
Qed.

(** The directions found at inner cells are those of [best]. *)
Lemma flowdir_best : forall t edges f, 2 <= nrows t -> 2 <= ncols t -> flowdir64 t edges = Ok f ->
  forall c, interior (nrows t) (ncols t) c -> at_ f c = fst (best by_sqrt2 t c).
Proof.
  intros t edges f Hr Hc H c I. unfold flowdir64, terrain_flowdirection in H.
  destruct (terrain_flow_ok by_sqrt2 t) as (f0 & E & A & B & C & D). rewrite E in H. cbn [bind] in H. destruct edges.
  - destruct (edges_ok f0) as (f' & E' & A' & B' & C' & D'); [lia|lia|]. rewrite E' in H. injection H as <-. rewrite A, B in *. rewrite D'; auto.
  - injection H as <-. auto.
Qed.

Lemma upd_zero : forall t t' c c' d (st st' : Z * b64), fst st = fst st' -> zero_eq (snd st) (snd st') -> zero_eq (slope by_sqrt2 t c d) (slope by_sqrt2 t' c' d) ->
  fst (upd by_sqrt2 t c st d) = fst (upd by_sqrt2 t' c' st' d) /\ zero_eq (snd (upd by_sqrt2 t c st d)) (snd (upd by_sqrt2 t' c' st' d)).
Proof.
  intros t t' c c' d [i x] [i' x'] E Z S. cbn [fst snd] in *. pose proof (Bltb_zero_eq _ _ _ _ Z S) as Q. unfold upd. cbn [fst snd].
  destruct (Bltb x (slope by_sqrt2 t c d)) eqn:A; destruct (Bltb x' (slope by_sqrt2 t' c' d)) eqn:B; cbn [fst snd]; auto;
    discriminate Q.
Qed.

Theorem window_directions : forall r0 c0 dem w, window r0 c0 dem w -> 2 <= nrows w -> 2 <= ncols w ->
  forall short diag, nonneg64 short -> nonneg64 diag -> dem64 dem ->
  forall fuel fuel' f g, fill_nf64 short diag fuel dem = Ok f -> fill_nf64 short diag fuel' w = Ok g ->
  (forall c, on_edge (nrows w) (ncols w) c -> eq64 (at_ f (moved r0 c0 c)) (at_ dem (moved r0 c0 c))) ->
  forall edges edges' fd gd, flowdir64 f edges = Ok fd -> flowdir64 g edges' = Ok gd ->
  forall c, interior (nrows w) (ncols w) c -> at_ gd c = at_ fd (moved r0 c0 c).
Proof.
  intros r0 c0 dem w W R C short diag Ps Pd D fuel fuel' f g F G E edges edges' fd gd FD GD c I.
  destruct (window_nf r0 c0 dem w W R C short diag Ps Pd D fuel fuel' f g F G) as (_ & X). apply proj2 in X. specialize (X E).
  destruct (dem_big r0 c0 dem w W R C) as (R' & C').
  destruct (nf_cheapest dem short diag R' C' D Ps Pd _ _ F) as (E1 & E2 & _).
  destruct (nf_cheapest w short diag R C (w64 r0 c0 dem w W D) Ps Pd _ _ G) as (E1' & E2' & _).
  rewrite (flowdir_best g edges' gd) by (rewrite ?E1', ?E2'; auto).
  rewrite (flowdir_best f edges fd) by (rewrite ?E1, ?E2; auto; apply (mv_interior r0 c0 dem w W); exact I).
  unfold best. assert (K : forall ds st st', (forall d, In d ds -> 0 <= d <= 7) -> fst st = fst st' -> zero_eq (snd st) (snd st') ->
    fst (fold_left (upd by_sqrt2 g c) ds st) = fst (fold_left (upd by_sqrt2 f (moved r0 c0 c)) ds st')).
  { induction ds as [|d ds IH]; intros st st' In E3 E4; [exact E3|]. cbn [fold_left].
    assert (S : zero_eq (slope by_sqrt2 g c d) (slope by_sqrt2 f (moved r0 c0 c) d)).
    { destruct (opposite d (In d (or_introl eq_refl))) as (o & Eo & _). unfold slope. rewrite Eo.
      assert (Sh : shift (moved r0 c0 c) o = moved r0 c0 (shift c o)) by (unfold shift, moved; cbn; f_equal; lia).
      rewrite Sh. assert (Z : zero_eq (f64_sub (at_ g c) (at_ g (shift c o))) (f64_sub (at_ f (moved r0 c0 c)) (at_ f (moved r0 c0 (shift c o))))).
      { apply zero_minus; apply eq64_zero; apply X; [apply interior_inside; exact I|apply (interior_shift _ _ _ d); auto]. }
      destruct (Z.odd d); [apply zero_div; exact Z|exact Z]. }
    destruct (upd_zero g f c (moved r0 c0 c) d st st' E3 E4 S) as (U1 & U2).
    apply IH; [intros x Hx; apply In; right; exact Hx|exact U1|exact U2]. }
  apply K; [intros d Hd; apply in_dirs; exact Hd|reflexivity|left; reflexivity].
Qed.

(** The part with the second bluespot of C107, with increments of 2 to the -10 and 3/2 times that. *)
Definition dir_short : b64 := f64 1 (-10).
Definition dir_diag : b64 := f64 3 (-11).
Definition dir_row (dem : raster b64) (from : Z) (dirs : list Z) : bool :=
  on_ok (fun f => on_ok (fun d => forallb (fun p => at_ d (1, fst p) =? snd p) (combine (zseq from (length dirs)) dirs)) (flowdir64 f true)) (fill_nf64 dir_short dir_diag 20 dem).
Definition dir_edge : bool :=
  on_ok (fun f => forallb (fun c => negb ((fst c =? 0) || (fst c =? 2) || (snd c =? 0) || (snd c =? 3)) || Beqb (at_ f (moved 0 3 c)) (at_ tile_dem (moved 0 3 c))) (rcells whole_tile))
    (fill_nf64 dir_short dir_diag 20 tile_dem).
Lemma dir_tiles : nonneg64 dir_short /\ nonneg64 dir_diag /\ window 0 3 tile_dem whole_tile /\ dem64 tile_dem /\ dir_edge = true /\
  dir_row tile_dem 4 [2; 3] = true /\ dir_row whole_tile 1 [2; 3] = true.
Proof.
  split; [split; vm_compute; reflexivity|]. split; [split; vm_compute; reflexivity|]. split; [apply tiles|].
  split; [intros c Hc; apply (proj1 (proj2 (proj2 tiles))); exact Hc|]. split; [vm_compute; reflexivity|]. split; vm_compute; reflexivity.
Qed.
