(** * Relaxation theory behind the two fill functions

    Stated for any number type with a rank in Z that decides its comparisons and
    any monotone, inflationary step function.  Instantiated in FillProofs.v. *)

From Verif Require Import Base BaseProofs Num FillModel FillSpec.

(** ** Geometry *)

Lemma inside_cases : forall rows cols c, inside rows cols c ->
  on_edge rows cols c \/ interior rows cols c.
Proof.
  intros rows cols [r c] H. unfold on_edge, interior, inside in *. cbn in *. lia.
Qed.

Lemma interior_not_edge : forall rows cols c, interior rows cols c -> ~ on_edge rows cols c.
Proof. intros rows cols [r c]. unfold on_edge, interior, inside. cbn. lia. Qed.

Lemma interior_inside : forall rows cols c, interior rows cols c -> inside rows cols c.
Proof. intros rows cols [r c]. unfold interior, inside. cbn. lia. Qed.

Lemma edge_inside : forall rows cols c, on_edge rows cols c -> inside rows cols c.
Proof. intros rows cols c [H _]. exact H. Qed.

Lemma adjacent_inside : forall rows cols c d,
  interior rows cols c -> adjacent c d -> inside rows cols d.
Proof.
  intros rows cols [r c] [r' c']. unfold interior, inside, adjacent. cbn. lia.
Qed.

Definition nbrs8 (r c : Z) : list cell :=
  [(r-1, c-1); (r-1, c); (r-1, c+1); (r, c-1); (r, c+1); (r+1, c-1); (r+1, c); (r+1, c+1)].

Lemma adjacent_nbrs8 : forall r c d, adjacent (r, c) d <-> In d (nbrs8 r c).
Proof.
  intros r c [r' c']. unfold adjacent, nbrs8. cbn [fst snd In]. split.
  - intros (H1 & H2 & H3).
    assert (Hr : r' = r - 1 \/ r' = r \/ r' = r + 1) by lia.
    assert (Hc : c' = c - 1 \/ c' = c \/ c' = c + 1) by lia.
    destruct Hr as [->|[->| ->]], Hc as [->|[->| ->]]; auto 12.
  - intros H. repeat (destruct H as [H|H]; [inversion H; subst; repeat split; try lia; intros E; inversion E; lia|]).
    contradiction.
Qed.

Lemma adjacent_sym : forall a b, adjacent a b -> adjacent b a.
Proof. intros [r c] [r' c']. unfold adjacent. cbn. intros (H1 & H2 & H3). split; [congruence | lia]. Qed.

Lemma adjacent_left : forall r c, adjacent (r, c) (r, c - 1).
Proof. intros. apply adjacent_nbrs8. cbn. auto 10. Qed.

(** ** Python and Cython minimum / maximum *)

Section Relax.

Context {T : Type}.
Variable ops : NumOps T.
Variable rk : T -> Z.
Variable good : T -> Prop.
Hypothesis Hltb : forall x y, good x -> good y -> nltb ops x y = (rk x <? rk y).
Hypothesis Hleb : forall x y, good x -> good y -> nleb ops x y = (rk x <=? rk y).
Hypothesis Heqb : forall x y, good x -> good y -> neqb ops x y = (rk x =? rk y).

Definition is_min (mn : T -> T -> T) : Prop := forall a b, good a -> good b ->
  (mn a b = a \/ mn a b = b) /\ rk (mn a b) <= rk a /\ rk (mn a b) <= rk b.
Definition is_max (mx : T -> T -> T) : Prop := forall a b, good a -> good b ->
  (mx a b = a \/ mx a b = b) /\ rk a <= rk (mx a b) /\ rk b <= rk (mx a b).

Lemma pymin_is_min : is_min (pymin ops).
Proof.
  intros a b Ha Hb. unfold pymin. rewrite Hltb by auto.
  destruct (Z.ltb_spec (rk b) (rk a)); repeat split; auto; lia.
Qed.
Lemma pymax_is_max : is_max (pymax ops).
Proof.
  intros a b Ha Hb. unfold pymax. rewrite Hltb by auto.
  destruct (Z.ltb_spec (rk a) (rk b)); repeat split; auto; lia.
Qed.
Lemma cymin_is_min : is_min (cy_min ops).
Proof.
  intros a b Ha Hb. unfold cy_min. rewrite Hleb by auto.
  destruct (Z.leb_spec (rk a) (rk b)); repeat split; auto; lia.
Qed.
Lemma cymax_is_max : is_max (cy_max ops).
Proof.
  intros a b Ha Hb. unfold cy_max. rewrite Hleb by auto.
  destruct (Z.leb_spec (rk b) (rk a)); repeat split; auto; lia.
Qed.

Lemma is_max_good : forall mx a b, is_max mx -> good a -> good b -> good (mx a b).
Proof. intros mx a b H Ha Hb. destruct (H a b Ha Hb) as ([->| ->] & _); auto. Qed.

Lemma is_max_rk : forall mx a b, is_max mx -> good a -> good b -> rk (mx a b) = Z.max (rk a) (rk b).
Proof.
  intros mx a b H Ha Hb. destruct (H a b Ha Hb) as ([E|E] & H1 & H2); rewrite E in *; lia.
Qed.

(** A chain of minima. *)
Lemma chain_min : forall mn, is_min mn -> forall l m, good m -> (forall x, In x l -> good x) ->
  let r := fold_left (fun m x => mn x m) l m in
  good r /\ In r (m :: l) /\ rk r <= rk m /\ (forall x, In x l -> rk r <= rk x).
Proof.
  intros mn Hmn. induction l as [|y l IH]; intros m Hm Hl; cbn zeta.
  - cbn. repeat split; auto; try lia; try tauto.
  - cbn [fold_left]. destruct (Hmn y m) as (Hor & H1 & H2); [apply Hl; left; auto | auto |].
    assert (Hg : good (mn y m)) by (destruct Hor as [->| ->]; auto; apply Hl; left; auto).
    destruct (IH (mn y m) Hg) as (G1 & G2 & G3 & G4).
    { intros x Hx. apply Hl. right; auto. }
    repeat split; auto; try lia.
    + destruct G2 as [G2|G2]; [|right; right; auto].
      rewrite <- G2. destruct Hor as [->| ->]; [right; left; auto | left; auto].
    + intros x [<-|Hx]; [lia | auto].
Qed.

(** ** The problem *)

Variable inf : T.
Hypothesis Hinf : good inf.
Hypothesis Hinfmax : forall x, good x -> rk x <= rk inf.
Variable store : T -> T.
Hypothesis Hstore_inf : store inf = inf.

Variable dtm : raster T.
Notation rows := (nrows dtm).
Notation cols := (ncols dtm).
Hypothesis Hdtm : forall c, inside rows cols c -> good (at_ dtm c) /\ store (at_ dtm c) = at_ dtm c.

Variable mx : T -> T -> T.
Hypothesis Hmx : is_max mx.

Variable step : cell -> cell -> T -> T.
Hypothesis Hstep_good : forall c d v, good v -> good (step c d v).
Hypothesis Hstep_stored : forall c d v, good v -> store v = v -> store (step c d v) = step c d v.
Hypothesis Hstep_mono : forall c d v w, good v -> good w -> rk v <= rk w ->
  rk (step c d v) <= rk (step c d w).
Hypothesis Hstep_infl : forall c d v, good v -> rk v <= rk (step c d v).

Definition Inv (f : raster T) : Prop :=
  nrows f = rows /\ ncols f = cols /\
  (forall c, inside rows cols c ->
     good (at_ f c) /\ store (at_ f c) = at_ f c /\ rk (at_ dtm c) <= rk (at_ f c)) /\
  (forall c, on_edge rows cols c -> at_ f c = at_ dtm c).

Definition upd (f : raster T) (c : cell) (v : T) : raster T := rset f (fst c) (snd c) v.

Definition localfix (f : raster T) (c : cell) : Prop :=
  forall d, adjacent c d -> rk (at_ f c) <= Z.max (rk (at_ dtm c)) (rk (step c d (at_ f d))).

(** What one visit of an interior cell does. *)
Definition visit_spec (f : raster T) (c : cell) (r : res (raster T * bool)) : Prop :=
  (r = Ok (f, false) /\ localfix f c)
  \/ (exists nv d, r = Ok (upd f c nv, true) /\ adjacent c d
        /\ nv = mx (step c d (at_ f d)) (at_ dtm c)
        /\ rk nv < rk (at_ f c)
        /\ forall e, adjacent c e ->
             rk nv <= Z.max (rk (at_ dtm c)) (rk (step c e (at_ f e)))).

Definition cell_ok (cellf : raster T -> Z -> Z -> res (raster T * bool)) : Prop :=
  forall f c, Inv f ->
    (on_edge rows cols c -> cellf f (fst c) (snd c) = Ok (f, false)) /\
    (interior rows cols c -> visit_spec f c (cellf f (fst c) (snd c))).

(** The common tail of all four cell functions. *)
Lemma tail_ok : forall f c m fv,
  Inv f -> interior rows cols c -> fv = at_ f c ->
  good m -> store m = m -> rk m <= rk fv ->
  (m = fv \/ exists d, adjacent c d /\ m = step c d (at_ f d)) ->
  (forall d, adjacent c d -> rk m <= rk (step c d (at_ f d))) ->
  rk (at_ dtm c) < rk fv ->
  visit_spec f c
    (if negb (neqb ops (mx m (at_ dtm c)) fv) then
       filled' <- wr f (fst c) (snd c) (store (mx m (at_ dtm c))) ;; Ok (filled', true)
     else Ok (f, false)).
Proof.
  intros f c m fv HI Hc Hfv Gm Sm Hmf Hmor Hmall Hlt.
  pose proof (interior_inside _ _ _ Hc) as Hin.
  destruct (Hdtm c Hin) as [Gd Sd].
  destruct HI as (Hr & Hcc & HI & HE). destruct (HI c Hin) as (Gf & Sf & Hdf). subst fv.
  assert (Gn : good (mx m (at_ dtm c))) by (apply is_max_good; auto).
  pose proof (is_max_rk mx m (at_ dtm c) Hmx Gm Gd) as Hrk.
  assert (Sn : store (mx m (at_ dtm c)) = mx m (at_ dtm c)).
  { destruct (Hmx m (at_ dtm c) Gm Gd) as ([->| ->] & _); auto. }
  rewrite Heqb by auto.
  destruct (Z.eqb_spec (rk (mx m (at_ dtm c))) (rk (at_ f c))) as [E|E]; cbn [negb].
  - left. split; [reflexivity|]. intros d Hd. specialize (Hmall d Hd). lia.
  - right. destruct Hmor as [->|(d & Hd & Hm)]; [lia|].
    exists (mx m (at_ dtm c)), d. rewrite Sn. unfold inside in Hin.
    rewrite wr_in by (rewrite ?Hr, ?Hcc; lia). cbn [bind].
    split; [reflexivity|]. split; [exact Hd|]. split; [rewrite Hm; reflexivity|]. split.
    + lia.
    + intros e He. specialize (Hmall e He). lia.
Qed.

Ltac edge_tac cellf :=
  let HE := fresh "HE" in
  intros HE;
  match goal with HI : Inv ?f |- _ =>
    let Hin := fresh "Hin" in
    pose proof (edge_inside _ _ _ HE) as Hin;
    destruct HI as (Hr & Hcc & HI & HEE);
    pose proof (HEE _ HE) as Heq; destruct (Hdtm _ Hin) as [Gd Sd]
  end.

Ltac rd_tac Hr Hcc :=
  repeat (rewrite rd_in by (rewrite ?Hr, ?Hcc; unfold interior, inside in *; cbn [fst snd] in *; lia);
          cbn [bind]).

Lemma fill_cell_edge : forall cellf f c,
  (cellf = fill_cell ops store dtm \/ cellf = fill_cell_cy ops store dtm
   \/ (exists s d, cellf = fill_cell_no_flats ops store s d dtm)
   \/ (exists s d, cellf = fill_cell_no_flats_cy ops store s d dtm)) ->
  Inv f -> on_edge rows cols c -> cellf f (fst c) (snd c) = Ok (f, false).
Proof.
  intros cellf f [r c] Hcf HI HE.
  pose proof (edge_inside _ _ _ HE) as Hin. unfold inside in Hin. cbn [fst snd] in *.
  destruct HI as (Hr & Hcc & HI & HEE). pose proof (HEE _ HE) as Heq.
  destruct (Hdtm _ (edge_inside _ _ _ HE)) as [Gd Sd].
  unfold at_ in *. cbn [fst snd] in *.
  destruct Hcf as [->|[->|[(s & d & ->)|(s & d & ->)]]];
    unfold fill_cell, fill_cell_cy, fill_cell_no_flats, fill_cell_no_flats_cy;
    rewrite !rd_in by (rewrite ?Hr, ?Hcc; lia); cbn [bind]; rewrite Heq.
  - rewrite Hleb by auto. rewrite Z.leb_refl. reflexivity.
  - rewrite Hltb by auto. rewrite Z.ltb_irrefl. reflexivity.
  - rewrite Hleb by auto. rewrite Z.leb_refl. reflexivity.
  - rewrite Hltb by auto. rewrite Z.ltb_irrefl. reflexivity.
Qed.

(** *** fill_terrain: the step is the identity *)

Lemma fill_chain : forall mn f r c fv, is_min mn -> Inv f -> interior rows cols (r, c) ->
  (forall c d v, step c d v = v) -> fv = at_ f (r, c) ->
  let m := fold_left (fun m x => mn x m) (map (at_ f) (nbrs8 r c)) fv in
  good m /\ store m = m /\ rk m <= rk fv /\
  (m = fv \/ exists d, adjacent (r, c) d /\ m = step (r, c) d (at_ f d)) /\
  (forall d, adjacent (r, c) d -> rk m <= rk (step (r, c) d (at_ f d))).
Proof.
  intros mn f r c fv Hmn HI Hc Hid -> m.
  destruct HI as (Hr & Hcc & HI & HE).
  assert (Hn : forall d, In d (nbrs8 r c) -> good (at_ f d) /\ store (at_ f d) = at_ f d).
  { intros d Hd. apply adjacent_nbrs8 in Hd. pose proof (adjacent_inside _ _ _ _ Hc Hd) as Hi.
    destruct (HI d Hi) as (? & ? & ?). auto. }
  destruct (HI _ (interior_inside _ _ _ Hc)) as (Gf & Sf & _).
  destruct (chain_min mn Hmn (map (at_ f) (nbrs8 r c)) (at_ f (r, c)) Gf) as (G1 & G2 & G3 & G4).
  { intros x Hx. apply in_map_iff in Hx. destruct Hx as (d & <- & Hd). apply Hn; auto. }
  fold m in G1, G2, G3, G4.
  assert (Hor : m = at_ f (r, c) \/ exists d, adjacent (r, c) d /\ m = at_ f d).
  { destruct G2 as [G2|G2]; [left; auto|]. right. apply in_map_iff in G2.
    destruct G2 as (d & E & Hd). exists d. split; [apply adjacent_nbrs8; auto | auto]. }
  repeat split; auto.
  - destruct Hor as [->|(d & Hd & ->)]; auto. apply Hn. apply adjacent_nbrs8; auto.
  - destruct Hor as [->|(d & Hd & ->)]; auto. right. exists d. rewrite Hid. auto.
  - intros d Hd. rewrite Hid. apply G4. apply in_map. apply adjacent_nbrs8; auto.
Qed.

Lemma fill_cell_ok : mx = pymax ops -> (forall c d v, step c d v = v) ->
  cell_ok (fill_cell ops store dtm).
Proof.
  intros Emx Hid f [r c] HI. split; [apply fill_cell_edge; auto|]. intros Hc. cbn [fst snd].
  pose proof HI as (Hr & Hcc & HI' & HE).
  destruct (HI' _ (interior_inside _ _ _ Hc)) as (Gf & Sf & Hdf).
  destruct (Hdtm _ (interior_inside _ _ _ Hc)) as (Gd & Sd).
  unfold fill_cell.
  rd_tac Hr Hcc. 
  change (rget f r c) with (at_ f (r, c)). change (rget dtm r c) with (at_ dtm (r, c)).
  rewrite Hleb by auto. destruct (Z.leb_spec (rk (at_ f (r, c))) (rk (at_ dtm (r, c)))) as [Hle|Hlt].
  - left. split; [reflexivity|]. intros d Hd. lia.
  - rd_tac Hr Hcc.
    destruct (fill_chain (pymin ops) f r c _ pymin_is_min HI Hc Hid eq_refl) as (G1 & G2 & G3 & G4 & G5).
    rewrite <- Emx.
    exact (tail_ok f (r, c) _ _ HI Hc eq_refl G1 G2 G3 G4 G5 Hlt).
Qed.

Lemma fill_cell_cy_ok : mx = cy_max ops -> (forall c d v, step c d v = v) ->
  cell_ok (fill_cell_cy ops store dtm).
Proof.
  intros Emx Hid f [r c] HI. split; [apply fill_cell_edge; auto|]. intros Hc. cbn [fst snd].
  pose proof HI as (Hr & Hcc & HI' & HE).
  destruct (HI' _ (interior_inside _ _ _ Hc)) as (Gf & Sf & Hdf).
  destruct (Hdtm _ (interior_inside _ _ _ Hc)) as (Gd & Sd).
  unfold fill_cell_cy.
  rd_tac Hr Hcc. 
  change (rget f r c) with (at_ f (r, c)). change (rget dtm r c) with (at_ dtm (r, c)).
  rewrite Hltb by auto. destruct (Z.ltb_spec (rk (at_ dtm (r, c))) (rk (at_ f (r, c)))) as [Hlt|Hle].
  - rd_tac Hr Hcc.
    destruct (fill_chain (cy_min ops) f r c _ cymin_is_min HI Hc Hid eq_refl) as (G1 & G2 & G3 & G4 & G5).
    rewrite <- Emx.
    exact (tail_ok f (r, c) _ _ HI Hc eq_refl G1 G2 G3 G4 G5 Hlt).
  - left. split; [reflexivity|]. intros d Hd. lia.
Qed.

(** *** fill_terrain_no_flats: the step adds short or diag *)

Lemma min4 : forall mn a b c d, is_min mn -> good a -> good b -> good c -> good d ->
  let m := mn a (mn b (mn c d)) in
  good m /\ (m = a \/ m = b \/ m = c \/ m = d) /\ rk m <= rk a /\ rk m <= rk b /\ rk m <= rk c /\ rk m <= rk d.
Proof.
  intros mn a b c d Hmn Ga Gb Gc Gd m.
  destruct (Hmn c d Gc Gd) as (O1 & A1 & A2).
  assert (G1 : good (mn c d)) by (destruct O1 as [->| ->]; auto).
  destruct (Hmn b (mn c d) Gb G1) as (O2 & B1 & B2).
  assert (G2 : good (mn b (mn c d))) by (destruct O2 as [->| ->]; auto).
  destruct (Hmn a _ Ga G2) as (O3 & C1 & C2).
  assert (G3 : good m) by (destruct O3 as [E|E]; unfold m; rewrite E; auto).
  fold m in O3, C1, C2.
  repeat split; auto; try lia.
  clearbody m. intuition congruence.
Qed.

Lemma nf_chain : forall mn f r c fv short diag, is_min mn -> Inv f -> interior rows cols (r, c) ->
  (forall c d v, step c d v = nadd ops v (if diagonalb c d then diag else short)) ->
  fv = at_ f (r, c) ->
  let A := nadd ops (mn (at_ f (r-1, c-1)) (mn (at_ f (r-1, c+1)) (mn (at_ f (r+1, c-1)) (at_ f (r+1, c+1))))) diag in
  let B := nadd ops (mn (at_ f (r-1, c)) (mn (at_ f (r, c-1)) (mn (at_ f (r, c+1)) (at_ f (r+1, c))))) short in
  let m := mn (mn A B) fv in
  good m /\ store m = m /\ rk m <= rk fv /\
  (m = fv \/ exists d, adjacent (r, c) d /\ m = step (r, c) d (at_ f d)) /\
  (forall d, adjacent (r, c) d -> rk m <= rk (step (r, c) d (at_ f d))).
Proof.
  intros mn f r c fv short diag Hmn HI Hc Hst -> A B m.
  destruct HI as (Hr & Hcc & HI & HE).
  assert (Hn : forall d, adjacent (r, c) d -> good (at_ f d) /\ store (at_ f d) = at_ f d).
  { intros d Hd. pose proof (adjacent_inside _ _ _ _ Hc Hd) as Hi.
    destruct (HI d Hi) as (? & ? & ?). auto. }
  destruct (HI _ (interior_inside _ _ _ Hc)) as (Gf & Sf & _).
  assert (Hadj : forall d, In d (nbrs8 r c) -> adjacent (r, c) d) by (intros; apply adjacent_nbrs8; auto).
  assert (a1 : adjacent (r, c) (r-1, c-1)) by (apply Hadj; cbn; auto 12).
  assert (a2 : adjacent (r, c) (r-1, c+1)) by (apply Hadj; cbn; auto 12).
  assert (a3 : adjacent (r, c) (r+1, c-1)) by (apply Hadj; cbn; auto 12).
  assert (a4 : adjacent (r, c) (r+1, c+1)) by (apply Hadj; cbn; auto 12).
  assert (b1 : adjacent (r, c) (r-1, c)) by (apply Hadj; cbn; auto 12).
  assert (b2 : adjacent (r, c) (r, c-1)) by (apply Hadj; cbn; auto 12).
  assert (b3 : adjacent (r, c) (r, c+1)) by (apply Hadj; cbn; auto 12).
  assert (b4 : adjacent (r, c) (r+1, c)) by (apply Hadj; cbn; auto 12).
  assert (D1 : forall v r' c', r' <> r -> c' <> c -> step (r, c) (r', c') v = nadd ops v diag).
  { intros v r' c' H1 H2. rewrite Hst. unfold diagonalb. cbn [fst snd].
    destruct (Z.eqb_spec r r'), (Z.eqb_spec c c'); try lia. reflexivity. }
  assert (D2 : forall v r' c', r' = r \/ c' = c -> step (r, c) (r', c') v = nadd ops v short).
  { intros v r' c' H1. rewrite Hst. unfold diagonalb. cbn [fst snd].
    destruct (Z.eqb_spec r r'), (Z.eqb_spec c c'); try lia; reflexivity. }
  pose proof (proj1 (Hn _ a1)) as g1. pose proof (proj1 (Hn _ a2)) as g2.
  pose proof (proj1 (Hn _ a3)) as g3. pose proof (proj1 (Hn _ a4)) as g4.
  pose proof (proj1 (Hn _ b1)) as h1. pose proof (proj1 (Hn _ b2)) as h2.
  pose proof (proj1 (Hn _ b3)) as h3. pose proof (proj1 (Hn _ b4)) as h4.
  destruct (min4 mn _ _ _ _ Hmn g1 g2 g3 g4) as (GA & OA & A1 & A2 & A3 & A4).
  destruct (min4 mn _ _ _ _ Hmn h1 h2 h3 h4) as (GB & OB & B1 & B2 & B3 & B4).
  set (ma := mn (at_ f (r-1, c-1)) (mn (at_ f (r-1, c+1)) (mn (at_ f (r+1, c-1)) (at_ f (r+1, c+1))))) in *.
  set (mb := mn (at_ f (r-1, c)) (mn (at_ f (r, c-1)) (mn (at_ f (r, c+1)) (at_ f (r+1, c))))) in *.
  assert (EA : exists d, adjacent (r, c) d /\ A = step (r, c) d (at_ f d)).
  { unfold A. destruct OA as [->|[->|[->| ->]]];
      [exists (r-1, c-1) | exists (r-1, c+1) | exists (r+1, c-1) | exists (r+1, c+1)];
      (split; [assumption|]); rewrite D1 by lia; reflexivity. }
  assert (EB : exists d, adjacent (r, c) d /\ B = step (r, c) d (at_ f d)).
  { unfold B. destruct OB as [->|[->|[->| ->]]];
      [exists (r-1, c) | exists (r, c-1) | exists (r, c+1) | exists (r+1, c)];
      (split; [assumption|]); rewrite D2 by lia; reflexivity. }
  assert (LA : forall d, In d [(r-1, c-1); (r-1, c+1); (r+1, c-1); (r+1, c+1)] -> rk A <= rk (step (r, c) d (at_ f d))).
  { intros d Hd. unfold A. rewrite <- (D1 ma (r-1) (c-1)) by lia.
    assert (E : step (r, c) (r-1, c-1) ma = step (r, c) d ma).
    { rewrite (D1 ma (r-1) (c-1)) by lia.
      cbn in Hd. destruct Hd as [<-|[<-|[<-|[<-|[]]]]]; rewrite D1 by lia; reflexivity. }
    rewrite E. cbn in Hd. apply Hstep_mono; auto;
      destruct Hd as [<-|[<-|[<-|[<-|[]]]]]; auto. }
  assert (LB : forall d, In d [(r-1, c); (r, c-1); (r, c+1); (r+1, c)] -> rk B <= rk (step (r, c) d (at_ f d))).
  { intros d Hd. unfold B. rewrite <- (D2 mb (r-1) c) by lia.
    assert (E : step (r, c) (r-1, c) mb = step (r, c) d mb).
    { rewrite (D2 mb (r-1) c) by lia.
      cbn in Hd. destruct Hd as [<-|[<-|[<-|[<-|[]]]]]; rewrite D2 by lia; reflexivity. }
    rewrite E. cbn in Hd. apply Hstep_mono; auto;
      destruct Hd as [<-|[<-|[<-|[<-|[]]]]]; auto. }
  destruct EA as (dA & HdA & EA). destruct EB as (dB & HdB & EB).
  assert (GAA : good A) by (rewrite EA; apply Hstep_good; apply Hn; auto).
  assert (GBB : good B) by (rewrite EB; apply Hstep_good; apply Hn; auto).
  assert (SA : store A = A) by (rewrite EA; apply Hstep_stored; apply Hn; auto).
  assert (SB : store B = B) by (rewrite EB; apply Hstep_stored; apply Hn; auto).
  clearbody A B. clear ma mb OA OB GA GB A1 A2 A3 A4 B1 B2 B3 B4.
  destruct (Hmn A B GAA GBB) as (O1 & L1 & L2).
  assert (G1 : good (mn A B)) by (destruct O1 as [->| ->]; auto).
  destruct (Hmn (mn A B) (at_ f (r, c)) G1 Gf) as (O2 & L3 & L4). fold m in O2, L3, L4.
  assert (Hm : m = A \/ m = B \/ m = at_ f (r, c)).
  { destruct O2 as [->| ->]; auto. destruct O1 as [->| ->]; auto. }
  split; [|split; [|split; [|split]]].
  - destruct Hm as [->|[->| ->]]; auto.
  - destruct Hm as [->|[->| ->]]; auto.
  - lia.
  - destruct Hm as [->|[->| ->]]; [right; eauto | right; eauto | left; auto].
  - intros d Hd. apply adjacent_nbrs8 in Hd. cbn in Hd.
    assert (HD : In d [(r-1, c-1); (r-1, c+1); (r+1, c-1); (r+1, c+1)] \/ In d [(r-1, c); (r, c-1); (r, c+1); (r+1, c)]).
    { cbn. intuition auto. }
    destruct HD as [HD|HD]; [specialize (LA d HD) | specialize (LB d HD)]; lia.
Qed.

Lemma fill_cell_no_flats_ok : forall short diag, mx = pymax ops ->
  (forall c d v, step c d v = nadd ops v (if diagonalb c d then diag else short)) ->
  cell_ok (fill_cell_no_flats ops store short diag dtm).
Proof.
  intros short diag Emx Hst f [r c] HI. split; [apply fill_cell_edge; eauto 6|]. intros Hc. cbn [fst snd].
  pose proof HI as (Hr & Hcc & HI' & HE).
  destruct (HI' _ (interior_inside _ _ _ Hc)) as (Gf & Sf & Hdf).
  destruct (Hdtm _ (interior_inside _ _ _ Hc)) as (Gd & Sd).
  unfold fill_cell_no_flats.
  rd_tac Hr Hcc. 
  change (rget f r c) with (at_ f (r, c)). change (rget dtm r c) with (at_ dtm (r, c)).
  rewrite Hleb by auto. destruct (Z.leb_spec (rk (at_ f (r, c))) (rk (at_ dtm (r, c)))) as [Hle|Hlt].
  - left. split; [reflexivity|]. intros d Hd. lia.
  - rd_tac Hr Hcc.
    destruct (nf_chain (pymin ops) f r c _ short diag pymin_is_min HI Hc Hst eq_refl) as (G1 & G2 & G3 & G4 & G5).
    rewrite <- Emx.
    exact (tail_ok f (r, c) _ _ HI Hc eq_refl G1 G2 G3 G4 G5 Hlt).
Qed.

Lemma fill_cell_no_flats_cy_ok : forall short diag, mx = cy_max ops ->
  (forall c d v, step c d v = nadd ops v (if diagonalb c d then diag else short)) ->
  cell_ok (fill_cell_no_flats_cy ops store short diag dtm).
Proof.
  intros short diag Emx Hst f [r c] HI. split; [apply fill_cell_edge; eauto 6|]. intros Hc. cbn [fst snd].
  pose proof HI as (Hr & Hcc & HI' & HE).
  destruct (HI' _ (interior_inside _ _ _ Hc)) as (Gf & Sf & Hdf).
  destruct (Hdtm _ (interior_inside _ _ _ Hc)) as (Gd & Sd).
  unfold fill_cell_no_flats_cy.
  rd_tac Hr Hcc. 
  change (rget f r c) with (at_ f (r, c)). change (rget dtm r c) with (at_ dtm (r, c)).
  rewrite Hltb by auto. destruct (Z.ltb_spec (rk (at_ dtm (r, c))) (rk (at_ f (r, c)))) as [Hlt|Hle].
  - rd_tac Hr Hcc.
    destruct (nf_chain (cy_min ops) f r c _ short diag cymin_is_min HI Hc Hst eq_refl) as (G1 & G2 & G3 & G4 & G5).
    rewrite <- Emx.
    exact (tail_ok f (r, c) _ _ HI Hc eq_refl G1 G2 G3 G4 G5 Hlt).
  - left. split; [reflexivity|]. intros d Hd. lia.
Qed.

(** ** Invariants of a visit *)

Notation rcost := (route_cost rows cols mx step (at_ dtm)).
Notation Drains := (drains (fun x y => rk x <= rk y) rows cols).

Definition Backed (f : raster T) : Prop :=
  forall c, inside rows cols c -> at_ f c = inf \/ rcost c (at_ f c).

Definition AllDrain (f : raster T) : Prop :=
  forall c, inside rows cols c -> Drains (at_ f) c.

(** Every settled interior cell stands at least one step above some neighbour. *)
Definition Supp (f : raster T) : Prop :=
  forall c, interior rows cols c -> at_ f c = inf \/
    exists d, adjacent c d /\ rk (step c d (at_ f d)) <= rk (at_ f c).

Definition St (f : raster T) : Prop := Inv f /\ Backed f /\ AllDrain f /\ Supp f.

Definition below (f g : raster T) : Prop :=
  forall c, inside rows cols c -> rk (at_ f c) <= rk (at_ g c).

Definition measure (f : raster T) : Z :=
  fold_right (fun c a => rk (at_ f c) - rk (at_ dtm c) + a) 0 (cells_of rows cols).

Lemma measure_nonneg : forall f, Inv f -> 0 <= measure f.
Proof.
  intros f (_ & _ & HI & _). unfold measure.
  assert (forall l, (forall c, In c l -> inside rows cols c) ->
            0 <= fold_right (fun c a => rk (at_ f c) - rk (at_ dtm c) + a) 0 l).
  { induction l as [|c l IH]; intros Hl; cbn [fold_right]; [lia|].
    assert (0 <= fold_right (fun c a => rk (at_ f c) - rk (at_ dtm c) + a) 0 l)
      by (apply IH; intros; apply Hl; right; auto).
    destruct (HI c) as (_ & _ & H1); [apply Hl; left; auto|]. lia. }
  apply H. intros c Hc. apply in_cells_of; auto.
Qed.

Lemma at_upd_same : forall f c v, at_ (upd f c v) c = v.
Proof. intros. apply at_rset_same. Qed.
Lemma at_upd_other : forall f c d v, d <> c -> at_ (upd f c v) d = at_ f d.
Proof. intros. apply at_rset_other; auto. Qed.

Lemma measure_upd : forall f c v, inside rows cols c -> rk v < rk (at_ f c) ->
  measure (upd f c v) < measure f.
Proof.
  intros f c v Hc Hlt. unfold measure.
  assert (H : forall l, NoDup l ->
     (In c l -> fold_right (fun e a => rk (at_ (upd f c v) e) - rk (at_ dtm e) + a) 0 l
                < fold_right (fun e a => rk (at_ f e) - rk (at_ dtm e) + a) 0 l) /\
     (~ In c l -> fold_right (fun e a => rk (at_ (upd f c v) e) - rk (at_ dtm e) + a) 0 l
                = fold_right (fun e a => rk (at_ f e) - rk (at_ dtm e) + a) 0 l)).
  { induction l as [|e l IH]; intros Hnd; cbn [fold_right In]; [split; [tauto | reflexivity]|].
    inversion Hnd; subst. destruct (IH H2) as [IH1 IH2]. split.
    - intros [->|Hin].
      + rewrite at_upd_same. rewrite IH2 by auto. lia.
      + assert (e <> c) by (intros ->; auto). rewrite at_upd_other by auto.
        specialize (IH1 Hin). lia.
    - intros Hn. rewrite at_upd_other by (intros ->; apply Hn; left; auto).
      rewrite IH2; [reflexivity | tauto]. }
  apply H; [apply cells_of_NoDup | apply in_cells_of; auto].
Qed.

Lemma drains_inside : forall f c, Drains f c -> inside rows cols c.
Proof. intros f c H. destruct H; auto. apply edge_inside; auto. Qed.

Section OneUpdate.
Variable f : raster T.
Hypothesis HI : Inv f.
Variables (c d : cell) (nv : T).
Hypothesis Hc : interior rows cols c.
Hypothesis Hd : adjacent c d.
Hypothesis Hnv : nv = mx (step c d (at_ f d)) (at_ dtm c).
Hypothesis Hlt : rk nv < rk (at_ f c).

Lemma upd_facts : good nv /\ store nv = nv /\ rk (at_ dtm c) <= rk nv /\ rk (at_ f d) <= rk nv.
Proof.
  destruct HI as (_ & _ & HI' & _).
  destruct (HI' d (adjacent_inside _ _ _ _ Hc Hd)) as (Gd & Sd & _).
  destruct (Hdtm c (interior_inside _ _ _ Hc)) as (Gt & Stt).
  assert (Gs : good (step c d (at_ f d))) by auto.
  pose proof (Hmx _ _ Gs Gt) as (O & L1 & L2). rewrite <- Hnv in *.
  pose proof (Hstep_infl c d (at_ f d) Gd).
  split; [|split; [|split; [exact L2 | lia]]].
  - destruct O as [->| ->]; auto.
  - destruct O as [->| ->]; auto.
Qed.

Lemma upd_Inv : Inv (upd f c nv).
Proof.
  destruct upd_facts as (G & S & D & _).
  destruct HI as (Hr & Hcc & HI' & HE). split; [exact Hr|]. split; [exact Hcc|]. split.
  - intros e He. destruct (cell_eq_dec e c) as [->|Hne].
    + rewrite at_upd_same. auto.
    + rewrite at_upd_other by auto. auto.
  - intros e He. rewrite at_upd_other; auto. intros ->.
    apply (interior_not_edge _ _ _ Hc He).
Qed.

Lemma upd_Backed : Backed f -> Backed (upd f c nv).
Proof.
  intros HB e He. destruct (cell_eq_dec e c) as [->|Hne].
  - rewrite at_upd_same. right. rewrite Hnv. apply rc_step; auto.
    destruct (HB d (adjacent_inside _ _ _ _ Hc Hd)) as [Ei|Er]; auto.
    exfalso. destruct upd_facts as (_ & _ & _ & H). rewrite Ei in H.
    destruct HI as (_ & _ & HI' & _). destruct (HI' c He) as (Gc & _ & _).
    pose proof (Hinfmax _ Gc). lia.
  - rewrite at_upd_other by auto. auto.
Qed.

Lemma upd_drains_low : forall e, Drains (at_ f) e -> rk (at_ f e) < rk (at_ f c) ->
  Drains (at_ (upd f c nv)) e.
Proof.
  intros e He. induction He as [e He | e e' Hi Ha Hle He' IH]; intros Hl.
  - apply dr_edge; auto.
  - assert (e <> c) by (intros ->; lia). assert (e' <> c) by (intros ->; lia).
    apply dr_step with e'; auto.
    + rewrite !at_upd_other by auto. exact Hle.
    + apply IH. lia.
Qed.

Lemma upd_AllDrain : AllDrain f -> AllDrain (upd f c nv).
Proof.
  intros HD. destruct upd_facts as (_ & _ & _ & Hdn).
  pose proof (adjacent_inside _ _ _ _ Hc Hd) as Hdi.
  assert (Hdc : d <> c) by (intros ->; destruct Hd as [H _]; auto).
  assert (Hnew : Drains (at_ (upd f c nv)) c).
  { apply dr_step with d; auto.
    - apply interior_inside; auto.
    - rewrite at_upd_same, at_upd_other by auto. exact Hdn.
    - apply upd_drains_low; [apply HD; auto | lia]. }
  intros e He. specialize (HD e He).
  clear He. induction HD as [e He | e e' Hi Ha Hle He' IH].
  - apply dr_edge; auto.
  - destruct (cell_eq_dec e c) as [->|Hne]; auto.
    apply dr_step with e'; auto. rewrite (at_upd_other _ _ e) by auto.
    destruct (cell_eq_dec e' c) as [->|Hne'].
    + rewrite at_upd_same. lia.
    + rewrite at_upd_other by auto. exact Hle.
Qed.

Lemma upd_Supp : Supp f -> Supp (upd f c nv).
Proof.
  intros HS e He. destruct HI as (_ & _ & HI' & _).
  assert (Hdc : d <> c) by (intros ->; destruct Hd as [H _]; auto).
  destruct (HI' d (adjacent_inside _ _ _ _ Hc Hd)) as (Gd & _ & _).
  destruct (Hdtm c (interior_inside _ _ _ Hc)) as (Gt & _).
  destruct upd_facts as (Gn & _ & _ & _).
  destruct (cell_eq_dec e c) as [->|Hne].
  - right. exists d. split; [auto|]. rewrite at_upd_same, at_upd_other by auto.
    rewrite Hnv. rewrite is_max_rk by auto. lia.
  - rewrite at_upd_other by auto. destruct (HS e He) as [E|(e' & Ha & Hle)]; [left; auto|].
    right. exists e'. split; [auto|]. destruct (cell_eq_dec e' c) as [->|Hne'].
    + rewrite at_upd_same. destruct (HI' c (interior_inside _ _ _ Hc)) as (Gc & _ & _).
      assert (rk (step e c nv) <= rk (step e c (at_ f c))) by (apply Hstep_mono; auto; lia). lia.
    + rewrite at_upd_other by auto. auto.
Qed.

Lemma upd_St : St f -> St (upd f c nv).
Proof.
  intros (_ & HB & HD & HU). split; [apply upd_Inv|].
  split; [apply upd_Backed; auto|]. split; [apply upd_AllDrain; auto | apply upd_Supp; auto].
Qed.

Lemma upd_below : below (upd f c nv) f.
Proof.
  intros e He. destruct (cell_eq_dec e c) as [->|Hne].
  - rewrite at_upd_same. lia.
  - rewrite at_upd_other by auto. lia.
Qed.
End OneUpdate.

(** ** Sweeps *)

Variable cellf : raster T -> Z -> Z -> res (raster T * bool).
Hypothesis Hcellf : cell_ok cellf.

Definition run_cells (l : list cell) (st : raster T * bool) : res (raster T * bool) :=
  mfold (fun st c => '(f', ch) <- cellf (fst st) (fst c) (snd c) ;;
                     Ok (f', if ch : bool then true else snd st)) l st.

Definition grid (rs cs : list Z) : list cell := flat_map (fun r => map (fun c => (r, c)) cs) rs.

Lemma in_grid : forall rs cs r c, In (r, c) (grid rs cs) <-> In r rs /\ In c cs.
Proof.
  intros. unfold grid. rewrite in_flat_map. split.
  - intros (r' & Hr & H). apply in_map_iff in H. destruct H as (c' & E & H). inversion E; subst. auto.
  - intros [Hr Hc]. exists r. split; auto. apply in_map_iff. exists c. auto.
Qed.

Lemma run_grid : forall rs cs st,
  mfold (fun st r => mfold (fun st c => '(f', ch) <- cellf (fst st) r c ;;
                                         Ok (f', if ch : bool then true else snd st)) cs st) rs st
  = run_cells (grid rs cs) st.
Proof.
  intros rs cs st. unfold run_cells, grid. rewrite mfold_flat_map.
  apply mfold_ext. intros a r. rewrite mfold_map. reflexivity.
Qed.

Lemma visit_cases : forall f c, St f -> inside rows cols c ->
  exists f' ch, cellf f (fst c) (snd c) = Ok (f', ch) /\ St f' /\ below f' f /\
    (ch = false -> f' = f /\ (interior rows cols c -> localfix f c)) /\
    (ch = true -> measure f' < measure f) /\
    (forall e, e <> c -> at_ f' e = at_ f e) /\
    (interior rows cols c -> forall d, adjacent c d ->
       rk (at_ f' c) <= Z.max (rk (at_ dtm c)) (rk (step c d (at_ f d)))).
Proof.
  intros f c HS Hin. pose proof HS as (HI & HB & HD & HU).
  destruct (Hcellf f c HI) as [HcE HcI].
  destruct (inside_cases _ _ _ Hin) as [He|Hi].
  - exists f, false. rewrite (HcE He). pose proof (interior_not_edge rows cols c).
    split; [reflexivity|]. split; [exact HS|]. split; [intros e _; lia|].
    split; [intros _; split; [reflexivity | tauto]|].
    split; [discriminate|]. split; [auto | tauto].
  - destruct (HcI Hi) as [[E Hfix] | (nv & d & E & Ha & Hnv & Hlt & Hall)].
    + exists f, false. rewrite E.
      split; [reflexivity|]. split; [exact HS|]. split; [intros e _; lia|].
      split; [intros _; split; auto|].
      split; [discriminate|]. split; [auto | intros _ e Hae; apply Hfix; auto].
    + exists (upd f c nv), true. rewrite E.
      split; [reflexivity|]. split; [apply (upd_St f HI c d nv); auto|].
      split; [apply upd_below; auto|].
      split; [discriminate|]. split; [intros _; apply measure_upd; auto|].
      split; [intros e Hne; apply at_upd_other; auto|].
      intros _ e Hae. rewrite at_upd_same. auto.
Qed.

Lemma below_trans : forall f g h, below f g -> below g h -> below f h.
Proof. intros f g h H1 H2 c Hc. specialize (H1 c Hc). specialize (H2 c Hc). lia. Qed.

Lemma run_cells_ok : forall l f b, St f -> (forall c, In c l -> inside rows cols c) ->
  exists f' b', run_cells l (f, b) = Ok (f', b') /\ St f' /\ below f' f /\
    (b' = false -> b = false /\ f' = f /\ forall c, In c l -> interior rows cols c -> localfix f c) /\
    (measure f' <= measure f) /\
    (b' = true -> b = true \/ measure f' < measure f) /\
    (forall e, ~ In e l -> at_ f' e = at_ f e) /\
    (b = true -> b' = true).
Proof.
  induction l as [|c l IH]; intros f b HS Hl.
  - exists f, b. cbn. repeat split; auto; try apply HS; try lia; try tauto.
    intros e _; lia.
  - destruct (visit_cases f c HS (Hl c (or_introl eq_refl))) as (f1 & ch & E & HS1 & Hb1 & Hf & Ht & Ho & _).
    destruct (IH f1 (if ch then true else b) HS1) as (f2 & b2 & E2 & HS2 & Hb2 & Hf2 & Hm2 & Ht2 & Ho2 & Hk2).
    { intros e He. apply Hl. right; auto. }
    exists f2, b2. cbn [run_cells mfold fst]. unfold run_cells in E2. rewrite E. cbn [bind fst snd].
    rewrite E2. split; [reflexivity|]. split; [auto|]. split; [apply (below_trans _ f1); auto|].
    assert (Hm1 : measure f1 <= measure f).
    { destruct ch; [specialize (Ht eq_refl); lia|]. destruct (Hf eq_refl) as [-> _]. lia. }
    split; [|split; [lia|split; [|split]]].
    + intros Hb. destruct (Hf2 Hb) as (Hb' & -> & Hfix). destruct ch; [discriminate|].
      destruct (Hf eq_refl) as [-> Hlf]. split; [auto|]. split; [auto|].
      intros e [<-|He] Hi; auto.
    + intros Hb. destruct (Ht2 Hb) as [Hb'|Hlt].
      * destruct ch; [right; specialize (Ht eq_refl); lia | left; auto].
      * right. lia.
    + intros e He. rewrite Ho2 by (intros C; apply He; right; auto).
      apply Ho. intros ->. apply He. left; auto.
    + intros ->. apply Hk2. destruct ch; reflexivity.
Qed.

(** ** The loop *)

Definition Fix (f : raster T) : Prop := forall c, interior rows cols c -> localfix f c.

(** [sweep] behaves like a run over cells of the raster, for the four calls in the loop. *)
Definition sweep_ok (sweep : raster T -> Z -> Z -> Z -> Z -> res (raster T * bool)) (cover : Prop) : Prop :=
  forall f a b c d, St f ->
    (a, b, c, d) = (1, rows - 2, 1, cols - 2) \/ (a, b, c, d) = (rows - 2, 1, cols - 2, 1) \/
    (a, b, c, d) = (1, rows - 2, cols - 2, 1) \/ (a, b, c, d) = (rows - 2, 1, 1, cols - 2) ->
    exists l, (forall e, In e l -> inside rows cols e) /\
              (cover -> forall e, interior rows cols e -> In e l) /\
              sweep f a b c d = run_cells l (f, false).

Lemma one_sweep : forall sweep cover, sweep_ok sweep cover -> forall f a b c d, St f ->
    (a, b, c, d) = (1, rows - 2, 1, cols - 2) \/ (a, b, c, d) = (rows - 2, 1, cols - 2, 1) \/
    (a, b, c, d) = (1, rows - 2, cols - 2, 1) \/ (a, b, c, d) = (rows - 2, 1, 1, cols - 2) ->
  exists f' ch, sweep f a b c d = Ok (f', ch) /\ St f' /\ below f' f /\
    (ch = false -> f' = f /\ (cover -> Fix f')) /\ (ch = true -> measure f' < measure f).
Proof.
  intros sweep cover Hsw f a b c d HS Hcase.
  destruct (Hsw f a b c d HS Hcase) as (l & Hl & Hcov & E).
  destruct (run_cells_ok l f false HS Hl) as (f' & b' & E' & HS' & Hb & Hf & Hm & Ht & _).
  exists f', b'. rewrite E, E'. split; [reflexivity|]. split; [auto|]. split; [auto|]. split.
  - intros Hb'. destruct (Hf Hb') as (_ & -> & Hfix). split; [reflexivity|].
    intros Hc e He. apply Hfix; auto.
  - intros Hb'. destruct (Ht Hb') as [?|?]; [discriminate | auto].
Qed.

Lemma loop_ok : forall sweep cover, sweep_ok sweep cover -> forall k f, St f -> measure f < Z.of_nat k ->
  exists f', St f' /\ below f' f /\ (cover -> Fix f') /\
    forall fuel, (fuel >= k)%nat -> fill_loop sweep fuel f = Ok f'.
Proof.
  intros sweep cover Hsw. induction k as [|k IH]; intros f HS Hm.
  - destruct HS as (HI & _). pose proof (measure_nonneg f HI). lia.
  - pose proof HS as ((Hr & Hc & _) & _).
    destruct (one_sweep sweep cover Hsw f 1 (rows - 2) 1 (cols - 2) HS) as (f1 & c1 & E1 & S1 & B1 & F1 & T1); [auto|].
    destruct c1.
    2:{ destruct (F1 eq_refl) as [-> Hfix]. exists f. split; [auto|]. split; [intros e _; lia|]. split; [auto|].
        intros fuel Hfuel. destruct fuel as [|fuel]; [lia|]. cbn [fill_loop]. rewrite Hr, Hc, E1. reflexivity. }
    destruct (one_sweep sweep cover Hsw f1 (rows - 2) 1 (cols - 2) 1 S1) as (f2 & c2 & E2 & S2 & B2 & F2 & T2); [auto|].
    destruct c2.
    2:{ destruct (F2 eq_refl) as [-> Hfix]. exists f1. split; [auto|]. split; [auto|]. split; [auto|].
        intros fuel Hfuel. destruct fuel as [|fuel]; [lia|]. cbn [fill_loop]. rewrite Hr, Hc, E1. cbn [bind].
        rewrite E2. reflexivity. }
    destruct (one_sweep sweep cover Hsw f2 1 (rows - 2) (cols - 2) 1 S2) as (f3 & c3 & E3 & S3 & B3 & F3 & T3); [auto|].
    destruct c3.
    2:{ destruct (F3 eq_refl) as [-> Hfix]. exists f2. split; [auto|].
        split; [apply (below_trans _ f1); auto|]. split; [auto|].
        intros fuel Hfuel. destruct fuel as [|fuel]; [lia|]. cbn [fill_loop]. rewrite Hr, Hc, E1. cbn [bind].
        rewrite E2. cbn [bind]. rewrite E3. reflexivity. }
    destruct (one_sweep sweep cover Hsw f3 (rows - 2) 1 1 (cols - 2) S3) as (f4 & c4 & E4 & S4 & B4 & F4 & T4); [auto|].
    assert (B41 : below f3 f) by (apply (below_trans _ f2); auto; apply (below_trans _ f1); auto).
    destruct c4.
    2:{ destruct (F4 eq_refl) as [-> Hfix]. exists f3. split; [auto|].
        split; [auto|]. split; [auto|].
        intros fuel Hfuel. destruct fuel as [|fuel]; [lia|]. cbn [fill_loop]. rewrite Hr, Hc, E1. cbn [bind].
        rewrite E2. cbn [bind]. rewrite E3. cbn [bind]. rewrite E4. reflexivity. }
    destruct (IH f4 S4) as (f' & S' & B' & Fx & HL).
    { specialize (T1 eq_refl). specialize (T2 eq_refl). specialize (T3 eq_refl). specialize (T4 eq_refl). lia. }
    exists f'. split; [auto|]. split; [apply (below_trans _ f4); auto; apply (below_trans _ f3); auto|]. split; [auto|].
    intros fuel Hfuel. destruct fuel as [|fuel]; [lia|]. cbn [fill_loop]. rewrite Hr, Hc, E1. cbn [bind].
    rewrite E2. cbn [bind]. rewrite E3. cbn [bind]. rewrite E4. cbn [bind]. apply HL. lia.
Qed.

(** ** Initial state *)

Hypothesis Hrows : 2 <= rows.
Hypothesis Hcols : 2 <= cols.

Definition init_f : raster T :=
  mkRaster rows cols (fun i j => if on_edge_b rows cols i j then store (rget dtm i j) else inf).

Lemma initialize_filled_ok : initialize_filled inf store dtm = Ok init_f.
Proof.
  unfold initialize_filled.
  destruct (Z.leb_spec rows 0); [lia|]. destruct (Z.leb_spec cols 0); [lia|]. reflexivity.
Qed.

Lemma init_edge : forall c, on_edge rows cols c -> at_ init_f c = at_ dtm c.
Proof.
  intros [r c] H. pose proof (edge_inside _ _ _ H) as Hin. unfold at_. cbn [rget init_f fst snd].
  destruct H as [_ H]. cbn in H. unfold on_edge_b.
  replace ((r =? 0) || (c =? 0) || (r =? rows - 1) || (c =? cols - 1)) with true.
  - apply (Hdtm (r, c) Hin).
  - symmetry. rewrite !orb_true_iff, !Z.eqb_eq. lia.
Qed.

Lemma init_interior : forall c, interior rows cols c -> at_ init_f c = inf.
Proof.
  intros [r c] H. unfold interior in H. unfold at_. cbn [rget init_f fst snd] in *. unfold on_edge_b.
  replace ((r =? 0) || (c =? 0) || (r =? rows - 1) || (c =? cols - 1)) with false; auto.
  symmetry. rewrite !orb_false_iff, !Z.eqb_neq. lia.
Qed.

(** From any cell of a row one can walk left to the edge. *)
Lemma walk_left : forall (P : cell -> Prop),
  (forall c, on_edge rows cols c -> P c) ->
  (forall r c, interior rows cols (r, c) -> P (r, c - 1) -> P (r, c)) ->
  forall c, inside rows cols c -> P c.
Proof.
  intros P HE HS [r c] Hin.
  assert (H : forall n c, Z.to_nat c = n -> inside rows cols (r, c) -> P (r, c)).
  { induction n as [|n IH]; intros c' En Hi.
    - destruct (inside_cases _ _ _ Hi) as [He|Hn]; auto. unfold interior in Hn. cbn in Hn. lia.
    - destruct (inside_cases _ _ _ Hi) as [He|Hn]; auto. apply HS; auto. apply IH; [lia|].
      unfold interior in Hn. unfold inside. cbn in *. lia. }
  apply (H _ c eq_refl Hin).
Qed.

Lemma init_St : St init_f.
Proof.
  split; [|split; [|split]].
  - split; [reflexivity|]. split; [reflexivity|]. split.
    + intros c Hc. destruct (Hdtm c Hc) as [Gd Sd]. destruct (inside_cases _ _ _ Hc) as [He|Hi].
      * rewrite init_edge by auto. repeat split; auto. lia.
      * rewrite init_interior by auto. repeat split; auto.
    + intros c Hc. apply init_edge; auto.
  - intros c Hc. destruct (inside_cases _ _ _ Hc) as [He|Hi].
    + right. rewrite init_edge by auto. apply rc_edge; auto.
    + left. apply init_interior; auto.
  - intros c Hc. apply (walk_left (Drains (at_ init_f))); auto.
    + intros e He. apply dr_edge; auto.
    + intros r e Hi HD. apply dr_step with (r, e - 1); auto.
      * apply interior_inside; auto.
      * apply adjacent_left.
      * rewrite (init_interior _ Hi). pose proof (drains_inside _ _ HD) as Hin.
        destruct (inside_cases _ _ _ Hin) as [He|Hj].
        -- rewrite init_edge by auto. apply Hinfmax. apply Hdtm; auto.
        -- rewrite init_interior by auto. lia.
  - intros c Hc. left. apply init_interior; auto.
Qed.

(** ** Fixpoints are minimal route costs *)

Lemma route_min : forall mx', is_max mx' -> forall f, Inv f -> Fix f ->
  forall c v, route_cost rows cols mx' step (at_ dtm) c v -> good v /\ rk (at_ f c) <= rk v.
Proof.
  intros mx' Hmx' f HI HF c v H. pose proof HI as (_ & _ & HI' & HE).
  induction H as [c Hc | c d v Hc Ha Hr IH].
  - rewrite (HE c Hc). split; [apply Hdtm; apply edge_inside; auto | lia].
  - destruct IH as [Gv IH]. destruct (Hdtm c (interior_inside _ _ _ Hc)) as [Gd _].
    assert (Gs : good (step c d v)) by auto.
    split; [apply is_max_good; auto|].
    rewrite is_max_rk by auto.
    specialize (HF c Hc d Ha).
    destruct (HI' d (adjacent_inside _ _ _ _ Hc Ha)) as (Gfd & _ & _).
    pose proof (Hstep_mono c d (at_ f d) v Gfd Gv IH). lia.
Qed.

(** Every cell has a route. *)
Lemma route_exists : forall c, inside rows cols c -> exists v, rcost c v.
Proof.
  apply walk_left.
  - intros c Hc. eexists. apply rc_edge; auto.
  - intros r c Hc (v & Hv). eexists. eapply rc_step; eauto. apply adjacent_left.
Qed.

Lemma rcost_good : forall c v, rcost c v -> good v /\ store v = v.
Proof.
  intros c v H. induction H as [c Hc | c d v Hc Ha Hr IH].
  - apply Hdtm. apply edge_inside; auto.
  - destruct IH as [Gv Sv]. destruct (Hdtm c (interior_inside _ _ _ Hc)) as [Gd Sd].
    assert (Gs : good (step c d v)) by auto.
    destruct (Hmx _ _ Gs Gd) as ([->| ->] & _); auto.
Qed.

Lemma rcost_dtm : forall c v, rcost c v -> rk (at_ dtm c) <= rk v.
Proof.
  intros c v H. inversion H as [c0 Hc Ec Ev | c0 d v' Hc Ha Hr Ec Ev]; subst; [lia|].
  destruct (rcost_good _ _ Hr) as [Gv _]. destruct (Hdtm c (interior_inside _ _ _ Hc)) as [Gd _].
  rewrite is_max_rk by auto. lia.
Qed.

(** ** The two sweeps *)

Lemma sweep_py_ok : sweep_ok (sweep_py cellf) True.
Proof.
  intros f a b c d HS Hcase. unfold sweep_py. rewrite run_grid.
  eexists. split; [|split; [|reflexivity]].
  - intros [r e]. rewrite in_grid. unfold inside. cbn [fst snd].
    destruct Hcase as [E|[E|[E|E]]]; inversion E; subst; clear E;
    repeat match goal with |- context [?x <? ?y] => destruct (Z.ltb_spec x y) end;
    rewrite ?in_pyrange_up, ?in_pyrange_down; lia.
  - intros _ [r e]. unfold interior. rewrite in_grid. cbn [fst snd].
    destruct Hcase as [E|[E|[E|E]]]; inversion E; subst; clear E;
    repeat match goal with |- context [?x <? ?y] => destruct (Z.ltb_spec x y) end;
    rewrite ?in_pyrange_up, ?in_pyrange_down; lia.
Qed.

Lemma run_py : exists f' k, St f' /\ Fix f' /\
  forall fuel, (fuel >= k)%nat -> fill_loop (sweep_py cellf) fuel init_f = Ok f'.
Proof.
  pose proof init_St as HS.
  assert (HM : 0 <= measure init_f) by (apply measure_nonneg; apply HS).
  destruct (loop_ok _ _ sweep_py_ok (S (Z.to_nat (measure init_f))) _ HS) as (f' & S' & _ & F' & HL); [lia|].
  exists f', (S (Z.to_nat (measure init_f))). auto.
Qed.

(** Compiled sweeps leave out the last row and column of their range. *)
Definition cy_rows (a b : Z) : list Z := pyrange a b (if a <? b then 1 else -1).

Lemma sweep_cy_grid : forall f a b c d, 0 <= a -> 0 <= b -> 0 <= c -> 0 <= d -> a <> b -> c <> d ->
  sweep_cy cellf f a b c d = run_cells (grid (cy_rows a b) (cy_rows c d)) (f, false).
Proof.
  intros f a b c d Ha Hb Hc Hd Hab Hcd. unfold sweep_cy.
  repeat match goal with
  | |- context [?x <? 0] => destruct (Z.ltb_spec x 0); [lia|]
  | |- context [?x =? ?y] => destruct (Z.eqb_spec x y); [lia|]
  end. cbn [orb]. rewrite run_grid. reflexivity.
Qed.

Lemma in_cy_rows : forall a b x, a <> b -> (In x (cy_rows a b) <-> (a <= x < b \/ b < x <= a)).
Proof.
  intros a b x Hab. unfold cy_rows. destruct (Z.ltb_spec a b);
    rewrite ?in_pyrange_up, ?in_pyrange_down; lia.
Qed.

Lemma sweep_cy_ok : 4 <= rows -> 4 <= cols -> sweep_ok (sweep_cy cellf) False.
Proof.
  intros H4 H4' f a b c d HS Hcase.
  assert (HH : 0 <= a /\ 0 <= b /\ 0 <= c /\ 0 <= d /\ a <> b /\ c <> d)
    by (destruct Hcase as [E|[E|[E|E]]]; inversion E; subst; lia).
  destruct HH as (? & ? & ? & ? & ? & ?).
  eexists. split; [|split; [contradiction|apply sweep_cy_grid; auto]].
  intros [r e]. rewrite in_grid, !in_cy_rows by auto. unfold inside. cbn [fst snd].
  destruct Hcase as [E|[E|[E|E]]]; inversion E; subst; clear E; lia.
Qed.

Section CyFinite.
(** [bnd n] bounds the value n steps away from the edge. *)
Variable bnd : Z -> Z.
Hypothesis Hbnd_mono : forall n m, n <= m -> bnd n <= bnd m.
Hypothesis Hbnd_inf : forall n, n <= rows -> bnd n < rk inf.
Hypothesis Hbnd_step : forall n c d v, 0 <= n < rows -> interior rows cols c -> adjacent c d ->
  good v -> rk (at_ dtm d) <= rk v -> rk v <= bnd n -> rk (step c d v) <= bnd (n + 1).
Hypothesis Hbnd_dtm : forall c, inside rows cols c -> rk (at_ dtm c) <= bnd 0.

Definition fin (n : Z) (f : raster T) (c : cell) : Prop := rk (at_ f c) <= bnd n.

Lemma fin_below : forall n f g c, below f g -> inside rows cols c -> fin n g c -> fin n f c.
Proof. intros n f g c Hb Hc H. specialize (Hb c Hc). unfold fin in *. lia. Qed.

Lemma row_fin : forall n l f b, 0 <= n < rows -> St f ->
  (forall c, In c l -> interior rows cols c /\ exists d, adjacent c d /\ fin n f d) ->
  exists f' b', run_cells l (f, b) = Ok (f', b') /\ St f' /\ below f' f /\
    (forall c, In c l -> fin (n + 1) f' c).
Proof.
  intros n. induction l as [|c l IH]; intros f b Hn HS Hl.
  - exists f, b. split; [reflexivity|]. split; [auto|]. split; [intros e _; lia|]. intros c [].
  - destruct (Hl c (or_introl eq_refl)) as (Hi & d & Ha & Hfd).
    pose proof (interior_inside _ _ _ Hi) as Hin.
    destruct (visit_cases f c HS Hin) as (f1 & ch & E & HS1 & Hb1 & _ & _ & _ & Hv).
    assert (Hf1 : fin (n + 1) f1 c).
    { unfold fin in *. specialize (Hv Hi d Ha). pose proof (Hbnd_dtm c Hin).
      destruct HS as ((_ & _ & HI & _) & _).
      destruct (HI d (adjacent_inside _ _ _ _ Hi Ha)) as (Gd & _ & Hdd).
      pose proof (Hbnd_step n c d (at_ f d) Hn Hi Ha Gd Hdd Hfd).
      pose proof (Hbnd_mono 0 (n + 1)). lia. }
    destruct (IH f1 (if ch then true else b) Hn HS1) as (f2 & b2 & E2 & HS2 & Hb2 & Hfin).
    { intros e He. destruct (Hl e (or_intror He)) as (Hie & d' & Ha' & Hfd'). split; auto.
      exists d'. split; auto. apply (fin_below _ f1 f); auto. apply (adjacent_inside _ _ _ _ Hie Ha'). }
    exists f2, b2. cbn [run_cells mfold fst]. unfold run_cells in E2. rewrite E. cbn [bind fst snd].
    rewrite E2. split; [reflexivity|]. split; [auto|]. split; [apply (below_trans _ f1); auto|].
    intros e [<-|He]; auto. apply (fin_below _ f2 f1); auto.
Qed.

Lemma run_cells_app : forall l1 l2 st, run_cells (l1 ++ l2) st = (st' <- run_cells l1 st ;; run_cells l2 st').
Proof. intros. apply mfold_app. Qed.

Lemma rows_fin : forall cs rs prev f b n, 0 <= n -> n + Z.of_nat (length rs) <= rows -> St f ->
  (forall r c, In r rs -> In c cs -> interior rows cols (r, c)) ->
  (forall c, In c cs -> fin n f (prev, c)) ->
  (forall r, In r rs -> True) ->
  (fix chain p l := match l with [] => True | r :: t => Z.abs (r - p) = 1 /\ chain r t end) prev rs ->
  exists f' b', run_cells (grid rs cs) (f, b) = Ok (f', b') /\ St f' /\ below f' f /\
    (forall c, In c (grid rs cs) -> fin rows f' c).
Proof.
  intros cs. induction rs as [|r rs IH]; intros prev f b n Hn0 Hn HS Hi Hprev _ Hch.
  - exists f, b. split; [reflexivity|]. split; [auto|]. split; [intros e _; lia|]. intros c [].
  - destruct Hch as [Hd Hch]. unfold grid. cbn [flat_map]. fold (grid rs cs). rewrite run_cells_app.
    cbn [length] in Hn.
    destruct (row_fin n (map (fun c => (r, c)) cs) f b) as (f1 & b1 & E1 & S1 & B1 & F1).
    { lia. }
    { auto. }
    { intros c Hc. apply in_map_iff in Hc. destruct Hc as (c' & <- & Hc). split; [apply Hi; [left; auto|auto]|].
      exists (prev, c'). split; [|auto]. unfold adjacent. cbn. split; [intros E; inversion E; lia | lia]. }
    rewrite E1. cbn [bind].
    destruct (IH r f1 b1 (n + 1)) as (f2 & b2 & E2 & S2 & B2 & F2); auto; try lia.
    { intros r' c' Hr' Hc'. apply Hi; [right; auto | auto]. }
    { intros c Hc. apply F1. apply in_map. auto. }
    exists f2, b2. split; [auto|]. split; [auto|]. split; [apply (below_trans _ f1); auto|].
    intros c Hc. apply in_app_iff in Hc. destruct Hc as [Hc|Hc]; auto.
    assert (Hn1 : fin (n + 1) f2 c).
    { apply (fin_below _ f2 f1); auto. apply in_map_iff in Hc. destruct Hc as (c' & <- & Hc).
      apply interior_inside. apply Hi; [left; auto | auto]. }
    unfold fin in *. pose proof (Hbnd_mono (n + 1) rows). lia.
Qed.

Lemma chain_up : forall n a,
  (fix chain p l := match l with [] => True | r :: t => Z.abs (r - p) = 1 /\ chain r t end) (a - 1) (zseq a n).
Proof.
  induction n as [|n IH]; intros a; cbn [zseq]; auto. split; [lia|].
  specialize (IH (a + 1)). replace (a + 1 - 1) with a in IH by lia. exact IH.
Qed.
Lemma chain_down : forall n a,
  (fix chain p l := match l with [] => True | r :: t => Z.abs (r - p) = 1 /\ chain r t end) (a + 1) (zseq_down a n).
Proof.
  induction n as [|n IH]; intros a; cbn [zseq_down]; auto. split; [lia|].
  specialize (IH (a - 1)). replace (a - 1 + 1) with a in IH by lia. exact IH.
Qed.

Hypothesis H4r : 4 <= rows.
Hypothesis H4c : 4 <= cols.

Lemma edge_fin : forall f c, St f -> on_edge rows cols c -> fin 0 f c.
Proof.
  intros f c ((_ & _ & _ & HE) & _) Hc. unfold fin. rewrite HE by auto. apply Hbnd_dtm.
  apply edge_inside; auto.
Qed.

(** One compiled sweep in the loop: visits its grid, leaves it finite, and reports
    a change when the corner it starts from was still [inf]. *)
Lemma cy_sweep_fin : forall f a b c d, St f ->
    (a, b, c, d) = (1, rows - 2, 1, cols - 2) \/ (a, b, c, d) = (rows - 2, 1, cols - 2, 1) \/
    (a, b, c, d) = (1, rows - 2, cols - 2, 1) \/ (a, b, c, d) = (rows - 2, 1, 1, cols - 2) ->
  at_ f (a, c) = inf ->
  exists f', sweep_cy cellf f a b c d = Ok (f', true) /\ St f' /\ below f' f /\
    measure f' < measure f /\
    (forall e, In e (grid (cy_rows a b) (cy_rows c d)) -> fin rows f' e) /\
    (forall e, ~ In e (grid (cy_rows a b) (cy_rows c d)) -> at_ f' e = at_ f e).
Proof.
  intros f a b c d HS Hcase Hcorner.
  assert (HH : 0 <= a /\ 0 <= b /\ 0 <= c /\ 0 <= d /\ a <> b /\ c <> d)
    by (destruct Hcase as [E|[E|[E|E]]]; inversion E; subst; lia).
  destruct HH as (? & ? & ? & ? & ? & ?).
  rewrite sweep_cy_grid by auto. set (l := grid (cy_rows a b) (cy_rows c d)).
  assert (Hint : forall e, In e l -> interior rows cols e).
  { intros [r e]. unfold l. rewrite in_grid, !in_cy_rows by auto. unfold interior. cbn [fst snd].
    destruct Hcase as [E|[E|[E|E]]]; inversion E; subst; clear E; lia. }
  destruct (run_cells_ok l f false HS) as (f' & b' & E' & HS' & Hb & Hf & Hm & Ht & Ho & _).
  { intros e He. apply interior_inside; auto. }
  assert (Hcl : In (a, c) l).
  { unfold l. rewrite in_grid, !in_cy_rows by auto. lia. }
  assert (Hb' : b' = true).
  { destruct b'; auto. exfalso. destruct (Hf eq_refl) as (_ & _ & Hfix).
    specialize (Hfix (a, c) Hcl (Hint _ Hcl)). unfold localfix in Hfix.
    pose proof (interior_inside _ _ _ (Hint _ Hcl)) as Hin. pose proof (Hbnd_dtm _ Hin) as Hdf.
    assert (exists e, adjacent (a, c) e /\ on_edge rows cols e) as (e & Hae & Hee).
    { destruct Hcase as [E|[E|[E|E]]]; inversion E; subst; clear E.
      - exists (0, 1). split; [apply adjacent_nbrs8; cbn; auto 10|]. unfold on_edge, inside. cbn. lia.
      - exists (rows - 2 + 1, cols - 2). split; [apply adjacent_nbrs8; cbn; auto 10|]. unfold on_edge, inside. cbn. lia.
      - exists (0, cols - 2). split; [apply adjacent_nbrs8; cbn; auto 10|]. unfold on_edge, inside. cbn. lia.
      - exists (rows - 2 + 1, 1). split; [apply adjacent_nbrs8; cbn; auto 10|]. unfold on_edge, inside. cbn. lia. }
    specialize (Hfix e Hae). rewrite Hcorner in Hfix.
    pose proof (edge_fin f e HS Hee) as Hfe. unfold fin in Hfe.
    destruct HS as ((_ & _ & HI & _) & _). destruct (HI e (edge_inside _ _ _ Hee)) as (Ge & _ & Hde).
    assert (Hn0 : 0 <= 0 < rows) by lia.
    pose proof (Hbnd_step 0 (a, c) e _ Hn0 (Hint _ Hcl) Hae Ge Hde Hfe).
    pose proof (Hbnd_inf (0 + 1)). pose proof (Hbnd_mono 0 (0 + 1)). lia. }
  subst b'. exists f'. split; [exact E'|]. split; [auto|]. split; [auto|].
  split; [destruct (Ht eq_refl) as [?|?]; [discriminate | auto]|]. split; [|auto].
  set (prev := if a <? b then a - 1 else a + 1).
  destruct (rows_fin (cy_rows c d) (cy_rows a b) prev f false 0) as (f2 & b2 & E2 & S2 & B2 & F2).
  { lia. }
  { unfold cy_rows, pyrange. destruct Hcase as [E|[E|[E|E]]]; inversion E; subst; clear E;
    repeat match goal with |- context [?x <? ?y] => destruct (Z.ltb_spec x y) end;
    rewrite ?zseq_length, ?zseq_down_length; lia. }
  { auto. }
  { intros r e Hr He. apply Hint. apply in_grid. auto. }
  { intros e He. apply edge_fin; auto. rewrite in_cy_rows in He by auto. unfold prev, on_edge, inside. cbn [fst snd].
    destruct Hcase as [E|[E|[E|E]]]; inversion E; subst; clear E;
      destruct (Z.ltb_spec 1 (rows - 2)); destruct (Z.ltb_spec (rows - 2) 1); lia. }
  { auto. }
  { unfold prev, cy_rows. destruct (Z.ltb_spec a b); unfold pyrange; cbn [Z.ltb Z.compare]; [apply chain_up | apply chain_down]. }
  fold l in E2. rewrite E' in E2. inversion E2; subst. exact F2.
Qed.

Lemma run_cy : exists f' k, St f' /\ (forall c, inside rows cols c -> fin rows f' c) /\
  forall fuel, (fuel >= k)%nat -> fill_loop (sweep_cy cellf) fuel init_f = Ok f'.
Proof.
  pose proof init_St as HS.
  assert (Hg : forall a b c d r e, a <> b -> c <> d -> In (r, e) (grid (cy_rows a b) (cy_rows c d)) <->
             (a <= r < b \/ b < r <= a) /\ (c <= e < d \/ d < e <= c)).
  { intros. rewrite in_grid, !in_cy_rows by auto. reflexivity. }
  destruct (cy_sweep_fin init_f 1 (rows-2) 1 (cols-2) HS) as (f1 & E1 & S1 & B1 & M1 & F1 & O1); [auto| |].
  { apply init_interior. unfold interior. cbn. lia. }
  destruct (cy_sweep_fin f1 (rows-2) 1 (cols-2) 1 S1) as (f2 & E2 & S2 & B2 & M2 & F2 & O2); [auto| |].
  { rewrite O1 by (rewrite Hg by lia; lia). apply init_interior. unfold interior. cbn. lia. }
  destruct (cy_sweep_fin f2 1 (rows-2) (cols-2) 1 S2) as (f3 & E3 & S3 & B3 & M3 & F3 & O3); [auto| |].
  { rewrite O2 by (rewrite Hg by lia; lia). rewrite O1 by (rewrite Hg by lia; lia). apply init_interior. unfold interior. cbn. lia. }
  destruct (cy_sweep_fin f3 (rows-2) 1 1 (cols-2) S3) as (f4 & E4 & S4 & B4 & M4 & F4 & O4); [auto| |].
  { rewrite O3 by (rewrite Hg by lia; lia). rewrite O2 by (rewrite Hg by lia; lia). rewrite O1 by (rewrite Hg by lia; lia).
    apply init_interior. unfold interior. cbn. lia. }
  assert (HF : forall c, inside rows cols c -> fin rows f4 c).
  { intros [r c] Hc. destruct (inside_cases _ _ _ Hc) as [He|Hi].
    { pose proof (edge_fin f4 _ S4 He). unfold fin in *. pose proof (Hbnd_mono 0 rows). lia. }
    unfold interior in Hi. cbn [fst snd] in Hi.
    assert (B43 : below f4 f3) by auto.
    assert (B42 : below f4 f2) by (apply (below_trans _ f3); auto).
    assert (B41 : below f4 f1) by (apply (below_trans _ f2); auto).
    destruct (Z_lt_le_dec r (rows - 2)), (Z_lt_le_dec c (cols - 2)).
    - apply (fin_below _ f4 f1); auto. apply F1. rewrite Hg by lia. lia.
    - apply (fin_below _ f4 f3); auto. apply F3. rewrite Hg by lia. lia.
    - apply F4. rewrite Hg by lia. lia.
    - apply (fin_below _ f4 f2); auto. apply F2. rewrite Hg by lia. lia. }
  assert (HM : 0 <= measure f4) by (apply measure_nonneg; apply S4).
  destruct (loop_ok _ _ (sweep_cy_ok H4r H4c) (S (Z.to_nat (measure f4))) _ S4) as (f' & S' & B' & _ & HL); [lia|].
  exists f', (S (S (Z.to_nat (measure f4)))). split; [auto|]. split.
  - intros c Hc. apply (fin_below _ f' f4); auto.
  - intros fuel Hfuel. destruct fuel as [|fuel]; [lia|]. cbn [fill_loop].
    change (nrows init_f) with rows. change (ncols init_f) with cols.
    rewrite E1. cbn [bind]. rewrite E2. cbn [bind]. rewrite E3. cbn [bind]. rewrite E4. cbn [bind].
    apply HL. lia.
Qed.
End CyFinite.

(** ** Levels, when the step is the identity *)
Section Levels.
Hypothesis Hid : forall c d v, step c d v = v.
Notation Escapes := (escapes (fun x y => rk x <= rk y) rows cols (at_ dtm)).

Lemma escapes_inside : forall L c, Escapes L c -> inside rows cols c.
Proof. intros L c H. destruct H; auto. apply edge_inside; auto. Qed.

Lemma rcost_escapes : forall c v, rcost c v -> forall L, rk v <= rk L -> Escapes L c.
Proof.
  intros c v H. induction H as [c Hc | c d v Hc Ha Hr IH]; intros L HL.
  - apply esc_edge; auto.
  - destruct (rcost_good _ _ Hr) as [Gv _]. destruct (Hdtm c (interior_inside _ _ _ Hc)) as [Gd _].
    rewrite is_max_rk in HL by auto. rewrite Hid in HL.
    apply esc_step with d; auto; [apply interior_inside; auto | lia | apply IH; lia].
Qed.

Lemma level_iff : forall f, Inv f -> Backed f -> Fix f -> forall c L, inside rows cols c -> good L ->
  (rk (at_ f c) <= rk L <-> Escapes L c).
Proof.
  intros f HI HB HF c L Hc GL. split.
  - intros H. destruct (HB c Hc) as [E|E].
    + rewrite E in H. apply (walk_left (Escapes L)); auto.
      * intros e He. apply esc_edge; auto. destruct (Hdtm e (edge_inside _ _ _ He)) as [Ge _].
        pose proof (Hinfmax _ Ge). lia.
      * intros r e Hi Hs. apply esc_step with (r, e - 1); auto.
        -- apply interior_inside; auto.
        -- destruct (Hdtm _ (interior_inside _ _ _ Hi)) as [Ge _]. pose proof (Hinfmax _ Ge). lia.
        -- apply adjacent_left.
    + apply (rcost_escapes _ _ E); auto.
  - intros H. clear Hc. induction H as [c Hc Hle | c d Hc Hle Ha Hs IH].
    + destruct HI as (_ & _ & _ & HE). rewrite HE by auto. auto.
    + destruct (inside_cases _ _ _ Hc) as [He|Hi].
      * destruct HI as (_ & _ & _ & HE). rewrite HE by auto. auto.
      * specialize (HF c Hi d Ha). rewrite Hid in HF. lia.
Qed.
End Levels.

End Relax.
