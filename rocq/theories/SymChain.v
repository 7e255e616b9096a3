(** * Bluespots, watersheds and accumulated flow of a turned terrain *)

From Flocq Require Import IEEE754.BinarySingleNaN.
From Verif Require Import Base BaseProofs Num Float64 Float64Proofs FillModel FillSpec FillProofs FillThms NoFlatsProofs FlowModel FlowSpec FlowProofs
  AccumProofs FlowDirProofs WatershedProofs DemModel DemProofs LevelProofs LabelModel LabelSpec LabelProofs CompSpec VectorModel BluespotModel BluespotSpec BluespotProofs PolygonThms
  SymSpec SymProofs SymThms.

(** ** Bluespots *)

Lemma nonzero_turned : forall s a b, turned s a b -> forall x, inside (nrows a) (ncols a) x -> at_ (nonzero b) (s x) = at_ (nonzero a) x.
Proof.
  intros s a b T x Hx. change (negb (Beqb (at_ b (s x)) f64_zero) = negb (Beqb (at_ a x) f64_zero)). f_equal.
  destruct (turned_nan _ _ _ T x Hx). rewrite !Beqb_rank by (auto; reflexivity). rewrite (turned_rank _ _ _ T x Hx). reflexivity.
Qed.

Lemma connected_turned : forall s a b, turned s a b -> forall x y, bluespot a x y -> bluespot b (s x) (s y).
Proof.
  intros s a b T x y H. pose proof (proj1 T) as Sy. induction H as [x I V|x y z H IH A I V].
  - apply co_here; [exact (sym_inside _ _ _ _ _ Sy _ I)|]. rewrite (nonzero_turned _ _ _ T); assumption.
  - eapply co_step; [exact IH|exact (sym_adjacent _ _ _ _ _ Sy _ _ A)|exact (sym_inside _ _ _ _ _ Sy _ I)|]. rewrite (nonzero_turned _ _ _ T); assumption.
Qed.

Lemma connected_turned_iff : forall s a b, turned s a b -> forall x y, bluespot a x y <-> bluespot b (s x) (s y).
Proof.
  intros s a b T x y. split; [apply connected_turned; exact T|]. destruct (turned_inv _ _ _ T) as (s' & T' & I1 & I2).
  intros H. apply (connected_turned _ _ _ T') in H. rewrite !I1 in H. exact H.
Qed.

Lemma bluespot_inside : forall a x y, bluespot a x y -> inside (nrows a) (ncols a) y /\ at_ (nonzero a) y = true.
Proof. intros a x y H. destruct H; split; assumption. Qed.

Lemma describes_turned : forall cc, labels_components cc -> forall s a b area x u, turned s a b -> inside (nrows a) (ncols a) x -> at_ (nonzero a) x = true ->
  describes a (bluespot a x) area u -> exists v, describes b (bluespot b (s x)) area v /\
  u_count u = u_count v /\ u_area u = u_area v /\ eq64 (u_min u) (u_min v) /\ eq64 (u_max u) (u_max v).
Proof.
  intros cc Hcc s a b area x u T Hx Nx (cs & [So Ls] & Uc & Us & Umin & Umax & Uv & Ua).
  destruct (turned_inv _ _ _ T) as (s' & T' & I1 & I2). pose proof (proj1 T) as Sy.
  pose proof (Hcc (nonzero b)) as CC. set (lab := fst (cc (nonzero b))) in *.
  pose proof (sym_inside _ _ _ _ _ Sy _ Hx) as Hx'.
  assert (Nx' : at_ (nonzero b) (s x) = true) by (rewrite (nonzero_turned _ _ _ T); assumption).
  set (ds := lcells lab (at_ lab (s x))).
  assert (Ld : lists_cells (bluespot b (s x)) ds).
  { destruct (lcells_spec lab (at_ lab (s x))) as [S1 L1]. fold ds in S1, L1. split; [exact S1|]. intros c. rewrite L1.
    destruct (cc_shape _ _ _ CC) as [R C]. cbn in R, C.
    split.
    - intros [Ic Ec]. rewrite <- R, <- C in Ic.
      destruct (at_ (nonzero b) c) eqn:Nc.
      + apply (cc_same _ _ _ CC); auto.
      + exfalso. pose proof (cc_background _ _ _ CC c Ic Nc) as B0. pose proof (cc_range _ _ _ CC (s x) Hx' Nx'). fold lab in B0. lia.
    - intros Bc. destruct (bluespot_inside _ _ _ Bc) as [Ic Nc]. split; [rewrite <- R, <- C; exact Ic|].
      symmetry. apply (cc_same _ _ _ CC); auto. }
  destruct Ld as [Sd Ld].
  assert (Len : length cs = length ds).
  { rewrite <- (map_length s cs). apply Permutation.Permutation_length. apply Permutation.NoDup_Permutation.
    - apply FinFun.Injective_map_NoDup; [intros p q E; rewrite <- (I1 p), <- (I1 q), E; reflexivity|apply SS_nodup; exact So].
    - apply SS_nodup. exact Sd.
    - intros c. rewrite in_map_iff, Ld. split.
      + intros (d & <- & Id). apply Ls in Id. apply (connected_turned_iff _ _ _ T). exact Id.
      + intros Bc. exists (s' c). split; [apply I2|]. apply Ls. apply (connected_turned_iff _ _ _ T). rewrite I2. exact Bc. }
  assert (Ex : forall (le : b64 -> b64 -> Prop) top m, (forall p p' q q', eq64 p p' -> eq64 q q' -> le p q -> le p' q') -> 
    extreme le top (bluespot a x) a m -> exists m', extreme le top (bluespot b (s x)) b m' /\ eq64 m m').
  { intros le top m Cg [[(c & Pc & Nc & Em)|[_ Bad]] Lo].
    - exists (at_ b (s c)). destruct (bluespot_inside _ _ _ Pc) as [Ic _]. assert (Q : eq64 m (at_ b (s c))) by (rewrite Em; apply eq64_sym, T, Ic).
      split; [|exact Q]. split.
      + left. exists (s c). split; [apply (connected_turned _ _ _ T); exact Pc|]. split; [apply (turned_nan _ _ _ T c Ic)|reflexivity].
      + intros d Pd Nd. rewrite <- (I2 d) in Pd. apply (connected_turned_iff _ _ _ T) in Pd. destruct (bluespot_inside _ _ _ Pd) as [Id _].
        apply (Cg m _ (at_ a (s' d))); [exact Q| |apply Lo; [exact Pd|apply (turned_nan _ _ _ T _ Id)]].
        rewrite <- (I2 d) at 2. apply eq64_sym, T, Id.
    - exfalso. apply (Bad x); [apply co_here; assumption|apply (turned_nan _ _ _ T x Hx)]. }
  assert (Cg : forall p p' q q', eq64 p p' -> eq64 q q' -> le64 p q -> le64 p' q').
  { intros p p' q q' E1 E2 L. assert (N : forall v w, eq64 v w -> not_nan v /\ not_nan w).
    { intros v w E. unfold eq64, not_nan in *. split; [destruct v; auto; discriminate E|]. apply eq64_sym in E. unfold eq64 in E. destruct w; auto; discriminate E. }
    destruct (N _ _ E1), (N _ _ E2). apply eq64_rank in E1, E2; auto. apply le64_rank in L; auto. apply le64_rank; auto. lia. }
  destruct (Ex le64 f64_inf (u_min u) Cg Umin) as (mn & Hmn & Emn).
  destruct (Ex (fun p q => le64 q p) f64_ninf (u_max u)) as (mx & Hmx & Emx); [intros p p' q q' E1 E2; apply Cg; assumption|exact Umax|].
  set (sm := fold_left f64_add (map (at_ b) ds) (f64_ofZ 0)).
  exists (mkUnit mn mx sm (u_count u) (f64_mul sm area) (u_area u)). cbn. split.
  - exists ds. cbn. split; [split; assumption|]. split; [rewrite Uc, Len; reflexivity|]. auto.
  - auto.
Qed.

Lemma same_areas_count : forall s lab lab' n n', same_areas s lab lab' -> numbered lab n -> numbered lab' n' -> n <= n'.
Proof.
  intros s lab lab' n n' (Sy & Z & Q) (L & Hn & U) (L' & Hn' & _).
  assert (K : forall k, (Z.of_nat k <= n) -> exists l, length l = k /\ NoDup l /\ (forall v, In v l -> 1 <= v <= n' /\ exists x, inside (nrows lab) (ncols lab) x /\ 1 <= at_ lab x <= Z.of_nat k /\ v = at_ lab' (s x))).
  { induction k as [|k IH]; intros Hk; [exists []; split; [reflexivity|]; split; [constructor|intros v []]|].
    destruct IH as (l & E & Nd & P); [lia|]. destruct (U (Z.of_nat (S k))) as (x & Ix & Ex); [lia|].
    exists (at_ lab' (s x) :: l). split; [cbn; congruence|]. split.
    - constructor; [|exact Nd]. intros I. destruct (P _ I) as (_ & y & Iy & Ry & Ey). apply (Q x y Ix Iy) in Ey. lia.
    - intros v [<-|I].
      + split.
        * pose proof (L' (s x) (sym_inside _ _ _ _ _ Sy _ Ix)). assert (at_ lab' (s x) <> 0) by (rewrite <- (Z x Ix); lia). lia.
        * exists x. split; [exact Ix|]. split; [lia|reflexivity].
      + destruct (P v I) as (R & y & Iy & Ry & Ey). split; [exact R|]. exists y. split; [exact Iy|]. split; [lia|exact Ey]. }
  destruct (K (Z.to_nat n)) as (l & E & Nd & P); [lia|].
  assert (I : incl l (zseq 1 (Z.to_nat n'))).
  { intros v Iv. destruct (P v Iv) as [R _]. apply in_zseq. lia. }
  apply (NoDup_incl_length Nd) in I. rewrite E in I. rewrite zseq_length in I. lia.
Qed.

Lemma same_areas_inv : forall s lab lab', same_areas s lab lab' -> exists s', same_areas s' lab' lab /\ (forall x, s' (s x) = x) /\ (forall x, s (s' x) = x).
Proof.
  intros s lab lab' (Sy & Z & Q). destruct (sym_inv _ _ _ _ _ Sy) as (s' & Sy' & I1 & I2). exists s'. split; [|auto]. split; [exact Sy'|]. split.
  - intros x Hx. rewrite (Z (s' x) (sym_inside _ _ _ _ _ Sy' _ Hx)), I2. reflexivity.
  - intros x y Hx Hy. rewrite (Q (s' x) (s' y) (sym_inside _ _ _ _ _ Sy' _ Hx) (sym_inside _ _ _ _ _ Sy' _ Hy)), !I2. reflexivity.
Qed.

Theorem labels_turned : forall cc, labels_components cc -> forall s depths depths', turned s depths depths' -> 1 <= nrows depths -> 1 <= ncols depths ->
  forall f t t', reads_no_sum f -> cell_area F64Ops t = cell_area F64Ops t' ->
  forall sp fuel flowdir accum dem out sp' fuel' flowdir' accum' dem' out',
  bluespot_process sp cc fuel t depths flowdir (Some f) accum dem = Ok out ->
  bluespot_process sp' cc fuel' t' depths' flowdir' (Some f) accum' dem' = Ok out' ->
  same_areas s (bo_labeled out) (bo_labeled out') /\ bo_nlabels out = bo_nlabels out'.
Proof.
  intros cc Hcc s depths depths' T Hr Hc f t t' RS EA sp fuel flowdir accum dem out sp' fuel' flowdir' accum' dem' out' B B'.
  assert (Hs : 1 <= nrows depths' /\ 1 <= ncols depths') by (destruct (sym_sides _ _ _ _ _ (proj1 T)); lia).
  destruct (process_filter cc Hcc sp _ _ _ _ _ _ _ _ Hr Hc B) as ([R C] & Nm & K & Sm).
  destruct (process_filter cc Hcc sp' _ _ _ _ _ _ _ _ (proj1 Hs) (proj2 Hs) B') as ([R' C'] & Nm' & K' & Sm').
  destruct (turned_inv _ _ _ T) as (s' & T' & I1 & I2). pose proof (proj1 T) as Sy.
  assert (NZ : forall x, inside (nrows depths) (ncols depths) x -> (at_ (bo_labeled out) x <> 0 <-> at_ (bo_labeled out') (s x) <> 0)).
  { intros x Hx. pose proof (sym_inside _ _ _ _ _ Sy _ Hx) as Hx'. rewrite (K x Hx), (K' (s x) Hx'). split.
    - intros (N & u & Du & Fu). split; [rewrite (nonzero_turned _ _ _ T); assumption|].
      destruct (describes_turned cc Hcc s _ _ _ x u T Hx N Du) as (v & Dv & E1 & E2 & E3 & E4). exists v. rewrite <- EA. split; [exact Dv|].
      rewrite <- (RS u v E1 E2 E3 E4). exact Fu.
    - intros (N & u & Du & Fu). rewrite <- EA in Du.
      destruct (describes_turned cc Hcc s' _ _ _ (s x) u T' Hx' N Du) as (v & Dv & E1 & E2 & E3 & E4). rewrite I1 in Dv.
      split; [rewrite (nonzero_turned _ _ _ T) in N; assumption|]. exists v. split; [exact Dv|]. rewrite <- (RS u v E1 E2 E3 E4). exact Fu. }
  assert (SA : same_areas s (bo_labeled out) (bo_labeled out')).
  { split; [rewrite <- R, <- C, <- R', <- C'; exact Sy|]. rewrite <- R, <- C. 
    assert (ZZ : forall x, inside (nrows depths) (ncols depths) x -> (at_ (bo_labeled out) x = 0 <-> at_ (bo_labeled out') (s x) = 0)).
    { intros x Hx. specialize (NZ x Hx). destruct (Z.eq_dec (at_ (bo_labeled out) x) 0), (Z.eq_dec (at_ (bo_labeled out') (s x)) 0); intuition. }
    split; [exact ZZ|]. intros x y Hx Hy.
    pose proof (sym_inside _ _ _ _ _ Sy _ Hx) as Hx'. pose proof (sym_inside _ _ _ _ _ Sy _ Hy) as Hy'.
    destruct (Z.eq_dec (at_ (bo_labeled out) x) 0) as [X0|X0].
    - assert (X0' : at_ (bo_labeled out') (s x) = 0) by (apply ZZ; assumption). rewrite X0, X0'.
      split; intros E; symmetry; symmetry in E; [apply ZZ|apply (ZZ y Hy)]; assumption.
    - destruct (Z.eq_dec (at_ (bo_labeled out) y) 0) as [Y0|Y0].
      + assert (Y0' : at_ (bo_labeled out') (s y) = 0) by (apply ZZ; assumption). rewrite Y0, Y0'. apply ZZ; assumption.
      + rewrite (Sm x y Hx Hy X0 Y0), (Sm' (s x) (s y) Hx' Hy' (proj1 (NZ x Hx) X0) (proj1 (NZ y Hy) Y0)). apply connected_turned_iff. exact T. }
  split; [exact SA|]. destruct (same_areas_inv _ _ _ SA) as (r & SA' & _).
  pose proof (same_areas_count _ _ _ _ _ SA Nm Nm'). pose proof (same_areas_count _ _ _ _ _ SA' Nm' Nm). lia.
Qed.

(** ** The chain *)

Theorem dem_turned : forall s dem dem', turned s dem dem' -> 2 <= nrows dem <= 2 ^ 50 -> 2 <= ncols dem <= 2 ^ 50 ->
  dem32 dem -> dem32 dem' -> dem_finite dem -> dem_finite dem' ->
  forall fuel t1 t5 d fuel' t1' t5' d', dem_process false fuel t1 t5 dem = Ok d -> dem_process false fuel' t1' t5' dem' = Ok d' ->
  turned s (do_filled d) (do_filled d') /\ turned s (do_depths d) (do_depths d') /\
  exists short diag nf nf', minimum_safe_short_and_diag dem = Ok (short, diag) /\ minimum_safe_short_and_diag dem' = Ok (short, diag) /\
    fill_nf64 short diag fuel dem = Ok nf /\ fill_nf64 short diag fuel' dem' = Ok nf' /\ turned s nf nf' /\ dem_finite nf /\ dem_finite nf' /\
    same_shape dem nf /\ same_shape dem' nf' /\
    flowdir64 nf true = Ok (do_flowdir d) /\ flowdir64 nf' true = Ok (do_flowdir d').
Proof.
  intros s dem dem' T Hr Hc D D' F F' fuel t1 t5 d fuel' t1' t5' d' P P'.
  assert (Hs : 2 <= nrows dem' <= 2 ^ 50 /\ 2 <= ncols dem' <= 2 ^ 50) by (destruct (sym_sides _ _ _ _ _ (proj1 T)) as [[-> ->]|[-> ->]]; auto).
  destruct Hs as [Hr' Hc'].
  assert (SO : size_ok false dem) by (split; lia). assert (SO' : size_ok false dem') by (split; lia).
  destruct (filled_facts false _ _ _ _ _ SO D F P) as (A1 & A2 & A3 & A4 & _ & _ & A5).
  destruct (filled_facts false _ _ _ _ _ SO' D' F' P') as (A1' & A2' & A3' & A4' & _ & _ & A5').
  destruct (dem_process_parts _ _ _ _ _ _ P) as (_ & E & _ & short & diag & nf & M & N & Fl & _).
  destruct (dem_process_parts _ _ _ _ _ _ P') as (_ & E' & _ & short' & diag' & nf' & M' & N' & Fl' & _).
  cbn beta iota in *.
  assert (TF : turned s (do_filled d) (do_filled d')) by (apply (fill_turned s dem dem' T) with (fuel := fuel) (fuel' := fuel'); auto; lia).
  split; [exact TF|]. split.
  { rewrite A5, A5'. apply depths_turned; auto; split; congruence. }
  rewrite (safe_turned _ _ _ _ T M) in M'. injection M' as <- <-.
  destruct (nf_either false dem SO D F) as (q1 & q2 & nf1 & k1 & G1 & G2 & G3 & G4 & G5 & _). rewrite M in G1. injection G1 as <- <-.
  destruct (nf_either false dem' SO' D' F') as (q1 & q2 & nf2 & k2 & H1 & H2 & H3 & H4 & H5 & _). rewrite (safe_turned _ _ _ _ T M) in H1. injection H1 as <- <-.
  assert (nf = nf1) by (apply (fuel_agree false short diag dem fuel (Nat.max fuel k1)); [lia|exact N|apply G2; lia]). subst nf1.
  assert (nf' = nf2) by (apply (fuel_agree false short diag dem' fuel' (Nat.max fuel' k2)); [lia|exact N'|apply H2; lia]). subst nf2.
  assert (SI : nonneg64 short /\ nonneg64 diag).
  { destruct (safe_increments_ok dem short diag) as [[X1 X2] [X3 X4]]; auto; try lia; [apply dem32_max1000; assumption|].
    split; (split; [assumption|]); (apply le64_rank; [reflexivity|apply finite_not_nan; assumption|]); assumption. }
  exists short, diag, nf, nf'. split; [exact M|]. split; [exact (safe_turned _ _ _ _ T M)|]. split; [exact N|]. split; [exact N'|].
  split; [|split; [exact G5|split; [exact H5|split; [split; symmetry; assumption|split; [split; symmetry; assumption|split; assumption]]]]].
  apply (nf_turned short diag s dem dem' T) with (fuel := fuel) (fuel' := fuel'); auto; try lia; try apply SI.
  - intros c Hi. apply D, Hi.
  - intros c Hi. apply D', Hi.
Qed.

(** ** Without ties *)

Lemma only_turned : forall s t t' c n, turned s t t' -> interior (nrows t) (ncols t) c -> only_steepest by_sqrt2 t c n -> only_steepest by_sqrt2 t' (s c) (s n).
Proof.
  intros s t t' c n T Ic [A O]. destruct (turned_inv _ _ _ T) as (s' & T' & I1 & I2). split; [exact (sym_adjacent _ _ _ _ _ (proj1 T) _ _ A)|].
  intros m Am Ne. assert (Ia : inside (nrows t) (ncols t) c) by (destruct Ic; split; lia).
  assert (A' : adjacent c (s' m)) by (rewrite <- (I1 c); apply (sym_adjacent _ _ _ _ _ (proj1 T') _ _ Am)).
  assert (Ne' : s' m <> n) by (intros E; apply Ne; rewrite <- E, I2; reflexivity).
  assert (Flip : forall x y : b64, zero_eq x y -> zero_eq y x) by (intros x y [->|(u & v & -> & ->)]; [left; reflexivity|right; eauto]).
  apply (lt_zero_eq (slope_to by_sqrt2 t c (s' m)) _ (slope_to by_sqrt2 t c n) _); [| |apply O; assumption]; apply Flip.
  - rewrite <- (I2 m) at 1. apply slope_zero; [exact T|exact Ia|exact (interior_nbr _ _ _ _ Ic A')].
  - apply slope_zero; [exact T|exact Ia|exact (interior_nbr _ _ _ _ Ic A)].
Qed.

Lemma only_target : forall t f c n d, dem_finite t -> 1 <= nrows t -> 1 <= ncols t -> flowdir64 t true = Ok f ->
  interior (nrows t) (ncols t) c -> only_steepest by_sqrt2 t c n -> flows f c d -> d = n.
Proof.
  intros t f c n d Ft Hr Hc E Ic [A O] Fl. destruct (py_steepest t true f Ft Hr Hc E) as (_ & _ & K & _).
  destruct (Z.eq_dec (fst d) (fst n)) as [E1|E1], (Z.eq_dec (snd d) (snd n)) as [E2|E2]; [destruct d, n; cbn in *; congruence| | |]; exfalso;
    (assert (Ne : d <> n) by (intros Q; rewrite Q in *; lia)); pose proof (O d (flows_adjacent _ _ _ Fl) Ne) as Lt;
    destruct Fl as (_ & _ & Tg); unfold target in Tg;
    (destruct (K c Ic) as [[E8 _]|[(_ & _ & Best & _) _]]; [rewrite E8 in Tg; discriminate Tg|]);
    destruct (offset (at_ f c)) as [o|] eqn:Oo; try discriminate Tg; injection Tg as Tg;
    destruct (offset_of_adjacent c n A) as (k & o' & Rk & Ok & Sk); specialize (Best k Rk);
    rewrite (slope_dir _ _ _ _ _ Ok), Sk, (slope_dir _ _ _ _ _ Oo), Tg in Best; exact (le_lt_false _ _ Best Lt).
Qed.

Lemma edge_or_interior : forall r c x, inside r c x -> on_edge r c x \/ interior r c x.
Proof. intros r c x [A B]. unfold on_edge, interior, inside. lia. Qed.

Section Flow.
Variables (s : cell -> cell) (t t' : raster b64) (f f' : raster Z).
Hypothesis T : turned s t t'.
Hypothesis Ft : dem_finite t.
Hypothesis Ft' : dem_finite t'.
Hypothesis Hr : 1 <= nrows t.
Hypothesis Hc : 1 <= ncols t.
Hypothesis E : flowdir64 t true = Ok f.
Hypothesis E' : flowdir64 t' true = Ok f'.
Hypothesis NT : forall c, interior (nrows t) (ncols t) c -> exists n, only_steepest by_sqrt2 t c n.

Lemma sides' : 1 <= nrows t' /\ 1 <= ncols t'.
Proof. destruct (sym_sides _ _ _ _ _ (proj1 T)); lia. Qed.

Lemma flow_shapes : same_shape t f /\ same_shape t' f'.
Proof. split; [apply (py_steepest t true f Ft Hr Hc E)|apply (py_steepest t' true f' Ft' (proj1 sides') (proj2 sides') E')]. Qed.

Lemma flows_turned : forall c d, flows f c d -> flows f' (s c) (s d).
Proof.
  intros c d Fl. destruct (py_steepest t true f Ft Hr Hc E) as ([S1 S2] & _ & _ & Ed).
  assert (Ic : inside (nrows t) (ncols t) c) by (rewrite S1, S2; apply Fl).
  destruct (edge_or_interior _ _ _ Ic) as [Eg|In].
  - exfalso. destruct (Ed c Eg) as (_ & e & Te & No). destruct Fl as (_ & Id & Td). rewrite Te in Td. injection Td as ->. apply No, Id.
  - destruct (NT c In) as (n & On). assert (d = n) by exact (only_target t f c n d Ft Hr Hc E In On Fl). subst d.
    apply (proj2 (direction_turned s t t' true f f' T Ft Ft' Hr Hc E E')); assumption.
Qed.

Lemma off_turned : forall c, flows_off f c -> flows_off f' (s c).
Proof.
  intros c Fo. destruct (py_steepest t true f Ft Hr Hc E) as ([S1 S2] & _ & K & _).
  destruct (py_steepest t' true f' Ft' (proj1 sides') (proj2 sides') E') as (_ & _ & _ & Ed').
  assert (Ic : inside (nrows t) (ncols t) c) by (rewrite S1, S2; apply Fo).
  destruct (edge_or_interior _ _ _ Ic) as [Eg|In]; [apply Ed', (sym_edge _ _ _ _ _ (proj1 T)), Eg|exfalso].
  destruct Fo as (_ & e & Te & No). destruct (K c In) as [[E8 _]|[_ (d & Fd & _)]].
  - unfold target in Te. rewrite E8 in Te. discriminate Te.
  - destruct Fd as (_ & Id & Td). rewrite Te in Td. injection Td as ->. apply No, Id.
Qed.

Lemma passes_turned : forall a b, passes f a b -> passes f' (s a) (s b).
Proof.
  destruct flow_shapes as [[S1 S2] [S1' S2']]. intros a b H. induction H as [a I|a b c Fl H IH].
  - apply pa_here. rewrite <- S1', <- S2'. apply (sym_inside _ _ _ _ _ (proj1 T)). rewrite S1, S2. exact I.
  - eapply pa_step; [apply flows_turned; exact Fl|exact IH].
Qed.

Lemma label_turned : forall lab lab', same_areas s lab lab' -> same_shape f lab -> forall c l, first_label f lab 0 c l ->
  (l = 0 /\ first_label f' lab' 0 (s c) 0) \/
  (exists e, inside (nrows f) (ncols f) e /\ l <> 0 /\ at_ lab e = l /\ first_label f' lab' 0 (s c) (at_ lab' (s e))).
Proof.
  intros lab lab' (Sy & ZZ & _) [L1 L2] c l H. destruct flow_shapes as [[S1 S2] [S1' S2']].
  assert (In' : forall x, inside (nrows f) (ncols f) x -> inside (nrows f') (ncols f') (s x)).
  { intros x Hx. rewrite <- S1', <- S2'. apply (sym_inside _ _ _ _ _ (proj1 T)). rewrite S1, S2. exact Hx. }
  induction H as [c I N|c d l Z0 Fl H IH|c Z0 Fo].
  - right. exists c. split; [exact I|]. split; [exact N|]. split; [reflexivity|]. apply fl_here; [apply In', I|].
    rewrite <- (ZZ c); [exact N|rewrite <- L1, <- L2; exact I].
  - assert (Z0' : at_ lab' (s c) = 0) by (apply ZZ; [rewrite <- L1, <- L2; apply Fl|exact Z0]).
    destruct IH as [[-> K]|(e & Ie & Ne & Ee & K)].
    + left. split; [reflexivity|]. eapply fl_step; [exact Z0'|apply flows_turned; exact Fl|exact K].
    + right. exists e. split; [exact Ie|]. split; [exact Ne|]. split; [exact Ee|]. eapply fl_step; [exact Z0'|apply flows_turned; exact Fl|exact K].
  - assert (Z0' : at_ lab' (s c) = 0) by (apply ZZ; [rewrite <- L1, <- L2; apply Fo|exact Z0]).
    left. split; [reflexivity|]. apply fl_off; [exact Z0'|apply off_turned; exact Fo].
Qed.

End Flow.

Lemma flow_both : forall s t t' f f', turned s t t' -> dem_finite t -> dem_finite t' -> 1 <= nrows t -> 1 <= ncols t ->
  flowdir64 t true = Ok f -> flowdir64 t' true = Ok f' -> (forall c, interior (nrows t) (ncols t) c -> exists n, only_steepest by_sqrt2 t c n) ->
  (forall c d, flows f c d <-> flows f' (s c) (s d)) /\ (forall c, flows_off f c <-> flows_off f' (s c)) /\ (forall a b, passes f a b <-> passes f' (s a) (s b)).
Proof.
  intros s t t' f f' T Ft Ft' Hr Hc E E' NT. destruct (turned_inv _ _ _ T) as (s' & T' & I1 & I2).
  assert (Hs : 1 <= nrows t' /\ 1 <= ncols t') by (destruct (sym_sides _ _ _ _ _ (proj1 T)); lia). destruct Hs as [Hr' Hc'].
  assert (NT' : forall c, interior (nrows t') (ncols t') c -> exists n, only_steepest by_sqrt2 t' c n).
  { intros c Ic. pose proof (sym_interior _ _ _ _ _ (proj1 T') _ Ic) as Ic'. destruct (NT _ Ic') as (n & On). exists (s n).
    rewrite <- (I2 c). exact (only_turned s t t' _ _ T Ic' On). }
  split; [|split].
  - intros c d. split; [apply (flows_turned s t t' f f'); assumption|]. intros H. apply (flows_turned s' t' t f' f) in H; auto. rewrite !I1 in H. exact H.
  - intros c. split; [apply (off_turned s t t' f f'); assumption|]. intros H. apply (off_turned s' t' t f' f) in H; auto. rewrite !I1 in H. exact H.
  - intros c d. split; [apply (passes_turned s t t' f f'); assumption|]. intros H. apply (passes_turned s' t' t f' f) in H; auto. rewrite !I1 in H. exact H.
Qed.

Theorem chain_turned : forall cc, labels_components cc -> forall s dem dem', turned s dem dem' -> 2 <= nrows dem <= 2 ^ 50 -> 2 <= ncols dem <= 2 ^ 50 ->
  dem32 dem -> dem32 dem' -> dem_finite dem -> dem_finite dem' ->
  forall f t t', reads_no_sum f -> cell_area F64Ops t = cell_area F64Ops t' ->
  forall fuel d out fuel' d' out' (u u' : bool),
  dem_process false fuel (gt1 t) (gt5 t) dem = Ok d -> dem_process false fuel' (gt1 t') (gt5 t') dem' = Ok d' ->
  bluespot_process false cc fuel t (do_depths d) (do_flowdir d) (Some f) (if u then Some (accum64 (do_accum d)) else None) (Some dem) = Ok out ->
  bluespot_process false cc fuel' t' (do_depths d') (do_flowdir d') (Some f) (if u' then Some (accum64 (do_accum d')) else None) (Some dem') = Ok out' ->
  turned s (do_filled d) (do_filled d') /\ turned s (do_depths d) (do_depths d') /\
  same_areas s (bo_labeled out) (bo_labeled out') /\ bo_nlabels out = bo_nlabels out' /\
  ((forall short diag nf c, minimum_safe_short_and_diag dem = Ok (short, diag) -> fill_nf64 short diag fuel dem = Ok nf -> interior (nrows nf) (ncols nf) c ->
      exists n, only_steepest by_sqrt2 nf c n) ->
   (forall a b, flows (do_flowdir d) a b <-> flows (do_flowdir d') (s a) (s b)) /\
   (forall c, inside (nrows dem) (ncols dem) c -> at_ (do_accum d') (s c) = at_ (do_accum d) c) /\
   same_areas s (bo_watersheds out) (bo_watersheds out')).
Proof.
  intros cc Hcc s dem dem' T Hr Hc D D' F F' f t t' RS EA fuel d out fuel' d' out' u u' P P' B B'.
  destruct (dem_turned s dem dem' T Hr Hc D D' F F' _ _ _ _ _ _ _ _ P P') as (TF & TD & short & diag & nf & nf' & M & M' & N & N' & TN & Fn & Fn' & [Q1 Q2] & [Q1' Q2'] & G & G').
  assert (Hs : 2 <= nrows dem' <= 2 ^ 50 /\ 2 <= ncols dem' <= 2 ^ 50) by (destruct (sym_sides _ _ _ _ _ (proj1 T)) as [[-> ->]|[-> ->]]; auto).
  destruct Hs as [Hr' Hc'].
  assert (SO : size_ok false dem) by (split; lia). assert (SO' : size_ok false dem') by (split; lia).
  destruct (filled_facts false _ _ _ _ _ SO D F P) as (A1 & A2 & _ & _ & _ & _ & A5).
  destruct (filled_facts false _ _ _ _ _ SO' D' F' P') as (A1' & A2' & _ & _ & _ & _ & A5').
  assert (W1 : nrows (do_depths d) = nrows dem) by (rewrite A5; exact A1). assert (W2 : ncols (do_depths d) = ncols dem) by (rewrite A5; exact A2).
  assert (W1' : nrows (do_depths d') = nrows dem') by (rewrite A5'; exact A1'). assert (W2' : ncols (do_depths d') = ncols dem') by (rewrite A5'; exact A2').
  assert (R1 : 1 <= nrows (do_depths d)) by lia. assert (R2 : 1 <= ncols (do_depths d)) by lia.
  assert (R1' : 1 <= nrows (do_depths d')) by lia. assert (R2' : 1 <= ncols (do_depths d')) by lia.
  destruct (labels_turned cc Hcc s _ _ TD R1 R2 f t t' RS EA _ _ _ _ _ _ _ _ _ _ _ _ B B') as [SA EN].
  split; [exact TF|]. split; [exact TD|]. split; [exact SA|]. split; [exact EN|]. intros NT.
  assert (NT1 : forall c, interior (nrows nf) (ncols nf) c -> exists n, only_steepest by_sqrt2 nf c n) by (intros c; apply (NT short diag nf c M N)).
  assert (Hn : 1 <= nrows nf) by lia. assert (Hm : 1 <= ncols nf) by lia.
  assert (Hn' : 1 <= nrows nf') by lia. assert (Hm' : 1 <= ncols nf') by lia.
  destruct (flow_both s nf nf' _ _ TN Fn Fn' Hn Hm G G' NT1) as (K1 & K2 & K3).
  destruct (dem_flow false _ _ _ _ _ SO D F P) as ([Y1 Y2] & FD & _). destruct (dem_flow false _ _ _ _ _ SO' D' F' P') as ([Y1' Y2'] & FD' & _).
  destruct (turned_inv _ _ _ T) as (s' & T' & I1 & I2). split; [exact K1|]. split.
  - intros c Ic. destruct (dem_process_parts _ _ _ _ _ _ P) as (_ & _ & _ & _ & _ & _ & _ & _ & _ & Ac). destruct (dem_process_parts _ _ _ _ _ _ P') as (_ & _ & _ & _ & _ & _ & _ & _ & _ & Ac').
    cbn beta iota in Ac, Ac'. destruct (accum_counts _ _ _ FD Ac) as [_ Ct]. destruct (accum_counts _ _ _ FD' Ac') as [_ Ct'].
    assert (Ic1 : inside (nrows (do_flowdir d)) (ncols (do_flowdir d)) c) by (rewrite <- Y1, <- Y2; exact Ic).
    assert (Ic2 : inside (nrows (do_flowdir d')) (ncols (do_flowdir d')) (s c)) by (rewrite <- Y1', <- Y2'; apply (sym_inside _ _ _ _ _ (proj1 T)), Ic).
    specialize (Ct c Ic1). specialize (Ct' (s c) Ic2). apply (counts_unique _ _ _ Ct').
    destruct Ct as (l & Nd & L & E). exists (map s l). split; [apply FinFun.Injective_map_NoDup; [intros p q H; rewrite <- (I1 p), <- (I1 q), H; reflexivity|exact Nd]|].
    split; [|rewrite map_length; exact E]. intros e. rewrite in_map_iff. split.
    + intros (e' & <- & I). apply L in I. apply K3. exact I.
    + intros H. exists (s' e). split; [apply I2|]. apply L. apply K3. rewrite I2. exact H.
  - destruct (run_inv cc Hcc false _ _ _ _ _ _ _ _ R1 R2 B) as (st & new & bst & wst & pix & _ & _ & _ & _ & _ & Wd & _).
    destruct (run_inv cc Hcc false _ _ _ _ _ _ _ _ R1' R2' B') as (st' & new' & bst' & wst' & pix' & _ & _ & _ & _ & _ & Wd' & _).
    cbn beta iota in Wd, Wd'.
    destruct (process_filter cc Hcc false _ _ _ _ _ _ _ _ R1 R2 B) as ([Z1 Z2] & _). destruct (process_filter cc Hcc false _ _ _ _ _ _ _ _ R1' R2' B') as ([Z1' Z2'] & _).
    assert (Sl : same_shape (do_flowdir d) (bo_labeled out)) by (split; congruence).
    assert (Sl' : same_shape (do_flowdir d') (bo_labeled out')) by (split; congruence).
    assert (B1 : 1 <= nrows (do_flowdir d)) by lia. assert (B2 : 1 <= ncols (do_flowdir d)) by lia.
    assert (B1' : 1 <= nrows (do_flowdir d')) by lia. assert (B2' : 1 <= ncols (do_flowdir d')) by lia.
    destruct (watersheds_first_label _ _ 0 _ _ FD Sl B1 B2 Wd) as ([X1 X2] & _ & FL). destruct (watersheds_first_label _ _ 0 _ _ FD' Sl' B1' B2' Wd') as ([X1' X2'] & _ & FL').
    assert (Lt : forall c, inside (nrows dem) (ncols dem) c ->
      (at_ (bo_watersheds out) c = 0 /\ at_ (bo_watersheds out') (s c) = 0) \/
      (exists e, inside (nrows dem) (ncols dem) e /\ at_ (bo_watersheds out) c <> 0 /\ at_ (bo_labeled out) e = at_ (bo_watersheds out) c /\ at_ (bo_watersheds out') (s c) = at_ (bo_labeled out') (s e))).
    { intros c Ic. assert (Ic1 : inside (nrows (do_flowdir d)) (ncols (do_flowdir d)) c) by (rewrite <- Y1, <- Y2; exact Ic).
      assert (Ic2 : inside (nrows (do_flowdir d')) (ncols (do_flowdir d')) (s c)) by (rewrite <- Y1', <- Y2'; apply (sym_inside _ _ _ _ _ (proj1 T)), Ic).
      destruct (label_turned s nf nf' _ _ TN Fn Fn' Hn Hm G G' NT1 _ _ SA Sl c _ (FL c Ic1)) as [[E0 K]|(e & Ie & Ne & Ee & K)].
      - left. split; [exact E0|]. exact (first_label_unique _ _ _ _ _ (FL' _ Ic2) _ K).
      - right. exists e. split; [rewrite Y1, Y2; exact Ie|]. split; [exact Ne|]. split; [exact Ee|]. exact (first_label_unique _ _ _ _ _ (FL' _ Ic2) _ K). }
    destruct SA as (SyA & ZA & QA).
    assert (Iw : forall c, inside (nrows (bo_watersheds out)) (ncols (bo_watersheds out)) c <-> inside (nrows dem) (ncols dem) c) by (intros c; rewrite <- X1, <- X2, <- Y1, <- Y2; reflexivity).
    assert (Ib : forall c, inside (nrows dem) (ncols dem) c -> inside (nrows (bo_labeled out)) (ncols (bo_labeled out)) c) by (intros c; rewrite <- Z1, <- Z2, W1, W2; auto).
    assert (NZ : forall e, inside (nrows dem) (ncols dem) e -> at_ (bo_labeled out) e <> 0 -> at_ (bo_labeled out') (s e) <> 0).
    { intros e Ie Ne E0. apply Ne. apply (ZA e (Ib e Ie)). exact E0. }
    split; [rewrite <- X1, <- X2, <- X1', <- X2', <- Y1, <- Y2, <- Y1', <- Y2'; apply T|]. split.
    + intros c Ic. apply Iw in Ic. destruct (Lt c Ic) as [[-> ->]|(e & Ie & Ne & Ee & K)]; [split; reflexivity|].
      split; intros H; exfalso; [apply Ne, H|]. rewrite K in H. rewrite <- Ee in Ne. exact (NZ e Ie Ne H).
    + intros c e Ic Ie. apply Iw in Ic, Ie.
      destruct (Lt c Ic) as [[-> ->]|(p & Ip & Np & Ep & Kp)]; destruct (Lt e Ie) as [[-> ->]|(q & Iq & Nq & Eq & Kq)].
      * split; reflexivity.
      * split; intros H; exfalso; [apply Nq; symmetry; exact H|]. rewrite Kq in H. rewrite <- Eq in Nq. apply (NZ q Iq Nq). symmetry. exact H.
      * split; intros H; exfalso; [apply Np; exact H|]. rewrite Kp in H. rewrite <- Ep in Np. exact (NZ p Ip Np H).
      * rewrite Kp, Kq, <- Ep, <- Eq. apply QA; apply Ib; assumption.
Qed.
