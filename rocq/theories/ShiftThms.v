(** * Raising the terrain by whole bins *)

From Coq Require Import QArith Qround Lqa Lia.
From Verif Require Import Base BaseProofs Num Float64 FillSpec FillThms LabelModel LabelSpec LabelProofs CompSpec CompProofs BluespotModel
  BluespotSpec BluespotProofs BluespotThms LabelThms VectorModel DemModel DemProofs NetModel NetworkModel RainModel PipelineModel RainThms
  NetworkSpec HypsModel HypsSpec HypsProofs HypsThms ApproxModel ApproxSpec ApproxProofs ApproxThms CompleteModel GridProofs CompleteThms.
Local Open Scope Z_scope.
Local Arguments Qplus : simpl never.
Local Arguments Qmult : simpl never.
Local Arguments Qminus : simpl never.
Local Arguments Qdiv : simpl never.

Lemma bins_of_label : forall {T} (ops : NumOps T) to_int pinf ninf lab dem w lm bg st l h,
  bluespot_hypsometry_stats ops to_int pinf ninf lab dem w lm bg = Ok st -> In (l, h) st -> l <> bg ->
  histogram_bins ops to_int (z_min h) (z_max h) w = Ok (h_bins (z_hist h)).
Proof.
  intros T ops to_int pinf ninf lab dem w lm bg st l h H Hin Nb. unfold bluespot_hypsometry_stats in H.
  apply bind_ok in H. destruct H as (n & _ & H). apply bind_ok in H. destruct H as (zst & _ & H).
  apply bind_ok in H. destruct H as (ld & _ & H).
  destruct (mmap_nth _ _ _ H) as (Len & NTH). apply In_nth_error in Hin. destruct Hin as (i & Hi).
  assert (Hx : exists x, nth_error (combine (pyrange 0 (Z.of_nat (List.length ld)) 1) ld) i = Some x).
  { destruct (nth_error (combine _ ld) i) eqn:E; eauto. apply nth_error_None in E.
    assert (i < List.length st)%nat by (apply nth_error_Some; congruence). lia. }
  destruct Hx as ((label, data) & Hx). destruct (NTH _ _ Hx) as (y & Ey & Ny). rewrite Hi in Ny. injection Ny as <-.
  apply bind_ok in Ey. destruct Ey as (s & _ & Ey). apply bind_ok in Ey. destruct Ey as (hh & Eh & Ey).
  injection Ey as -> <-. cbn [z_hist z_min z_max]. destruct (Z.eqb_spec l bg); [contradiction|].
  apply bind_ok in Eh. destruct Eh as (b & Eb & Eh). apply bind_ok in Eh. destruct Eh as (c & Ec & Eh).
  injection Eh as <-. exact Eb.
Qed.

(** ** The histogram *)

Lemma between_shift : forall (dem dem' : raster Q) s a b a' b' cs,
  (forall c, In c cs -> (at_ dem' c == at_ dem c + s)%Q) -> (a' == a + s)%Q -> (b' == b + s)%Q ->
  List.length (between a' b' (map (at_ dem') cs)) = List.length (between a b (map (at_ dem) cs)).
Proof.
  intros dem dem' s a b a' b' cs H Ha Hb. induction cs as [|c cs IH]; [reflexivity|]. cbn [map]. unfold between in *. cbn [filter].
  assert (E : Qle_bool a' (at_ dem' c) && Qltb (at_ dem' c) b' = Qle_bool a (at_ dem c) && Qltb (at_ dem c) b).
  { specialize (H c (or_introl eq_refl)). f_equal.
    - apply eq_true_iff_eq. rewrite !Qle_bool_iff. split; intros; lra.
    - unfold Qltb. f_equal. apply eq_true_iff_eq. rewrite !Qle_bool_iff. split; intros; lra. }
  assert (IH' := IH (fun c' Hc' => H c' (or_intror Hc'))).
  rewrite E. clear E IH H. destruct (Qle_bool a (at_ dem c) && Qltb (at_ dem c) b); cbn [List.length]; [f_equal|]; exact IH'.
Qed.

Lemma int_shift : forall q q' k i i', ((0 <= q /\ 0 <= q') \/ (q <= 0 /\ q' <= 0))%Q -> (q' == q + inject_Z k)%Q ->
  Q_int q = Ok i -> Q_int q' = Ok i' -> i' = i + k.
Proof.
  intros q q' k i i' P E H H'. apply Q_int_spec in H. apply Q_int_spec in H'.
  destruct H as (H & H1 & H2), H' as (H' & H1' & H2'). rewrite !inject_Z_plus in *. unfold Zminus in *. rewrite !inject_Z_plus in *.
  change (inject_Z 1) with 1%Q in *. change (inject_Z (- (1))) with (-1)%Q in *.
  assert (X : (inject_Z (i + k - 1) < inject_Z i')%Q /\ (inject_Z i' < inject_Z (i + k + 1))%Q).
  { unfold Zminus. rewrite !inject_Z_plus. change (inject_Z 1) with 1%Q. change (inject_Z (- (1))) with (-1)%Q.
    destruct P as [(P & P')|(P & P')];
      [specialize (H1 P); specialize (H1' P')|specialize (H2 P); specialize (H2' P')]; split; lra. }
  destruct X as [A B]. rewrite <- Zlt_Qlt in A, B. lia.
Qed.

Lemma mul_scale : forall w z, (0 < w)%Q -> (z * (inject_Z 1 / w) * w == z)%Q.
Proof. intros w z W. change (inject_Z 1) with 1%Q. field. lra. Qed.

(** [h'] is the hypsometry [h] raised by [s]. *)
Definition raised (s : Q) (h h' : @hyps Q) : Prop :=
  let b := h_bins (z_hist h) in let b' := h_bins (z_hist h') in
  h_counts (z_hist h') = h_counts (z_hist h) /\ b_num b' = b_num b /\ b_resolution b' = b_resolution b /\
  (b_lower b' == b_lower b + s)%Q /\ (b_upper b' == b_upper b + s)%Q /\ (z_min h' == z_min h + s)%Q /\ (z_max h' == z_max h + s)%Q.

Theorem hypsometry_raised : forall (lab : raster Z) (dem dem' : raster Q) w n pinf ninf k st st' l h h',
  same_shape dem lab -> same_shape dem' lab -> numbered lab n -> largest_label lab n -> (0 < w)%Q ->
  (forall c, inside (nrows lab) (ncols lab) c -> (ninf < at_ dem c < pinf)%Q /\ (ninf < at_ dem' c < pinf)%Q) ->
  (forall c, inside (nrows lab) (ncols lab) c -> at_ dem' c == at_ dem c + inject_Z k * w)%Q ->
  (forall c, inside (nrows lab) (ncols lab) c -> (0 <= at_ dem c /\ 0 <= at_ dem' c) \/ (at_ dem c <= 0 /\ at_ dem' c <= 0))%Q ->
  bluespot_hypsometry_stats QOps Q_int pinf ninf lab dem w None 0 = Ok st ->
  bluespot_hypsometry_stats QOps Q_int pinf ninf lab dem' w None 0 = Ok st' ->
  1 <= l <= n -> nth_error st (Z.to_nat l) = Some (l, h) -> nth_error st' (Z.to_nat l) = Some (l, h') ->
  raised (inject_Z k * w) h h'.
Proof.
  intros lab dem dem' w n pinf ninf k st st' l h h' S S' Nb LG W R Sh Sg E E' Hl Hh Hh'.
  set (s := (inject_Z k * w)%Q) in *.
  destruct (hypsometry_exact lab dem w n pinf ninf S Nb LG W (fun c H => proj1 (R c H))) as (st0 & E0 & _ & _ & F).
  destruct (hypsometry_exact lab dem' w n pinf ninf S' Nb LG W (fun c H => proj2 (R c H))) as (st0' & E0' & _ & _ & F').
  rewrite E in E0. injection E0 as <-. rewrite E' in E0'. injection E0' as <-.
  destruct (F l Hl) as (h0 & cs & Eh & HC & (I1 & LS) & (I2 & GR) & HO & _). rewrite Hh in Eh. injection Eh as <-.
  destruct (F' l Hl) as (h0' & cs' & Eh' & HC' & (I1' & LS') & (I2' & GR') & HO' & _). rewrite Hh' in Eh'. injection Eh' as <-.
  assert (cs' = cs) by (eapply lists_unique; eauto). subst cs'. clear HC'.
  assert (Ins : forall c, In c cs -> inside (nrows lab) (ncols lab) c) by (intros c Hc; apply (proj2 HC) in Hc; apply Hc).
  apply in_map_iff in I1, I2, I1', I2'.
  destruct I1 as (c1 & M1 & J1), I2 as (c2 & M2 & J2), I1' as (c1' & M1' & J1'), I2' as (c2' & M2' & J2').
  assert (A1 : (z_min h' == z_min h + s)%Q).
  { pose proof (LS (at_ dem c1') (in_map _ _ _ J1')). pose proof (LS' (at_ dem' c1) (in_map _ _ _ J1)).
    pose proof (Sh c1 (Ins _ J1)). pose proof (Sh c1' (Ins _ J1')). rewrite M1 in *. rewrite M1' in *. lra. }
  assert (A2 : (z_max h' == z_max h + s)%Q).
  { pose proof (GR (at_ dem c2') (in_map _ _ _ J2')). pose proof (GR' (at_ dem' c2) (in_map _ _ _ J2)).
    pose proof (Sh c2 (Ins _ J2)). pose proof (Sh c2' (Ins _ J2')). rewrite M2 in *. rewrite M2' in *. lra. }
  assert (G1 : ((0 <= z_min h /\ 0 <= z_min h') \/ (z_min h <= 0 /\ z_min h' <= 0))%Q).
  { pose proof (Sh c1 (Ins _ J1)). pose proof (Sg c1 (Ins _ J1)) as X. rewrite M1 in *. destruct X as [X|X]; [left|right]; split; lra. }
  assert (G2 : ((0 <= z_max h /\ 0 <= z_max h') \/ (z_max h <= 0 /\ z_max h' <= 0))%Q).
  { pose proof (Sh c2 (Ins _ J2)). pose proof (Sg c2 (Ins _ J2)) as X. rewrite M2 in *. destruct X as [X|X]; [left|right]; split; lra. }
  assert (B := bins_of_label _ _ _ _ _ _ _ _ _ _ _ _ E (nth_error_In _ _ Hh) ltac:(lia)).
  assert (B' := bins_of_label _ _ _ _ _ _ _ _ _ _ _ _ E' (nth_error_In _ _ Hh') ltac:(lia)).
  destruct HO as (HR & HN & HL & HU & HX), HO' as (HR' & HN' & HL' & HU' & HX').
  destruct h as [[ct b] z1 z2], h' as [[ct' b'] z1' z2']. cbn [z_hist h_bins h_counts z_min z_max] in *.
  unfold histogram_bins in B, B'. cbn [nmul ndiv nofZ nadd QOps] in B, B'.
  assert (SC : forall z z', ((0 <= z /\ 0 <= z') \/ (z <= 0 /\ z' <= 0))%Q -> (z' == z + s)%Q ->
    forall i i', Q_int (z * (inject_Z 1 / w)) = Ok i -> Q_int (z' * (inject_Z 1 / w)) = Ok i' -> i' = i + k).
  { intros z z' G A i i'. assert (P : (0 < inject_Z 1 / w)%Q) by (apply Qlt_shift_div_l; [exact W|change (inject_Z 1) with 1%Q; lra]).
    apply int_shift; [destruct G as [G|G]; [left|right]; split; nra|].
    rewrite A. unfold s. change (inject_Z 1) with 1%Q. field. lra. }
  apply bind_ok in B. destruct B as (i1 & Q1 & B). apply bind_ok in B. destruct B as (i2 & Q2 & B). injection B as <-.
  apply bind_ok in B'. destruct B' as (i1' & Q1' & B'). apply bind_ok in B'. destruct B' as (i2' & Q2' & B'). injection B' as <-.
  pose proof (SC _ _ G1 A1 _ _ Q1 Q1') as ->. pose proof (SC _ _ G2 A2 _ _ Q2 Q2') as ->.
  assert (N : i2 + k - (i1 + k) + 1 = i2 - i1 + 1) by lia. rewrite N in *. cbn [b_num b_lower b_upper b_resolution] in *.
  assert (LO : (inject_Z (i1 + k) * w == inject_Z i1 * w + s)%Q) by (rewrite inject_Z_plus; unfold s; ring).
  unfold raised. cbn [z_hist h_bins h_counts z_min z_max b_num b_lower b_upper b_resolution]. split.
  - apply nth_ext with (d := 0) (d' := 0); [lia|]. intros j Hj.
    assert (X := HX (Z.of_nat j) ltac:(lia)). assert (X' := HX' (Z.of_nat j) ltac:(lia)). rewrite Nat2Z.id in X, X'.
    apply nth_error_nth with (d := 0) in X. apply nth_error_nth with (d := 0) in X'. rewrite X, X'. f_equal.
    apply between_shift with (s := s); [intros c Hc; apply Sh, Ins, Hc| |]; rewrite LO; ring.
  - split; [reflexivity|]. split; [reflexivity|]. split; [exact LO|]. split; [rewrite LO; ring|]. split; [exact A1|exact A2].
Qed.

(** ** The level *)

Lemma interp_shift : forall s x xs ys ys' x0 y0 y0', Forall2 (fun y y' => (y' == y + s)%Q) ys ys' -> (y0' == y0 + s)%Q ->
  (interp_from QOps x x0 y0' (combine xs ys') == interp_from QOps x x0 y0 (combine xs ys) + s)%Q.
Proof.
  intros s x xs ys ys' x0 y0 y0' F. revert xs x0 y0 y0'. induction F as [|y y' ys ys' H F IH]; intros xs x0 y0 y0' H0.
  - destruct xs; exact H0.
  - destruct xs as [|x1 xs]; [exact H0|]. cbn [combine interp_from]. destruct (nleb QOps x1 x); [apply IH; exact H|].
    destruct (neqb QOps x0 x); [exact H0|]. cbn [nadd nmul ndiv nsub QOps]. rewrite H, H0.
    setoid_replace (y + s - (y0 + s))%Q with (y - y0)%Q by ring. ring.
Qed.

Lemma Forall2_tl : forall {A B} (R : A -> B -> Prop) l l', Forall2 R l l' -> Forall2 R (tl l) (tl l').
Proof. intros A B R l l' F. destruct F; [constructor|assumption]. Qed.
Lemma Forall2_removelast : forall {A B} (R : A -> B -> Prop) l l', Forall2 R l l' -> Forall2 R (removelast l) (removelast l').
Proof.
  intros A B R l l' F. induction F as [|x y l l' H F IH]; [constructor|]. cbn [removelast].
  destruct F; [constructor|]. constructor; assumption.
Qed.
Lemma Forall2_map_id : forall {A B C} (R : B -> C -> Prop) (f : A -> B) (g : A -> C) l, (forall x, R (f x) (g x)) -> Forall2 R (map f l) (map g l).
Proof. intros A B C R f g l H. induction l; constructor; auto. Qed.
Lemma F2_length : forall {A B} (R : A -> B -> Prop) l l', Forall2 R l l' -> List.length l = List.length l'.
Proof. intros A B R l l' F. induction F; cbn; auto. Qed.

Theorem level_raised : forall s h h' area max_depth max_vol v L, raised s h h' ->
  water_level QOps h area max_depth max_vol v = Ok L ->
  exists L', water_level QOps h' area max_depth max_vol v = Ok L' /\ (L' == L + s)%Q.
Proof.
  intros s h h' area md mv v L (C & N & Rs & Lo & _ & A1 & A2) H. unfold water_level in *.
  destruct (_ || _).
  - injection H as <-. eexists. split; [reflexivity|]. cbn [nadd QOps]. rewrite A1. ring.
  - assert (CV : cumulative_volume QOps (z_hist h') area = cumulative_volume QOps (z_hist h) area)
      by (unfold cumulative_volume; rewrite C, Rs; reflexivity).
    rewrite CV.
    assert (F : Forall2 (fun y y' => (y' == y + s)%Q)
      ((z_min h :: inner (bin_waterlevel_z QOps (h_bins (z_hist h)))) ++ [z_max h])
      ((z_min h' :: inner (bin_waterlevel_z QOps (h_bins (z_hist h')))) ++ [z_max h'])).
    { apply Forall2_app; [|constructor; [exact A2|constructor]]. constructor; [exact A1|].
      apply Forall2_removelast, Forall2_tl. unfold bin_waterlevel_z. rewrite N, Rs. apply Forall2_map_id.
      intros i. cbn [nadd nmul ndiv nofZ QOps]. rewrite Lo. ring. }
    unfold interp in *. rewrite <- (F2_length _ _ _ F). destruct (negb _); [discriminate H|].
    destruct ((nofZ QOps 0 :: inner (cumulative_volume QOps (z_hist h) area)) ++ [mv]) as [|x0 xs]; [discriminate H|].
    destruct F as [|y y' ys ys' Hy F]; [discriminate H|]. cbn [combine] in *. injection H as <-. eexists. split; [reflexivity|].
    cbn [nltb QOps]. destruct (Qltb v x0); [exact Hy|]. apply interp_shift; assumption.
Qed.

Theorem levels_rise : forall (lab : raster Z) (dem dem' : raster Q) w n pinf ninf k st st' l h h',
  same_shape dem lab -> same_shape dem' lab -> numbered lab n -> largest_label lab n -> (0 < w)%Q ->
  (forall c, inside (nrows lab) (ncols lab) c -> (ninf < at_ dem c < pinf)%Q /\ (ninf < at_ dem' c < pinf)%Q) ->
  (forall c, inside (nrows lab) (ncols lab) c -> at_ dem' c == at_ dem c + inject_Z k * w)%Q ->
  (forall c, inside (nrows lab) (ncols lab) c -> (0 <= at_ dem c /\ 0 <= at_ dem' c) \/ (at_ dem c <= 0 /\ at_ dem' c <= 0))%Q ->
  bluespot_hypsometry_stats QOps Q_int pinf ninf lab dem w None 0 = Ok st ->
  bluespot_hypsometry_stats QOps Q_int pinf ninf lab dem' w None 0 = Ok st' ->
  1 <= l <= n -> nth_error st (Z.to_nat l) = Some (l, h) -> nth_error st' (Z.to_nat l) = Some (l, h') ->
  h_counts (z_hist h') = h_counts (z_hist h) /\
  (b_lower (h_bins (z_hist h')) == b_lower (h_bins (z_hist h)) + inject_Z k * w)%Q /\
  forall area max_depth max_vol v L, water_level QOps h area max_depth max_vol v = Ok L ->
  exists L', water_level QOps h' area max_depth max_vol v = Ok L' /\ (L' == L + inject_Z k * w)%Q.
Proof.
  intros lab dem dem' w n pinf ninf k st st' l h h' S S' Nb LG W R Sh Sg E E' Hl Hh Hh'.
  assert (X := hypsometry_raised lab dem dem' w n pinf ninf k st st' l h h' S S' Nb LG W R Sh Sg E E' Hl Hh Hh').
  split; [apply X|]. split; [apply X|]. intros area md mv v L H. exact (level_raised _ _ _ _ _ _ _ _ X H).
Qed.

(** ** Depths and extents *)

Lemma in_nodup : forall {V} (l : list (Z * V)) k x y, NoDup (map fst l) -> In (k, x) l -> In (k, y) l -> x = y.
Proof.
  intros V l k x y. induction l as [|[j z] l IH]; [intros _ []|]. cbn [map fst]. intros ND. inversion ND; subst.
  intros [A|A] [B|B].
  - congruence.
  - injection A as -> ->. exfalso. apply H1. apply in_map_iff. exists (k, y). auto.
  - injection B as -> ->. exfalso. apply H1. apply in_map_iff. exists (k, x). auto.
  - apply IH; assumption.
Qed.

Lemma F2_in : forall {A B} (R : A -> B -> Prop) l l' y, Forall2 R l l' -> In y l' -> exists x, In x l /\ R x y.
Proof.
  intros A B R l l' y F. induction F; [intros []|]. intros [->|I]; [exists x; split; [left; reflexivity|assumption]|].
  destruct (IHF I) as (x' & I' & H'). exists x'. split; [right|]; assumption.
Qed.

Theorem depths_stay : forall (lab : raster Z) levels levels' (dem dem' : raster Q) s background lab1 depths lab1' depths',
  (forall c, inside (nrows lab) (ncols lab) c -> 0 <= at_ lab c) -> NoDup (map fst levels) ->
  Forall2 (fun x y => fst y = fst x /\ snd y == snd x + s)%Q levels levels' ->
  (forall c, inside (nrows lab) (ncols lab) c -> at_ dem' c == at_ dem c + s /\ -999 <= at_ dem c /\ -999 <= at_ dem' c)%Q ->
  approx_bluespots QOps lab levels dem background = Ok (lab1, depths) ->
  approx_bluespots QOps lab levels' dem' background = Ok (lab1', depths') ->
  forall c, inside (nrows lab) (ncols lab) c -> at_ lab1' c = at_ lab1 c /\ (at_ depths' c == at_ depths c)%Q.
Proof.
  intros lab lv lv' dem dem' s bg lab1 dep lab1' dep' P ND F Sh H H' c Hc.
  assert (Fs : map fst lv' = map fst lv) by (clear - F; induction F as [|x y l l' (A & _) F IH]; cbn [map]; congruence).
  assert (ND' : NoDup (map fst lv')) by (rewrite Fs; exact ND).
  destruct (approx_exact _ _ _ _ _ _ P ND H) as (_ & _ & _ & A). destruct (approx_exact _ _ _ _ _ _ P ND' H') as (_ & _ & _ & A').
  destruct (A c Hc) as (A1 & A2), (A' c Hc) as (A1' & A2'). destruct (Sh c Hc) as (Ec & G & G').
  destruct (Z.eq_dec (at_ lab c) bg) as [B|B].
  - destruct (A1 B) as (X & Y), (A1' B) as (X' & Y'). split; [congruence|]. rewrite (Y G), (Y' G'). reflexivity.
  - destruct (A2 B) as (z & I & Z1 & Z2 & Z3 & Z4), (A2' B) as (z' & I' & Z1' & Z2' & Z3' & Z4').
    destruct (F2_in _ _ _ _ F I') as ((l0 & z0) & I0 & E0 & E1). cbn [fst snd] in E0, E1. subst l0.
    pose proof (in_nodup _ _ _ _ ND I0 I) as ->. clear A A' A1 A1' A2 A2' H H'.
    destruct (Qlt_le_dec z (at_ dem c)) as [X|X].
    + assert (X' : (z' < at_ dem' c)%Q) by lra. split; [rewrite (Z2 X), (Z2' X'); reflexivity|]. rewrite (Z1 X), (Z1' X'). reflexivity.
    + assert (X' : (at_ dem' c <= z')%Q) by lra. split; [rewrite (Z4 X), (Z4' X'); reflexivity|]. rewrite (Z3 X), (Z3' X'), E1, Ec. ring.
Qed.

(** ** Terrain below zero: bins of 8 m, highest cell of the bluespot at -14, spill level -13.  The highest
    interior point of the interpolation is the middle of the bin from -16 to -8, at -12. *)
Definition low_dem : raster b64 := zrows [[0; 0; 0; 0]; [0; -80; -14; -13]; [0; 0; 0; 0]].
Definition high_dem : raster b64 := zrows [[80; 80; 80; 80]; [80; 0; 66; 67]; [80; 80; 80; 80]].
Definition low_run (mm : Q) := complete_all false cc_memo 20 ex_gt low_dem all_pass true mm 8%Q.
Definition high_run (mm : Q) := complete_all false cc_memo 20 ex_gt high_dem all_pass true mm 8%Q.

Lemma low_ok : dem32 low_dem /\ dem_finite low_dem.
Proof. apply dem_ok. vm_compute. reflexivity. Qed.
Lemma high_ok : dem32 high_dem /\ dem_finite high_dem.
Proof. apply dem_ok. vm_compute. reflexivity. Qed.

Lemma high_is_low : forall c, inside 3 4 c -> (b64_Q (at_ high_dem c) == b64_Q (at_ low_dem c) + inject_Z 10 * 8)%Q.
Proof.
  assert (X : forallb (fun c => Qeq_bool (b64_Q (at_ high_dem c)) (b64_Q (at_ low_dem c) + inject_Z 10 * 8)) (cells_of 3 4) = true)
    by (vm_compute; reflexivity).
  rewrite forallb_forall in X. intros c Hc. apply Qeq_bool_iff. apply X. apply in_cells_of. exact Hc.
Qed.

Definition depth_is (r : res complete_all_out) (c : cell) (full d : Q) : bool :=
  at_run r (fun a => Qeq_bool (b64_Q (at_ (do_depths (ca_dem a)) c)) full && Qeq_bool (at_ (fo_depths (ca_finish a)) c) d).
Lemma depth_is_ok : forall r c full d, depth_is r c full d = true -> exists a, r = Ok a /\
  (b64_Q (at_ (do_depths (ca_dem a)) c) == full)%Q /\ (at_ (fo_depths (ca_finish a)) c == d)%Q.
Proof.
  intros [a| |] c full d H; try discriminate H. cbn [depth_is at_run] in H. apply andb_prop in H. destruct H as [A B].
  exists a. split; [reflexivity|]. split; apply Qeq_bool_iff; assumption.
Qed.

Theorem below_zero : exists a a', low_run 32000%Q = Ok a /\ high_run 32000%Q = Ok a' /\
  (forall c, inside 3 4 c -> (b64_Q (at_ high_dem c) == b64_Q (at_ low_dem c) + inject_Z 10 * 8)%Q) /\
  (b64_Q (at_ (do_depths (ca_dem a)) (1, 1)%Z) == 67)%Q /\ (at_ (fo_depths (ca_finish a)) (1, 1)%Z == 68)%Q /\
  (b64_Q (at_ (do_depths (ca_dem a')) (1, 1)%Z) == 67)%Q /\ (at_ (fo_depths (ca_finish a')) (1, 1)%Z == 64)%Q.
Proof.
  destruct (depth_is_ok (low_run 32000%Q) (1, 1) 67 68) as (a & E & A & B); [vm_compute; reflexivity|].
  destruct (depth_is_ok (high_run 32000%Q) (1, 1) 67 64) as (a' & E' & A' & B'); [vm_compute; reflexivity|].
  exists a, a'. split; [exact E|]. split; [exact E'|]. split; [exact high_is_low|]. split; [exact A|]. split; [exact B|]. split; assumption.
Qed.

Theorem below_zero_bounds : exists a, dem32 low_dem /\ dem_finite low_dem /\ size_ok false low_dem /\ low_run 32000%Q = Ok a /\
  (b64_Q (at_ (do_depths (ca_dem a)) (1, 1)%Z) == 67)%Q /\ (at_ (fo_depths (ca_finish a)) (1, 1)%Z == 68)%Q.
Proof.
  destruct (depth_is_ok (low_run 32000%Q) (1, 1) 67 68) as (a & E & A & B); [vm_compute; reflexivity|].
  exists a. split; [apply low_ok|]. split; [apply low_ok|]. split; [split; cbn; lia|]. split; [exact E|]. split; assumption.
Qed.

Theorem below_zero_more_rain : exists a a', dem32 low_dem /\ dem_finite low_dem /\ size_ok false low_dem /\
  low_run 32000%Q = Ok a /\ low_run 33000%Q = Ok a' /\
  (at_ (fo_depths (ca_finish a)) (1, 1)%Z == 68)%Q /\ (at_ (fo_depths (ca_finish a')) (1, 1)%Z == 67)%Q.
Proof.
  destruct (depth_is_ok (low_run 32000%Q) (1, 1) 67 68) as (a & E & A & B); [vm_compute; reflexivity|].
  destruct (depth_is_ok (low_run 33000%Q) (1, 1) 67 67) as (a' & E' & A' & B'); [vm_compute; reflexivity|].
  exists a, a'. split; [apply low_ok|]. split; [apply low_ok|]. split; [split; cbn; lia|]. split; [exact E|]. split; [exact E'|]. split; assumption.
Qed.

Lemma shift_example_sign : forall c, inside (nrows hy_lab) (ncols hy_lab) c ->
  (0 <= at_ hy_dem c /\ 0 <= at_ (mkRaster (nrows hy_dem) (ncols hy_dem) (fun i j => rget hy_dem i j + inject_Z 4 * (1 # 4))%Q) c)%Q.
Proof.
  intros c Hc. apply in_cells_of in Hc. vm_compute in Hc.
  repeat (destruct Hc as [<-|Hc]; [split; vm_compute; discriminate|]). destruct Hc.
Qed.
