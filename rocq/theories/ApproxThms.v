(** * Theorems about approximate water levels and extents *)

From Coq Require Import QArith Lqa.
From Flocq Require Import Core IEEE754.BinarySingleNaN.
From Verif Require Import Base BaseProofs Num Float64 Float64Proofs Float64Arith Float64Scale FillSpec FillProofs Dict DictProofs
  LabelModel LabelSpec LabelProofs CompProofs BluespotSpec BluespotProofs LabelThms NetworkSpec NetworkThms
  HypsModel HypsSpec HypsProofs HypsThms ApproxModel ApproxSpec ApproxProofs.
Local Open Scope Z_scope.
Local Arguments Qplus : simpl never.
Local Arguments Qmult : simpl never.
Local Arguments Qminus : simpl never.
Local Arguments Qdiv : simpl never.

(** ** From the raster to the hypsometry of one bluespot *)

Lemma hypsometry_of_label : forall (lab : raster Z) (dem : raster Q) w n pinf ninf st l h cs,
  same_shape dem lab -> numbered lab n -> largest_label lab n -> (0 < w)%Q ->
  (forall c, inside (nrows lab) (ncols lab) c -> (ninf < at_ dem c < pinf)%Q) ->
  bluespot_hypsometry_stats QOps Q_int pinf ninf lab dem w None 0 = Ok st ->
  1 <= l <= n -> nth_error st (Z.to_nat l) = Some (l, h) -> lists_cells (has_label lab l) cs ->
  (forall c, In c cs -> (0 <= at_ dem c)%Q) ->
  hypsometry_of (map (at_ dem) cs) w h.
Proof.
  intros lab dem w n pinf ninf st l h cs S Nb LG W R E Hl Hh HC P.
  destruct (hypsometry_exact lab dem w n pinf ninf S Nb LG W R) as (st' & E' & _ & LN & F).
  rewrite E in E'. injection E' as <-. destruct (F l Hl) as (h' & cs' & Eh & HC' & LS & GR & HO & U & LW1 & LW2 & _ & PB).
  rewrite Hh in Eh. injection Eh as <-. assert (cs' = cs) by (eapply lists_unique; eauto). subst cs'.
  assert (Z0 : (0 <= z_min h)%Q).
  { destruct LS as (I & _). apply in_map_iff in I. destruct I as (c & <- & Hc). auto. }
  destruct (PB Z0) as (B1 & B2 & _).
  unfold hypsometry_of. split; auto. split; auto. split; auto. split; [split; lra|]. split; lra.
Qed.

(** ** C43 *)

Lemma no_volume : forall zs a spill h w max_depth max_vol, hypsometry_of zs w h ->
  bluespot_attributes zs a spill h max_depth max_vol -> (max_vol == 0)%Q -> (spill == z_min h)%Q.
Proof.
  intros zs a spill h w max_depth max_vol ((I & L) & _) (A & Sp & D & V) E.
  destruct (Qlt_le_dec (z_min h) spill) as [X|X].
  - exfalso. pose proof (volume_strict a zs (z_min h) spill (z_min h) A X I X) as Y.
    pose proof (volume_nonneg a zs (z_min h) A). lra.
  - pose proof (Sp _ I). lra.
Qed.

Lemma level_sane : forall zs w a spill h max_depth max_vol, (0 < w)%Q -> hypsometry_of zs w h ->
  bluespot_attributes zs a spill h max_depth max_vol ->
  (forall v, exists L, water_level QOps h a max_depth max_vol v = Ok L /\ (z_min h <= L <= spill)%Q /\
     (max_vol <= v -> L == spill)%Q /\ (v <= 0 -> L == z_min h)%Q) /\
  (forall v v' L L', (v <= v')%Q -> water_level QOps h a max_depth max_vol v = Ok L ->
     water_level QOps h a max_depth max_vol v' = Ok L' -> (L <= L')%Q).
Proof.
  intros zs w a spill h max_depth max_vol W H B. destruct (Qeq_dec max_vol 0) as [E|N].
  - pose proof (no_volume _ _ _ _ _ _ _ H B E) as SZ. destruct B as (A & Sp & D & V).
    assert (WL : forall v, water_level QOps h a max_depth max_vol v = Ok (z_min h + max_depth)%Q).
    { intros v. unfold water_level. cbn [neqb QOps nofZ].
      replace (Qeq_bool max_vol (inject_Z 0)) with true by (symmetry; apply Qeq_bool_iff; exact E). reflexivity. }
    split.
    + intros v. eexists. split; [apply WL|]. split; [split; lra|]. split; intros _; lra.
    + intros v v' L L' _ E1 E2. rewrite WL in E1, E2. injection E1 as <-. injection E2 as <-. lra.
  - split.
    + intros v. destruct (level_ok zs w a spill h max_depth max_vol W H B N v) as (L & EL). exists L. split; auto.
      split; [eapply level_bounds; eauto|]. split; intros; [eapply level_full; eauto | eapply level_empty; eauto].
    + intros. eapply (level_mono zs w a spill h max_depth max_vol W H B N v v'); eauto.
Qed.

Theorem water_level_sane : forall (lab : raster Z) (dem : raster Q) w n pinf ninf st l h cs a spill max_depth max_vol,
  same_shape dem lab -> numbered lab n -> largest_label lab n -> (0 < w)%Q ->
  (forall c, inside (nrows lab) (ncols lab) c -> (ninf < at_ dem c < pinf)%Q) ->
  bluespot_hypsometry_stats QOps Q_int pinf ninf lab dem w None 0 = Ok st ->
  1 <= l <= n -> nth_error st (Z.to_nat l) = Some (l, h) -> lists_cells (has_label lab l) cs ->
  (forall c, In c cs -> (0 <= at_ dem c <= spill)%Q) -> (0 < a)%Q ->
  (max_depth == spill - z_min h)%Q -> (max_vol == volume_at a (map (at_ dem) cs) spill)%Q ->
  (forall v, exists L, water_level QOps h a max_depth max_vol v = Ok L /\ (z_min h <= L <= spill)%Q /\
     (max_vol <= v -> L == spill)%Q /\ (v <= 0 -> L == z_min h)%Q) /\
  (forall v v' L L', (v <= v')%Q -> water_level QOps h a max_depth max_vol v = Ok L ->
     water_level QOps h a max_depth max_vol v' = Ok L' -> (L <= L')%Q).
Proof.
  intros lab dem w n pinf ninf st l h cs a spill max_depth max_vol S Nb LG W R E Hl Hh HC P A D V.
  apply (level_sane (map (at_ dem) cs) w a spill); auto.
  - eapply hypsometry_of_label; eauto. intros c Hc. apply (P c Hc).
  - split; auto. split; auto. intros z Hz. apply in_map_iff in Hz. destruct Hz as (c & <- & Hc). apply P; auto.
Qed.

(** ** The level of each pour point *)

Lemma index_last : forall {V} (key : V -> Z) l d, NoDup (map key l) ->
  (forall x, In x l -> ~ In (key x) (map fst d)) ->
  forall k v, dget Z.eqb (fold_left (fun d f => dset Z.eqb d (key f) f) l d) k = Some v ->
  (In v l /\ key v = k) \/ dget Z.eqb d k = Some v.
Proof.
  intros V key. induction l as [|x l IH]; intros d ND F k v H; cbn [fold_left] in H; auto.
  cbn [map] in ND. apply NoDup_cons_iff in ND. destruct ND as (N1 & N2).
  apply IH in H; auto.
  - destruct H as [(I & K)|H]; [left; split; [right; auto|auto]|].
    destruct (Z.eq_dec (key x) k) as [<-|N].
    + rewrite (dget_dset_same _ Z.eqb_spec) in H. injection H as <-. left. split; [left|]; auto.
    + rewrite (dget_dset_other _ Z.eqb_spec) in H by auto. auto.
  - intros y Hy X. apply (dset_keys _ Z.eqb_spec) in X. destruct X as [X|X].
    + apply N1. rewrite <- X. apply in_map; auto.
    + apply (F y); [right; auto|auto].
Qed.

Lemma index_has : forall {V} (key : V -> Z) l d k, In k (map key l) \/ In k (map fst d) ->
  exists v, dget Z.eqb (fold_left (fun d f => dset Z.eqb d (key f) f) l d) k = Some v.
Proof.
  intros V key. induction l as [|x l IH]; intros d k H; cbn [fold_left].
  - destruct H as [[]|H]. destruct (dget Z.eqb d k) eqn:E; eauto. exfalso.
    apply (dget_none _ Z.eqb_spec) in E. auto.
  - apply IH. cbn [map] in H. destruct H as [[->|H]|H]; auto.
    + right. apply (dset_keys _ Z.eqb_spec). auto.
    + right. apply (dset_keys _ Z.eqb_spec). auto.
Qed.

Theorem levels_io_sound : forall {T} (ops : NumOps T) finalvols hfs out, NoDup (map hi_bspot hfs) ->
  approx_water_level_io ops finalvols hfs = Ok out ->
  map (fun o => (lf_bspot o, lf_v o)) out = map (fun f => (ff_bspot f, ff_v f)) (filter ff_pourpoint finalvols) /\
  forall o, In o out -> exists i h, In i hfs /\ hi_bspot i = lf_bspot o /\ hyps_from_flatdict (hi_dict i) = Ok h /\
    water_level ops h (hi_cell_area i) (hi_max_depth i) (hi_max_vol i) (lf_v o) = Ok (lf_z o) /\
    lf_dmax o = nsub ops (lf_z o) (z_min h).
Proof.
  intros T ops fv hfs out ND H. unfold approx_water_level_io in H.
  generalize dependent out. induction (filter ff_pourpoint fv) as [|f fs IH]; intros out H; cbn [mmap] in H.
  - injection H as <-. split; auto. intros o [].
  - apply bind_ok in H. destruct H as (o & E & H). apply bind_ok in H. destruct H as (os & Es & H). injection H as <-.
    apply bind_ok in E. destruct E as (i & Ei & E). apply bind_ok in E. destruct E as (h & Eh & E).
    apply bind_ok in E. destruct E as (L & EL & E). injection E as <-.
    destruct (IH _ Es) as (M & F). split; [cbn; f_equal; auto|].
    intros o [<-|Ho]; [|auto]. cbn [lf_bspot lf_v lf_z lf_dmax]. exists i, h. unfold dget_err in Ei.
    destruct (dget Z.eqb _ (ff_bspot f)) as [i'|] eqn:Ed in Ei; [|discriminate]. injection Ei as ->.
    apply index_last in Ed; auto. destruct Ed as [(I1 & I2)|Ed]; [|discriminate]. auto.
Qed.

Lemma cumsum_length : forall {T} (ops : NumOps T) l, List.length (cumsum ops l) = List.length l.
Proof.
  intros T ops l. assert (G : forall l a, List.length (cumsum_from ops a l) = List.length l).
  { induction l0 as [|x l0 IH]; intros a; cbn [cumsum_from List.length]; [reflexivity|]. rewrite IH. reflexivity. }
  destruct l; cbn [cumsum List.length]; [reflexivity|]. rewrite G. reflexivity.
Qed.

Lemma removelast_length : forall {A} (l : list A), List.length (removelast l) = Nat.pred (List.length l).
Proof.
  induction l as [|x l IH]; [reflexivity|]. destruct l as [|y l]; [reflexivity|].
  change (removelast (x :: y :: l)) with (x :: removelast (y :: l)). cbn [List.length] in *. rewrite IH. reflexivity.
Qed.

Lemma inner_length : forall {A} (l : list A), List.length (inner l) = (List.length l - 2)%nat.
Proof. intros A l. unfold inner. rewrite removelast_length. destruct l; cbn [tl List.length]; lia. Qed.

(** The level can be computed from every histogram with as many counts as bins. *)
Theorem water_level_total : forall {T} (ops : NumOps T) h area max_depth max_vol v,
  Z.of_nat (List.length (h_counts (z_hist h))) = b_num (h_bins (z_hist h)) ->
  exists L, water_level ops h area max_depth max_vol v = Ok L.
Proof.
  intros T ops h area md mv v E. unfold water_level. destruct (_ || _); [eauto|]. unfold interp.
  assert (N : List.length ((nofZ ops 0 :: inner (cumulative_volume ops (z_hist h) area)) ++ [mv]) =
              List.length ((z_min h :: inner (bin_waterlevel_z ops (h_bins (z_hist h)))) ++ [z_max h])).
  { rewrite !app_length. cbn [List.length]. rewrite !inner_length. unfold cumulative_volume, bin_waterlevel_z.
    rewrite cumsum_length, !map_length, pyrange_from0, zseq_length. cbn [List.length]. rewrite removelast_length, cumsum_length, map_length. lia. }
  rewrite N, Nat.eqb_refl. cbn [negb app combine]. eauto.
Qed.

Theorem levels_io_total : forall {T} (ops : NumOps T) finalvols hfs,
  (forall f, In f finalvols -> ff_pourpoint f = true -> In (ff_bspot f) (map hi_bspot hfs)) ->
  (forall i, In i hfs -> exists h, hyps_from_flatdict (hi_dict i) = Ok h /\
     Z.of_nat (List.length (h_counts (z_hist h))) = b_num (h_bins (z_hist h))) ->
  NoDup (map hi_bspot hfs) ->
  exists out, approx_water_level_io ops finalvols hfs = Ok out.
Proof.
  intros T ops fv hfs K A ND. unfold approx_water_level_io. apply mmap_ok. intros f Hf. apply filter_In in Hf. destruct Hf as (Hf & Pf).
  destruct (index_has hi_bspot hfs [] (ff_bspot f)) as (i & Ei); [left; auto|]. unfold dget_err. rewrite Ei. cbn [bind].
  apply index_last in Ei; auto. destruct Ei as [(Ii & _)|Ei]; [|discriminate].
  destruct (A i Ii) as (h & Eh & N). rewrite Eh. cbn [bind].
  destruct (water_level_total ops h (hi_cell_area i) (hi_max_depth i) (hi_max_vol i) (ff_v f) N) as (L & ->). cbn [bind]. eauto.
Qed.

(** ** The exact level *)

Fixpoint qmax (m : Q) (l : list Q) : Q :=
  match l with [] => m | x :: t => qmax (if Qlt_le_dec m x then x else m) t end.

Lemma qmax_spec : forall l m, In (qmax m l) (m :: l) /\ forall x, In x (m :: l) -> (x <= qmax m l)%Q.
Proof.
  induction l as [|y l IH]; intros m; cbn [qmax].
  - split; [left; auto|]. intros x [<-|[]]. lra.
  - destruct (Qlt_le_dec m y) as [X|X].
    + destruct (IH y) as (A & B). split; [right; auto|]. intros x [<-|Hx]; [|auto].
      specialize (B y (or_introl eq_refl)). lra.
    + destruct (IH m) as (A & B). split; [destruct A as [A|A]; [left|right; right]; auto|].
      intros x [<-|[<-|Hx]]; [apply B; left; auto | | apply B; right; auto].
      specialize (B m (or_introl eq_refl)). lra.
Qed.

Lemma argmin : forall {A} (f : A -> Q) l, l <> [] -> exists x, In x l /\ forall y, In y l -> (f x <= f y)%Q.
Proof.
  intros A f. induction l as [|x l IH]; intros N; [congruence|]. destruct l as [|y l].
  - exists x. split; [left; auto|]. intros y [<-|[]]. lra.
  - destruct IH as (z & Iz & Hz); [discriminate|]. destruct (Qlt_le_dec (f x) (f z)) as [X|X].
    + exists x. split; [left; auto|]. intros t [<-|Ht]; [lra|]. specialize (Hz t Ht). lra.
    + exists z. split; [right; auto|]. intros t [<-|Ht]; auto.
Qed.

Definition upto (y : Q) (zs : list Q) : list Q := filter (fun z => Qle_bool z y) zs.

Lemma sum_lower : forall y E zs, (inject_Z (Z.of_nat (length (upto y zs))) * E - Qsum (upto y zs) <= Qsum (map (clamp E) zs))%Q.
Proof.
  intros y E. induction zs as [|z zs IH]; cbn [map Qsum upto filter].
  - cbn [length Z.of_nat]. change (inject_Z 0) with 0%Q. lra.
  - unfold upto in *. unfold clamp at 1. destruct (Qle_bool z y); cbn [length Qsum].
    + rewrite Nat2Z.inj_succ. unfold Z.succ. rewrite inject_S. destruct (Qlt_le_dec z E); lra.
    + destruct (Qlt_le_dec z E); lra.
Qed.

Lemma sum_equal : forall y E zs, (forall z, In z zs -> ((z <= y)%Q <-> (z < E)%Q)) ->
  (Qsum (map (clamp E) zs) == inject_Z (Z.of_nat (length (upto y zs))) * E - Qsum (upto y zs))%Q.
Proof.
  intros y E. induction zs as [|z zs IH]; intros H; cbn [map Qsum upto filter].
  - cbn [length Z.of_nat]. change (inject_Z 0) with 0%Q. lra.
  - specialize (IH (fun z' Hz => H z' (or_intror Hz))). pose proof (H z (or_introl eq_refl)) as Hz.
    unfold upto in *. unfold clamp at 1. destruct (Qle_bool z y) eqn:X; cbn [length Qsum].
    + apply Qle_bool_iff in X. rewrite Nat2Z.inj_succ. unfold Z.succ. rewrite inject_S.
      destruct (Qlt_le_dec z E); [lra|]. apply Hz in X. lra.
    + destruct (Qlt_le_dec z E) as [Y|Y]; [|lra]. apply Hz in Y. apply Qle_bool_iff in Y. congruence.
Qed.

Lemma sum_zero : forall E zs, (forall z, In z zs -> (E <= z)%Q) -> (Qsum (map (clamp E) zs) == 0)%Q.
Proof.
  intros E. induction zs as [|z zs IH]; intros F; cbn [map Qsum]; [reflexivity|].
  specialize (IH (fun z' Hz => F z' (or_intror Hz))). specialize (F z (or_introl eq_refl)).
  unfold clamp at 1. destruct (Qlt_le_dec z E); lra.
Qed.

(** Every non-negative volume has a level. *)
Theorem exact_level : forall a zs v, (0 < a)%Q -> zs <> [] -> (0 <= v)%Q -> exists E, (volume_at a zs E == v)%Q.
Proof.
  intros a zs v A N V.
  set (cnt := fun y => inject_Z (Z.of_nat (length (upto y zs)))).
  set (cand := fun y => ((v / a + Qsum (upto y zs)) / cnt y)%Q).
  assert (CP : forall y, In y zs -> (1 <= cnt y)%Q).
  { intros y Hy. unfold cnt. assert (In y (upto y zs)) by (apply filter_In; split; auto; apply Qle_bool_iff; lra).
    destruct (upto y zs) as [|t T]; [contradiction|]. change 1%Q with (inject_Z 1). rewrite <- Zle_Qle. cbn [length]. lia. }
  assert (CE : forall y, In y zs -> (cnt y * cand y - Qsum (upto y zs) == v / a)%Q).
  { intros y Hy. specialize (CP y Hy). unfold cand. rewrite Qmult_div_r by lra. ring. }
  assert (VA : (a * (v / a) == v)%Q) by (apply Qmult_div_r; lra).
  destruct (argmin cand zs N) as (y & Hy & My). exists (cand y). rewrite vol_clamp.
  set (E := cand y) in *.
  assert (G : (v / a <= Qsum (map (clamp E) zs))%Q).
  { rewrite <- (CE y Hy). apply sum_lower. }
  assert (U : (Qsum (map (clamp E) zs) <= v / a)%Q).
  { set (low := filter (fun z => Qltb z E) zs). destruct low as [|t T] eqn:EL.
    - assert (Z0 : (Qsum (map (clamp E) zs) == 0)%Q).
      { assert (F : forall z, In z zs -> (E <= z)%Q).
        { intros z Hz. destruct (Qlt_le_dec z E) as [X|X]; auto. exfalso.
          assert (I : In z low) by (apply filter_In; split; auto; apply Qltb_lt; auto). rewrite EL in I. destruct I. }
        apply sum_zero; auto. }
      rewrite Z0. apply Qle_shift_div_l; lra.
    - destruct (qmax_spec T t) as (I & MX). rewrite <- EL in I, MX. set (m := qmax t T) in *.
      apply filter_In in I. destruct I as (Im & Lm). apply Qltb_lt in Lm.
      rewrite (sum_equal m E).
      + pose proof (My m Im) as X. fold E in X. specialize (CE m Im). specialize (CP m Im). fold (cnt m).
        rewrite <- CE. assert (cnt m * E <= cnt m * cand m)%Q; [|lra]. apply Qmult_le_l; lra.
      + intros z Hz. split; intros X; [lra|]. apply MX. apply filter_In. split; auto. apply Qltb_lt; auto. }
  assert (EQ : (Qsum (map (clamp E) zs) == v / a)%Q) by (apply Qle_antisym; auto). rewrite EQ. exact VA.
Qed.

(** ** C44 *)

Lemma level_two_bins_zs : forall zs w a spill h max_depth max_vol v L E, (0 < w)%Q -> hypsometry_of zs w h ->
  bluespot_attributes zs a spill h max_depth max_vol -> (0 <= v)%Q -> (v <= (9999 # 10000) * max_vol)%Q ->
  (v <= volume_at a zs (b_upper (h_bins (z_hist h)) - 2 * w) \/
   exists x, nth_error (cumulative_volume QOps (z_hist h) a) (Z.to_nat (b_num (h_bins (z_hist h)) - 2)) = Some x /\ v <= x)%Q ->
  water_level QOps h a max_depth max_vol v = Ok L -> (z_min h <= E)%Q -> (volume_at a zs E == v)%Q ->
  (L - E <= 2 * w /\ E - L <= 2 * w)%Q.
Proof.
  intros zs w a spill h max_depth max_vol v L E W H B V NF VX EL ZE VE.
  pose proof H as (LS & _ & HO & (B1 & B2) & B3 & B4). pose proof HO as (_ & N1 & _ & UB & _).
  pose proof B as (A & Sp & D & VM).
  destruct (Qeq_dec max_vol 0) as [MV|MV].
  { pose proof (no_volume _ _ _ _ _ _ _ H B MV) as SZ.
    destruct (level_sane _ _ _ _ _ _ _ W H B) as (X & _). destruct (X v) as (L' & E' & BD & _). rewrite EL in E'. injection E' as <-.
    assert (E == z_min h)%Q; [|lra].
    destruct (Qlt_le_dec (z_min h) E) as [Y|Y]; [|lra]. exfalso. destruct LS as (I & _).
    pose proof (volume_strict a zs (z_min h) E (z_min h) A Y I Y). pose proof (volume_nonneg a zs (z_min h) A). lra. }
  assert (NFl : ~ nearly_full max_vol v).
  { unfold nearly_full. intros X. pose proof (max_vol_pos zs a spill h max_depth max_vol B MV) as MP.
    assert (v / max_vol <= 9999 # 10000)%Q by (apply Qle_shift_div_r; lra). lra. }
  assert (ZERO : (v <= 0)%Q -> (L == E)%Q).
  { intros V0. rewrite (level_empty zs w a spill h max_depth max_vol W H B MV v L V0 EL).
    destruct (Qlt_le_dec (z_min h) E) as [Y|Y]; [|lra]. exfalso. destruct LS as (I & _).
    pose proof (volume_strict a zs (z_min h) E (z_min h) A Y I Y). pose proof (volume_nonneg a zs (z_min h) A). lra. }
  destruct (Z_lt_le_dec (b_num (h_bins (z_hist h))) 3) as [N3|N3].
  - assert (X : (L == E)%Q); [|lra]. apply ZERO. destruct VX as [VX|(x & Ex & VX)].
    + rewrite volume_zero in VX; auto. intros z Hz. destruct LS as (_ & LS). specialize (LS z Hz).
      assert (inject_Z (b_num (h_bins (z_hist h))) <= 2)%Q.
      { change 2%Q with (inject_Z 2). rewrite <- Zle_Qle. lia. }
      assert (inject_Z (b_num (h_bins (z_hist h))) * w <= 2 * w)%Q by (apply Qmult_le_compat_r; lra). lra.
    + replace (Z.to_nat (b_num (h_bins (z_hist h)) - 2)) with 0%nat in Ex by lia.
      apply (cum_nth zs w a h W H) in Ex; [|lia].
      rewrite (C_0 zs w a h) in Ex. lra.
  - apply (level_error zs w a spill h max_depth max_vol W H B MV v L E); auto; [lia|].
    replace (Z.to_nat (b_num (h_bins (z_hist h))) - 2)%nat with (Z.to_nat (b_num (h_bins (z_hist h)) - 2)) by lia.
    destruct VX as [VX|(x & Ex & VX)].
    + eapply Qle_trans; [exact VX|]. 
      pose proof (vol_le_C zs w a spill h max_depth max_vol W H B (Z.to_nat (b_num (h_bins (z_hist h)) - 2))) as X.
      eapply Qle_trans; [|exact X]. apply volume_mono; auto. rewrite Z2Nat.id by lia.
      rewrite UB. unfold Z.sub. rewrite inject_Z_plus. change (inject_Z (- (2))) with (- (2))%Q. lra.
    + apply (cum_nth zs w a h W H) in Ex; [|lia]. lra.
Qed.

Theorem level_two_bins : forall (lab : raster Z) (dem : raster Q) w n pinf ninf st l h cs a spill max_depth max_vol v,
  same_shape dem lab -> numbered lab n -> largest_label lab n -> (0 < w)%Q ->
  (forall c, inside (nrows lab) (ncols lab) c -> (ninf < at_ dem c < pinf)%Q) ->
  bluespot_hypsometry_stats QOps Q_int pinf ninf lab dem w None 0 = Ok st ->
  1 <= l <= n -> nth_error st (Z.to_nat l) = Some (l, h) -> lists_cells (has_label lab l) cs ->
  (forall c, In c cs -> (0 <= at_ dem c <= spill)%Q) -> (0 < a)%Q ->
  (max_depth == spill - z_min h)%Q -> (max_vol == volume_at a (map (at_ dem) cs) spill)%Q ->
  (0 <= v <= (9999 # 10000) * max_vol)%Q ->
  (v <= volume_at a (map (at_ dem) cs) (b_upper (h_bins (z_hist h)) - 2 * w) \/
   exists x, nth_error (cumulative_volume QOps (z_hist h) a) (Z.to_nat (b_num (h_bins (z_hist h)) - 2)) = Some x /\ v <= x)%Q ->
  exists L E, water_level QOps h a max_depth max_vol v = Ok L /\
    (z_min h <= E)%Q /\ (volume_at a (map (at_ dem) cs) E == v)%Q /\
    (L - E <= 2 * w /\ E - L <= 2 * w)%Q.
Proof.
  intros lab dem w n pinf ninf st l h cs a spill max_depth max_vol v S Nb LG W R E Hl Hh HC P A D V V0 VX.
  assert (HO : hypsometry_of (map (at_ dem) cs) w h) by (eapply hypsometry_of_label; eauto; intros c Hc; apply (P c Hc)).
  assert (BA : bluespot_attributes (map (at_ dem) cs) a spill h max_depth max_vol).
  { split; auto. split; auto. intros z Hz. apply in_map_iff in Hz. destruct Hz as (c & <- & Hc). apply P; auto. }
  set (zs := map (at_ dem) cs) in *.
  destruct (level_sane _ _ _ _ _ _ _ W HO BA) as (X & _). destruct (X v) as (L & EL & _).
  assert (NE : zs <> []). { intros Z0. destruct HO as ((I & _) & _). rewrite Z0 in I. destruct I. }
  destruct (exact_level a zs v A NE (proj1 V0)) as (Ex & HE).
  destruct (Qlt_le_dec Ex (z_min h)) as [Y|Y].
  - assert (v0 : (v == 0)%Q).
    { rewrite <- HE. apply volume_zero. intros z Hz. destruct HO as ((_ & M) & _). specialize (M z Hz). lra. }
    assert (VZ : (volume_at a zs (z_min h) == v)%Q).
    { rewrite v0. apply volume_zero. intros z Hz. destruct HO as ((_ & M) & _). apply M; auto. }
    exists L, (z_min h). split; auto. split; [lra|]. split; auto.
    eapply level_two_bins_zs; eauto; [apply V0|apply V0|lra].
  - exists L, Ex. split; auto. split; auto. split; auto. eapply level_two_bins_zs; eauto; apply V0.
Qed.

(** The exact level is unique. *)
Lemma exact_level_unique : forall a zs zmin E E', (0 < a)%Q -> In zmin zs -> (zmin <= E)%Q -> (zmin <= E')%Q ->
  (volume_at a zs E == volume_at a zs E')%Q -> (E == E')%Q.
Proof.
  intros a zs zmin E E' A I H H' V. destruct (Q_dec E E') as [[X|X]|X]; auto; exfalso.
  - pose proof (volume_strict a zs E E' zmin A X I ltac:(lra)). lra.
  - pose proof (volume_strict a zs E' E zmin A X I ltac:(lra)). lra.
Qed.

Definition flat_dem : raster Q := of_rows 0%Q [[0%Q]].

(** One flat cell, 100 m deep, 99 % full. *)
Theorem two_bins_refuted : exists (lab : raster Z) (dem : raster Q) st h cs L,
  same_shape dem lab /\ numbered lab 1 /\ largest_label lab 1 /\
  bluespot_hypsometry_stats QOps Q_int 1000%Q (-1000)%Q lab dem 1%Q None 0 = Ok st /\
  nth_error st 1 = Some (1, h) /\ lists_cells (has_label lab 1) cs /\
  (forall c, In c cs -> (0 <= at_ dem c <= 100)%Q) /\
  water_level QOps h 1%Q (100 - z_min h)%Q (volume_at 1 (map (at_ dem) cs) 100) 99%Q = Ok L /\
  (99 <= (9999 # 10000) * volume_at 1 (map (at_ dem) cs) 100)%Q /\
  (volume_at 1 (map (at_ dem) cs) 99 == 99)%Q /\ (L == 0)%Q.
Proof.
  exists one_lab, flat_dem. do 4 eexists. split; [split; reflexivity|]. split; [apply one_lab_ok|].
  split; [apply one_lab_ok|]. split; [vm_compute; reflexivity|]. split; [reflexivity|].
  split; [apply one_lab_ok|]. split; [intros c [<-|[]]; split; vm_compute; discriminate|].
  split; [vm_compute; reflexivity|]. split; [vm_compute; discriminate|]. split; reflexivity.
Qed.

(** ** C45, C46: depths and extents *)

Lemma list_rd_inv : forall {A} (l : list A) i x, 0 <= i -> list_rd l i = Ok x -> nth_error l (Z.to_nat i) = Some x.
Proof.
  intros A l i x Hi H. unfold list_rd, pyidx in H.
  destruct ((0 <=? i) && (i <? Z.of_nat (length l))).
  - destruct (nth_error l (Z.to_nat i)); [congruence|discriminate].
  - replace ((- Z.of_nat (length l) <=? i) && (i <? 0)) with false in H; [discriminate|].
    symmetry. apply andb_false_intro2. apply Z.ltb_ge. lia.
Qed.

Lemma value_list_spec : forall {T} (d : list (Z * T)) bg x vl, labelvaluedict_to_list d bg x = Ok vl ->
  forall l v, 0 <= l -> list_rd vl l = Ok v -> (l = bg /\ v = x) \/ (l <> bg /\ dget Z.eqb d l = Some v).
Proof.
  intros T d bg x vl H l v Hl Hv. unfold labelvaluedict_to_list in H. apply bind_ok in H. destruct H as (m & _ & H).
  apply mmap_nth in H. destruct H as (LN & N). rewrite pyrange_from0 in *.
  pose proof (list_rd_inv _ _ _ Hl Hv) as Nv.
  assert (Lt : (Z.to_nat l < List.length (zseq 0 (Z.to_nat (m + 1))))%nat).
  { rewrite <- LN. apply nth_error_Some. congruence. }
  rewrite zseq_length in Lt. destruct (N (Z.to_nat l) l) as (y & Ey & Ny).
  { rewrite nth_error_zseq by auto. f_equal. lia. }
  rewrite Nv in Ny. injection Ny as <-. destruct (Z.eqb_spec l bg) as [->|Nb].
  - injection Ey as <-. auto.
  - right. split; auto. unfold dget_err in Ey. destruct (dget Z.eqb d l); [congruence|discriminate].
Qed.

Lemma set_label_ok : forall {T} (ops : NumOps T) lab vl r, set_label_to_value ops lab vl = Ok r ->
  forall c, inside (nrows lab) (ncols lab) c -> list_rd vl (at_ lab c) = Ok (at_ r c).
Proof.
  intros T ops lab vl r H c Hc. unfold set_label_to_value in H. apply bind_ok in H. destruct H as (vs & E & H).
  injection H as <-. unfold at_ in *. cbn [rget].
  destruct (mmap_inv _ _ _ E (at_ lab c)) as (y & Ey).
  { unfold ravel. apply in_map_iff. exists c. split; auto. apply in_cells_of. auto. }
  unfold at_ in Ey. rewrite Ey. reflexivity.
Qed.

Lemma approx_core : forall {T} (ops : NumOps T) (lab : raster Z) d (dem : raster T) bg lab' depths,
  (forall c, inside (nrows lab) (ncols lab) c -> 0 <= at_ lab c) ->
  approx_bluespots ops lab d dem bg = Ok (lab', depths) ->
  same_shape dem lab /\ same_shape lab' lab /\ same_shape depths lab /\
  forall c, inside (nrows lab) (ncols lab) c -> exists z,
    ((at_ lab c = bg /\ z = background_level ops) \/ (at_ lab c <> bg /\ dget Z.eqb d (at_ lab c) = Some z)) /\
    at_ depths c = (if nltb ops (nsub ops z (at_ dem c)) (nofZ ops 0) then nofZ ops 0 else nsub ops z (at_ dem c)) /\
    at_ lab' c = (if nltb ops (nsub ops z (at_ dem c)) (nofZ ops 0) then bg else at_ lab c).
Proof.
  intros T ops lab d dem bg lab' depths P H. unfold approx_bluespots in H.
  apply bind_ok in H. destruct H as (vl & Ev & H). apply bind_ok in H. destruct H as (mx & Em & H).
  destruct ((nrows lab =? nrows dem) && (ncols lab =? ncols dem)) eqn:SH; cbn [negb] in H; [|discriminate].
  apply andb_true_iff in SH. destruct SH as (S1 & S2). apply Z.eqb_eq in S1. apply Z.eqb_eq in S2.
  injection H as <- <-. split; [split; auto|]. split; [split; reflexivity|]. split; [split; reflexivity|].
  intros c Hc. exists (at_ mx c). pose proof (set_label_ok _ _ _ _ Em c Hc) as R.
  split; [apply (value_list_spec _ _ _ _ Ev _ _ (P c Hc) R)|]. split; reflexivity.
Qed.

Theorem approx_total : forall {T} (ops : NumOps T) (lab : raster Z) d (dem : raster T) bg n,
  same_shape dem lab -> 0 <= n -> In n (map fst d) -> (forall k, In k (map fst d) -> k <= n) ->
  (forall k, 0 <= k <= n -> k <> bg -> In k (map fst d)) -> labels_in lab n ->
  exists r, approx_bluespots ops lab d dem bg = Ok r.
Proof.
  intros T ops lab d dem bg n [S1 S2] Hn In_n Mx Cov L. unfold approx_bluespots, labelvaluedict_to_list.
  destruct (map fst d) as [|k0 ks] eqn:Ek; [destruct In_n|]. cbn [bind].
  assert (Em : zmax_from k0 ks = n).
  { destruct (zmax_from_spec ks k0) as (A & B & C). assert (n <= zmax_from k0 ks) by (destruct In_n as [<-|X]; auto).
    assert (zmax_from k0 ks <= n); [|lia]. apply Mx. destruct C as [->|C]; [left|right]; auto. }
  rewrite Em, pyrange_from0.
  destruct (mmap_ok (fun ix => if ix =? bg then Ok (background_level ops) else dget_err Z.eqb d ix) (zseq 0 (Z.to_nat (n + 1)))) as (vl & Ev).
  { intros x Hx. apply in_zseq in Hx. destruct (Z.eqb_spec x bg) as [_|Nb]; [eauto|].
    unfold dget_err. destruct (dget Z.eqb d x) eqn:E; [eauto|]. exfalso. apply (dget_none _ Z.eqb_spec) in E.
    rewrite Ek in E. apply E. apply Cov; auto. lia. }
  rewrite Ev. cbn [bind]. apply mmap_nth in Ev. destruct Ev as (LN & _). rewrite zseq_length in LN.
  unfold set_label_to_value. destruct (mmap_ok (list_rd vl) (ravel lab)) as (vs & Evs).
  { intros x Hx. unfold ravel in Hx. apply in_map_iff in Hx. destruct Hx as (c & <- & Hc). apply in_cells_of in Hc.
    pose proof (L c Hc) as Lc. destruct (nth_error vl (Z.to_nat (at_ lab c))) as [y|] eqn:E.
    - exists y. apply list_rd_in; auto. lia.
    - apply nth_error_None in E. lia. }
  rewrite Evs. cbn [bind]. rewrite S1, S2, !Z.eqb_refl. cbn [andb negb]. eauto.
Qed.

(** *** Exact arithmetic *)

Theorem approx_exact : forall (lab : raster Z) d (dem : raster Q) bg lab' depths,
  (forall c, inside (nrows lab) (ncols lab) c -> 0 <= at_ lab c) -> NoDup (map fst d) ->
  approx_bluespots QOps lab d dem bg = Ok (lab', depths) ->
  same_shape dem lab /\ same_shape lab' lab /\ same_shape depths lab /\
  forall c, inside (nrows lab) (ncols lab) c ->
    (at_ lab c = bg -> at_ lab' c = bg /\ (-999 <= at_ dem c -> at_ depths c == 0)%Q) /\
    (at_ lab c <> bg -> exists z, In (at_ lab c, z) d /\
       (z < at_ dem c -> at_ depths c == 0)%Q /\ ((z < at_ dem c)%Q -> at_ lab' c = bg) /\
       (at_ dem c <= z -> at_ depths c == z - at_ dem c)%Q /\ ((at_ dem c <= z)%Q -> at_ lab' c = at_ lab c)).
Proof.
  intros lab d dem bg lab' depths P ND H. destruct (approx_core _ _ _ _ _ _ _ P H) as (S1 & S2 & S3 & F).
  split; auto. split; auto. split; auto. intros c Hc. destruct (F c Hc) as (z & Hz & -> & ->).
  cbn [nltb nsub nofZ QOps]. change (inject_Z 0) with 0%Q.
  destruct (Qltb (z - at_ dem c) 0) eqn:B; [apply Qltb_lt in B|apply Qltb_ge in B].
  - split.
    + intros _. split; [reflexivity|]. intros _. reflexivity.
    + intros N. destruct Hz as [(X & _)|(_ & Hz)]; [contradiction|]. exists z.
      split; [apply (dget_in _ Z.eqb_spec); auto|]. split; [reflexivity|]. split; [auto|]. split; intros; exfalso; lra.
  - split.
    + intros E. split; [auto|]. intros D. destruct Hz as [(_ & ->)|(X & _)]; [|contradiction].
      unfold background_level in *. cbn [nofZ QOps] in *. change (inject_Z (-999)) with (-999)%Q in *. lra.
    + intros N. destruct Hz as [(X & _)|(_ & Hz)]; [contradiction|]. exists z.
      split; [apply (dget_in _ Z.eqb_spec); auto|]. split; [intros; exfalso; lra|]. split; [intros; exfalso; lra|].
      split; intros; [reflexivity|auto].
Qed.

(** *** Rounded arithmetic *)

Lemma sub_below : forall z t : b64, finite64 z -> finite64 t ->
  Bltb (f64_sub z t) f64_zero = true <-> lt64 z t.
Proof.
  intros z t Hz Ht. fold (lt64 (f64_sub z t) f64_zero).
  rewrite lt64_rank; [|apply sub_not_nan; auto; apply finite_not_nan; auto|reflexivity].
  rewrite lt64_rank by (apply finite_not_nan; auto). change (rank f64_zero) with 0. apply sub_neg_iff; auto.
Qed.

Theorem approx_float : forall (lab : raster Z) d (dem : raster b64) bg lab' depths,
  (forall c, inside (nrows lab) (ncols lab) c -> 0 <= at_ lab c) -> NoDup (map fst d) ->
  (forall c, inside (nrows lab) (ncols lab) c -> finite64 (at_ dem c)) -> (forall l z, In (l, z) d -> finite64 z) ->
  approx_bluespots F64Ops lab d dem bg = Ok (lab', depths) ->
  same_shape dem lab /\ same_shape lab' lab /\ same_shape depths lab /\
  forall c, inside (nrows lab) (ncols lab) c ->
    (at_ lab c = bg -> at_ lab' c = bg /\ (le64 (f64_ofZ (-999)) (at_ dem c) -> eq64 (at_ depths c) f64_zero)) /\
    (at_ lab c <> bg -> exists z, In (at_ lab c, z) d /\
       (lt64 z (at_ dem c) -> at_ depths c = f64_zero /\ at_ lab' c = bg) /\
       (le64 (at_ dem c) z -> at_ depths c = f64_sub z (at_ dem c) /\ le64 f64_zero (at_ depths c) /\ at_ lab' c = at_ lab c)).
Proof.
  intros lab d dem bg lab' depths P ND FD FL H. destruct (approx_core _ _ _ _ _ _ _ P H) as (S1 & S2 & S3 & F).
  split; auto. split; auto. split; auto. intros c Hc. destruct (F c Hc) as (z & Hz & -> & ->). pose proof (FD c Hc) as Ft.
  assert (Fz : finite64 z).
  { destruct Hz as [(_ & ->)|(_ & Hz)]; [reflexivity|]. eapply FL. apply (dget_in _ Z.eqb_spec); eauto. }
  pose proof (sub_below z (at_ dem c) Fz Ft) as SB.
  cbn [nltb nsub nofZ F64Ops]. change (f64_ofZ 0) with f64_zero.
  pose proof (finite_not_nan _ Fz) as Nz. pose proof (finite_not_nan _ Ft) as Nt.
  destruct (Bltb (f64_sub z (at_ dem c)) f64_zero) eqn:B.
  - assert (LT : lt64 z (at_ dem c)) by (apply SB; reflexivity). split.
    + intros _. split; [reflexivity|]. intros _. reflexivity.
    + intros N. destruct Hz as [(X & _)|(_ & Hz)]; [contradiction|]. exists z.
      split; [apply (dget_in _ Z.eqb_spec); auto|]. split; [auto|]. intros X.
      apply le64_rank in X; auto. apply lt64_rank in LT; auto. lia.
  - assert (GE : rank (at_ dem c) <= rank z).
    { destruct (Z_lt_le_dec (rank z) (rank (at_ dem c))) as [L|L]; auto. apply lt64_rank in L; auto. apply SB in L. congruence. }
    assert (G0 : le64 f64_zero (f64_sub z (at_ dem c))).
    { apply le64_rank; [reflexivity|apply sub_not_nan; auto|]. change (rank f64_zero) with 0.
      rewrite <- (sub_self_rank (at_ dem c)) by auto. apply sub_mono; auto. }
    split.
    + intros E. split; [auto|]. intros D. destruct Hz as [(_ & ->)|(X & _)]; [|contradiction].
      unfold background_level in *. cbn [nofZ F64Ops] in *.
      apply le64_rank in D; auto.
      apply eq64_rank; [apply sub_not_nan; auto|reflexivity|]. change (rank f64_zero) with 0.
      pose proof (sub_mono (f64_ofZ (-999)) (at_ dem c) (at_ dem c) Nz Nt Ft D) as U. rewrite sub_self_rank in U by auto.
      apply le64_rank in G0; [|reflexivity|apply sub_not_nan; auto]. change (rank f64_zero) with 0 in G0. lia.
    + intros N. destruct Hz as [(X & _)|(_ & Hz)]; [contradiction|]. exists z.
      split; [apply (dget_in _ Z.eqb_spec); auto|]. split; [|auto].
      intros X. apply lt64_rank in X; auto. lia.
Qed.

(** *** The file variant *)

Definition levels_dict {T} (levels : list (bool * Z * T)) : list (Z * T) :=
  map (fun x => (snd (fst x), snd x)) (filter (fun x => fst (fst x)) levels).

Lemma levels_fold : forall {T} (levels : list (bool * Z * T)) d, NoDup (map fst d ++ map fst (levels_dict levels)) ->
  fold_left (fun d '(pp, id, z) => if (pp : bool) then dset Z.eqb d id z else d) levels d = d ++ levels_dict levels.
Proof.
  intros T. induction levels as [|[[pp id] z] levels IH]; intros d ND; cbn [fold_left].
  - unfold levels_dict. cbn. rewrite app_nil_r. reflexivity.
  - unfold levels_dict in *. cbn [filter fst snd] in *. destruct pp; cbn [map fst snd] in *.
    + rewrite (dset_fresh _ Z.eqb_spec).
      * rewrite IH; [rewrite <- app_assoc; reflexivity|]. rewrite map_app. cbn [map fst]. rewrite <- app_assoc. exact ND.
      * intros X. apply NoDup_remove_2 in ND. apply ND. apply in_or_app. left. exact X.
    + apply IH. exact ND.
Qed.

Theorem approx_io_agrees : forall {T} (ops : NumOps T) (lab : raster Z) levels (dem : raster T) wd wl bg,
  NoDup (map fst (levels_dict levels)) -> wd = true \/ wl = true ->
  approx_bluespots_io ops lab levels dem wd wl bg =
  match approx_bluespots ops lab (levels_dict levels) dem bg with
  | Ok (lab', depths) => Ok (if wd then Some depths else None, if wl then Some lab' else None)
  | Exc e => Exc e
  | Timeout => Timeout
  end.
Proof.
  intros T ops lab levels dem wd wl bg ND W. unfold approx_bluespots_io, approx_bluespots.
  replace (negb wd && negb wl) with false by (destruct wd, wl; try reflexivity; destruct W; discriminate).
  rewrite levels_fold by (cbn; auto). cbn [app].
  destruct (labelvaluedict_to_list _ _ _) as [vl| |]; cbn [bind]; auto.
  destruct (set_label_to_value _ _ _) as [mx| |]; cbn [bind]; auto.
  destruct (negb _); auto.
Qed.

(** *** Terrain below -999 *)

Definition deep_lab : raster Z := of_rows 0 [[0; 1]].
Definition deep_dem : raster Q := of_rows 0%Q [[(-1000)%Q; 5%Q]].

Theorem background_depth_refuted : exists (lab : raster Z) (dem : raster Q) d lab' depths,
  labels_in lab 1 /\ NoDup (map fst d) /\ approx_bluespots QOps lab d dem 0 = Ok (lab', depths) /\
  at_ lab (0, 0) = 0 /\ (at_ depths (0, 0)%Z == 1)%Q.
Proof.
  exists deep_lab, deep_dem, [(1, 6%Q)]. do 2 eexists. split; [apply labels_check_ok; reflexivity|].
  split; [repeat constructor; auto|]. split; [vm_compute; reflexivity|]. split; reflexivity.
Qed.

Theorem background_depth : forall (lab : raster Z) d (dem : raster b64) bg lab' depths,
  (forall c, inside (nrows lab) (ncols lab) c -> 0 <= at_ lab c) -> NoDup (map fst d) ->
  (forall c, inside (nrows lab) (ncols lab) c -> finite64 (at_ dem c) /\ le64 (f64_ofZ (-999)) (at_ dem c)) ->
  (forall l z, In (l, z) d -> finite64 z) ->
  approx_bluespots F64Ops lab d dem bg = Ok (lab', depths) ->
  forall c, inside (nrows lab) (ncols lab) c -> at_ lab c = bg -> eq64 (at_ depths c) f64_zero.
Proof.
  intros lab d dem bg lab' depths P ND F FL H c Hc E.
  destruct (approx_float lab d dem bg lab' depths P ND (fun c Hc => proj1 (F c Hc)) FL H) as (_ & _ & _ & X).
  destruct (X c Hc) as (Y & _). destruct (Y E) as (_ & Z0). apply Z0. apply F; auto.
Qed.

(** ** Examples *)

Definition hy_cells : list cell := [(0, 0); (0, 1)].

Theorem ex_level : exists st h, same_shape hy_dem hy_lab /\ numbered hy_lab 2 /\ largest_label hy_lab 2 /\
  bluespot_hypsometry_stats QOps Q_int 1000%Q (-1000)%Q hy_lab hy_dem (1#4)%Q None 0 = Ok st /\
  nth_error st 1 = Some (1, h) /\ lists_cells (has_label hy_lab 1) hy_cells /\
  (forall c, In c hy_cells -> (0 <= at_ hy_dem c <= 2)%Q) /\
  (volume_at 1 (map (at_ hy_dem) hy_cells) 2 == 7#4)%Q /\
  exists L, water_level QOps h 1%Q (3#2)%Q (7#4)%Q (1#2)%Q = Ok L /\ (L == 9#8)%Q.
Proof.
  do 2 eexists. split; [split; reflexivity|]. split; [apply hy_lab_ok|]. split; [apply hy_lab_ok|].
  split; [vm_compute; reflexivity|]. split; [reflexivity|].
  split; [change hy_cells with (lcells hy_lab 1); apply lcells_spec|].
  split; [intros c [<-|[<-|[]]]; split; vm_compute; discriminate|].
  split; [vm_compute; reflexivity|].
  eexists. split; [vm_compute; reflexivity|]. reflexivity.
Qed.

Theorem ex_two_bins : exists st h,
  bluespot_hypsometry_stats QOps Q_int 1000%Q (-1000)%Q hy_lab hy_dem (1#4)%Q None 0 = Ok st /\
  nth_error st 1 = Some (1, h) /\
  (0 <= 1#2 <= (9999 # 10000) * (7#4))%Q /\
  (1#2 <= volume_at 1 (map (at_ hy_dem) hy_cells) (b_upper (h_bins (z_hist h)) - 2 * (1#4)))%Q /\
  (volume_at 1 (map (at_ hy_dem) hy_cells) 1 == 1#2)%Q.
Proof.
  do 2 eexists. split; [vm_compute; reflexivity|]. split; [reflexivity|]. split; [split; vm_compute; discriminate|].
  split; [vm_compute; discriminate|]. vm_compute. reflexivity.
Qed.

Definition one_hyps : @hyps Q := mkHyps (mkHist [1] (mkBins 1 0%Q 1%Q 1%Q)) 0%Q 0%Q.

Theorem ex_levels_io : exists h zs, hypsometry_of zs 1 h /\ bluespot_attributes zs 1 5 h 5 5 /\
  let i := mkHI 1 (hyps_to_flatdict h) 1%Q 5%Q 5%Q in
  hyps_from_flatdict (hi_dict i) = Ok h /\ Z.of_nat (List.length (h_counts (z_hist h))) = b_num (h_bins (z_hist h)) /\
  NoDup (map hi_bspot [i]) /\
  exists o, approx_water_level_io QOps [mkFF true 1 5%Q; mkFF false 1 0%Q] [i] = Ok [o] /\
    lf_bspot o = 1 /\ (lf_z o == 5)%Q /\ (lf_dmax o == 5)%Q.
Proof.
  exists one_hyps, [0%Q]. split.
  - split; [split; [left; reflexivity|intros z [<-|[]]; apply Qle_refl]|].
    split; [split; [left; reflexivity|intros z [<-|[]]; apply Qle_refl]|].
    split.
    + split; [reflexivity|]. split; [cbn; lia|]. split; [reflexivity|]. split; [reflexivity|].
      intros i Hi. cbn in Hi. assert (i = 0) by lia. subst i. reflexivity.
    + split; [split; vm_compute; [discriminate|reflexivity]|]. split; vm_compute; [discriminate|reflexivity].
  - split.
    + split; [reflexivity|]. split; [intros z [<-|[]]; vm_compute; discriminate|]. split; reflexivity.
    + split; [reflexivity|]. split; [reflexivity|]. split; [repeat constructor; auto|].
      eexists. split; [vm_compute; reflexivity|]. split; [reflexivity|]. split; reflexivity.
Qed.
