(** * Theorems about hypsometry *)

From Coq Require Import QArith Lqa Ascii String Decimal DecimalString DecimalZ DecimalPos.
From Verif Require Import Base BaseProofs Num Float64 Dict DictProofs LabelModel LabelSpec LabelProofs CompProofs BluespotSpec
  BluespotProofs LabelThms BluespotThms HypsModel HypsSpec HypsProofs.
Local Open Scope Z_scope.

Lemma mmap_nth : forall {A B} (f : A -> res B) l r, mmap f l = Ok r ->
  List.length r = List.length l /\
  forall i x, nth_error l i = Some x -> exists y, f x = Ok y /\ nth_error r i = Some y.
Proof.
  intros A B f. induction l as [|a l IH]; intros r H; cbn [mmap] in H.
  - injection H as <-. split; auto. intros [|i] x E; discriminate.
  - apply bind_ok in H. destruct H as (y & E & H). apply bind_ok in H. destruct H as (ys & E' & H).
    injection H as <-. destruct (IH _ E') as (L & N). split; [cbn; lia|].
    intros [|i] x E0; cbn in *; [injection E0 as <-; eauto | auto].
Qed.

Lemma nth_error_combine : forall {A B} (l : list A) (r : list B) i x y,
  nth_error l i = Some x -> nth_error r i = Some y -> nth_error (combine l r) i = Some (x, y).
Proof.
  intros A B. induction l as [|a l IH]; intros [|b r] [|i] x y H1 H2; cbn in *; try discriminate.
  - congruence.
  - auto.
Qed.

(** ** Least and greatest value of a label *)

Lemma fold_least : forall vs m0, vs <> [] -> (forall v, In v vs -> (v < m0)%Q) ->
  least vs (fold_left (fun m v => if nltb QOps v m then v else m) vs m0).
Proof.
  assert (G : forall vs m0, let m := fold_left (fun m v => if nltb QOps v m then v else m) vs m0 in
    (m = m0 \/ In m vs) /\ (m <= m0)%Q /\ forall v, In v vs -> (m <= v)%Q).
  { induction vs as [|v vs IH]; intros m0; cbn [fold_left].
    - split; auto. split; [lra|]. intros v [].
    - destruct (IH (if nltb QOps v m0 then v else m0)) as (A & B & C). cbv zeta in *.
      set (m := fold_left _ vs _) in *. cbn [nltb QOps] in *.
      destruct (Qltb v m0) eqn:E.
      + apply Qltb_lt in E. split; [destruct A as [A|A]; [right; left; auto | right; right; auto]|].
        split; [lra|]. intros w [<-|H]; auto.
      + apply Qltb_ge in E. split; [destruct A as [A|A]; [left; auto | right; right; auto]|].
        split; [lra|]. intros w [<-|H]; [lra|auto]. }
  intros vs m0 N L. destruct (G vs m0) as (A & B & C). split; auto.
  destruct A as [A|A]; auto. destruct vs as [|v vs]; [congruence|]. exfalso.
  specialize (C v (or_introl eq_refl)). specialize (L v (or_introl eq_refl)). rewrite A in C. lra.
Qed.

Lemma fold_greatest : forall vs m0, vs <> [] -> (forall v, In v vs -> (m0 < v)%Q) ->
  greatest vs (fold_left (fun m v => if nltb QOps m v then v else m) vs m0).
Proof.
  assert (G : forall vs m0, let m := fold_left (fun m v => if nltb QOps m v then v else m) vs m0 in
    (m = m0 \/ In m vs) /\ (m0 <= m)%Q /\ forall v, In v vs -> (v <= m)%Q).
  { induction vs as [|v vs IH]; intros m0; cbn [fold_left].
    - split; auto. split; [lra|]. intros v [].
    - destruct (IH (if nltb QOps m0 v then v else m0)) as (A & B & C). cbv zeta in *.
      set (m := fold_left _ vs _) in *. cbn [nltb QOps] in *.
      destruct (Qltb m0 v) eqn:E.
      + apply Qltb_lt in E. split; [destruct A as [A|A]; [right; left; auto | right; right; auto]|].
        split; [lra|]. intros w [<-|H]; auto.
      + apply Qltb_ge in E. split; [destruct A as [A|A]; [left; auto | right; right; auto]|].
        split; [lra|]. intros w [<-|H]; [lra|auto]. }
  intros vs m0 N L. destruct (G vs m0) as (A & B & C). split; auto.
  destruct A as [A|A]; auto. destruct vs as [|v vs]; [congruence|]. exfalso.
  specialize (C v (or_introl eq_refl)). specialize (L v (or_introl eq_refl)). rewrite A in C. lra.
Qed.

Lemma between_all : forall zs a b, (forall z, In z zs -> (a <= z)%Q) -> (forall z, In z zs -> (z < b)%Q) ->
  between a b zs = zs.
Proof.
  intros zs a b. unfold between. induction zs as [|z zs IH]; intros A B; auto. cbn [filter].
  replace (Qle_bool a z) with true by (symmetry; apply Qle_bool_iff; apply A; left; auto).
  replace (Qltb z b) with true by (symmetry; apply Qltb_lt; apply B; left; auto).
  cbn. f_equal. apply IH; intros; [apply A|apply B]; right; auto.
Qed.

Lemma largest_nlabels : forall lab n, largest_label lab n -> nlabels_is lab (Some n) n.
Proof. intros lab n H. unfold nlabels_is. destruct (Z.eq_dec n 0) as [->|N]; auto. Qed.

(** ** All bluespots *)

Theorem hypsometry_exact : forall (lab : raster Z) (dem : raster Q) resolution n pinf ninf,
  same_shape dem lab -> numbered lab n -> largest_label lab n -> (0 < resolution)%Q ->
  (forall c, inside (nrows lab) (ncols lab) c -> (ninf < at_ dem c < pinf)%Q) ->
  exists st, bluespot_hypsometry_stats QOps Q_int pinf ninf lab dem resolution None 0 = Ok st /\
    bluespot_hypsometry_stats QOps Q_int pinf ninf lab dem resolution (Some n) 0 = Ok st /\
    Z.of_nat (List.length st) = n + 1 /\
    forall l, 1 <= l <= n -> exists h cs, nth_error st (Z.to_nat l) = Some (l, h) /\
      lists_cells (has_label lab l) cs /\
      let zs := map (at_ dem) cs in
      let b := h_bins (z_hist h) in
      least zs (z_min h) /\ greatest zs (z_max h) /\ histogram_of zs resolution (z_hist h) /\
      (z_max h < b_upper b)%Q /\ (b_lower b < z_min h + resolution)%Q /\ (z_min h < b_lower b + resolution)%Q /\
      zsum (h_counts (z_hist h)) = Z.of_nat (List.length (between (b_lower b) (b_upper b) zs)) /\
      ((0 <= z_min h)%Q -> (b_lower b <= z_min h)%Q /\ (b_upper b <= z_max h + resolution)%Q /\ zsum (h_counts (z_hist h)) = Z.of_nat (List.length cs)).
Proof.
  intros lab dem w n pinf ninf S (L & Hn0 & U) LG W F.
  assert (Hd : 1 <= nrows lab /\ 1 <= ncols lab).
  { destruct LG as ((c & (H1 & H2) & _) & _). unfold inside in *. lia. }
  destruct Hd as (Hr & Hc). pose proof (largest_nlabels _ _ LG) as NL.
  destruct (label_stats_fold QOps pinf ninf dem lab (Some n) n S NL L Hr Hc) as (zst & Ez & Lz & Nz).
  destruct (label_data_spec dem lab (Some n) n 0 S NL L Hr Hc) as (ld & Ed & Ld & Nd).
  assert (NM : np_max lab = Ok n).
  { destruct (np_max_total lab Hr Hc) as (m & E). pose proof (np_max_spec _ _ E) as LG'.
    rewrite E. f_equal. eapply largest_unique; eauto. }
  unfold bluespot_hypsometry_stats. rewrite NM. cbn [bind]. rewrite Ez. cbn [bind]. rewrite Ed. cbn [bind].
  set (f := fun '(label, data) => _). set (inp := combine _ _).
  assert (IN : forall i, 0 <= i <= n -> exists cs, lists_cells (has_label lab i) cs /\
    nth_error inp (Z.to_nat i) = Some (i, if i =? 0 then [] else map (at_ dem) cs)).
  { intros i Hi. destruct (Nd i Hi) as (cs & Lc & E). exists cs. split; auto.
    apply nth_error_combine; auto. rewrite pyrange_from0, nth_error_zseq by lia. f_equal. lia. }
  assert (LI : List.length inp = Z.to_nat (n + 1)).
  { unfold inp. rewrite combine_length, pyrange_from0, zseq_length. lia. }
  assert (STEP : forall i cs, 1 <= i <= n -> lists_cells (has_label lab i) cs ->
    exists h, f (i, map (at_ dem) cs) = Ok (i, h) /\
      let zs := map (at_ dem) cs in
      let b := h_bins (z_hist h) in
      least zs (z_min h) /\ greatest zs (z_max h) /\ histogram_of zs w (z_hist h) /\
      (z_max h < b_upper b)%Q /\ (b_lower b < z_min h + w)%Q /\ (z_min h < b_lower b + w)%Q /\
      zsum (h_counts (z_hist h)) = Z.of_nat (List.length (between (b_lower b) (b_upper b) zs)) /\
      ((0 <= z_min h)%Q -> (b_lower b <= z_min h)%Q /\ (b_upper b <= z_max h + w)%Q /\ zsum (h_counts (z_hist h)) = Z.of_nat (List.length cs))).
  { intros i cs Hi Lc. pose proof (lists_unique _ _ _ Lc (lcells_spec lab i)) as ->.
    set (cs := lcells lab i) in *. set (zs := map (at_ dem) cs).
    assert (NE : zs <> []).
    { destruct (U i Hi) as (c & Hl). apply (proj2 Lc) in Hl. unfold zs. destruct cs; [destruct Hl|discriminate]. }
    assert (BD : forall z, In z zs -> (ninf < z < pinf)%Q).
    { intros z Hz. apply in_map_iff in Hz. destruct Hz as (c & <- & Hc'). apply F. apply (proj2 Lc) in Hc'. apply Hc'. }
    set (s := fold_left (stat_add QOps) zs (stat0 QOps pinf ninf)).
    assert (MN : least zs (s_min s)).
    { unfold s. rewrite fold_min. apply fold_least; auto. intros v Hv. apply BD in Hv. cbn. lra. }
    assert (MX : greatest zs (s_max s)).
    { unfold s. rewrite fold_max. apply fold_greatest; auto. intros v Hv. apply BD in Hv. cbn. lra. }
    destruct (exact_histogram zs (s_min s) (s_max s) w W MN MX) as (b & counts & Eb & Ec & HO & _ & HU & HL & HM & HP & HT & HS).
    unfold f. assert (ER : list_rd zst i = Ok s).
    { replace i with (Z.of_nat (Z.to_nat i)) by lia. apply list_rd_nth. rewrite Nz by lia. reflexivity. }
    rewrite ER. cbn [bind]. destruct (Z.eqb_spec i 0); [lia|]. rewrite Eb. cbn [bind]. rewrite Ec. cbn [bind].
    eexists. split; [reflexivity|]. cbv zeta. cbn [z_hist z_min z_max h_bins h_counts].
    repeat (split; [assumption|]). intros P. split; [auto|]. split.
    { destruct (Qlt_le_dec (s_max s) 0); auto. exfalso. pose proof (proj2 MX _ (proj1 MN)). lra. }
    rewrite HS, between_all; auto.
    - unfold zs. rewrite map_length. reflexivity.
    - intros z Hz. apply Qle_trans with (s_min s); [auto|apply MN; auto].
    - intros z Hz. apply Qle_lt_trans with (s_max s); [apply MX; auto|auto]. }
  destruct (mmap_ok f inp) as (st & Est).
  { intros x Hx. apply In_nth_error in Hx. destruct Hx as (k & Hk).
    assert (Hk' : (k < List.length inp)%nat) by (apply nth_error_Some; congruence).
    destruct (IN (Z.of_nat k)) as (cs & Lc & E); [lia|]. rewrite Nat2Z.id in E. rewrite Hk in E. injection E as ->.
    destruct (Z.eqb_spec (Z.of_nat k) 0) as [Z0|Z0].
    - unfold f. rewrite Z0. assert (ER : exists s, list_rd zst 0 = Ok s).
      { eexists. change 0 with (Z.of_nat 0). apply list_rd_nth. apply (Nz 0). lia. }
      destruct ER as (s & ER). rewrite ER. cbn [bind]. rewrite Z.eqb_refl. cbn [bind]. eauto.
    - destruct (STEP (Z.of_nat k) cs) as (h & Eh & _); [lia|auto|]. eauto. }
  exists st. rewrite Est. split; [reflexivity|]. split; [reflexivity|].
  destruct (mmap_nth _ _ _ Est) as (Len & NTH). split; [lia|].
  intros l Hl. destruct (IN l) as (cs & Lc & E); [lia|]. destruct (Z.eqb_spec l 0); [lia|].
  destruct (NTH _ _ E) as (y & Ey & Ny). destruct (STEP l cs Hl Lc) as (h & Eh & P).
  rewrite Eh in Ey. injection Ey as <-. exists h, cs. split; auto.
Qed.

(** ** Serialisation *)

Fixpoint no_bar (s : string) : Prop :=
  match s with EmptyString => True | String c t => c <> "|"%char /\ no_bar t end.

Lemma no_bar_uint : forall d, no_bar (NilEmpty.string_of_uint d).
Proof. induction d; cbn; auto; split; auto; discriminate. Qed.

Lemma no_bar_int : forall x, no_bar (str_int x).
Proof.
  assert (U : forall d, no_bar (NilZero.string_of_uint d)).
  { intros d. unfold NilZero.string_of_uint. destruct d; try apply no_bar_uint. cbn. split; [discriminate|auto]. }
  intros x. unfold str_int. destruct (Z.to_int x); cbn; [apply U|]. split; [discriminate|apply U].
Qed.

Lemma int_str_int : forall x, int_str (str_int x) = Ok x.
Proof.
  intros x. unfold int_str, str_int. rewrite NilZero.isi.
  - rewrite DecimalZ.of_to. reflexivity.
  - destruct x; cbn; try discriminate. intros H. injection H. apply Unsigned.to_uint_nonnil.
  - destruct x; cbn; try discriminate. intros H. injection H. apply Unsigned.to_uint_nonnil.
Qed.

Lemma split_no_bar : forall s, no_bar s -> split_bar s = [s].
Proof.
  induction s as [|c s IH]; intros H; cbn in *; auto. destruct H as (Hc & H).
  destruct (Ascii.eqb_spec c "|"%char); [congruence|]. rewrite IH by auto. reflexivity.
Qed.

Lemma split_app : forall s t, no_bar s -> split_bar (s ++ String "|"%char t)%string = s :: split_bar t.
Proof.
  induction s as [|c s IH]; intros t H; cbn in *; auto. destruct H as (Hc & H).
  destruct (Ascii.eqb_spec c "|"%char); [congruence|]. rewrite IH by auto. reflexivity.
Qed.

Lemma split_concat : forall l, l <> [] -> (forall s, In s l -> no_bar s) -> split_bar (String.concat "|" l) = l.
Proof.
  induction l as [|s l IH]; intros N H; [congruence|]. destruct l as [|s' l].
  - cbn. apply split_no_bar. apply H. left; auto.
  - change (String.concat "|" (s :: s' :: l)) with (s ++ String "|"%char (String.concat "|" (s' :: l)))%string.
    rewrite split_app by (apply H; left; auto). rewrite IH; auto; [discriminate|]. intros. apply H. right; auto.
Qed.

Lemma mmap_int_str : forall l, mmap int_str (map str_int l) = Ok l.
Proof. induction l as [|x l IH]; cbn; auto. rewrite int_str_int. cbn. rewrite IH. reflexivity. Qed.

(** Every histogram with as many counts as bins survives. *)
Theorem flatdict_roundtrip : forall {T} (h : @hyps T),
  Z.of_nat (List.length (h_counts (z_hist h))) = b_num (h_bins (z_hist h)) ->
  hyps_from_flatdict (hyps_to_flatdict h) = Ok h.
Proof.
  intros T [[counts [num lo up w]] zmin zmax] H. cbn in H. unfold hyps_from_flatdict, hyps_to_flatdict.
  cbn [z_hist h_counts h_bins b_num b_lower b_upper b_resolution z_min z_max
       d_counts d_num_bins d_lower d_upper d_resolution d_zmin d_zmax].
  destruct (Z.ltb_spec 0 num) as [L|L].
  - rewrite split_concat.
    + rewrite mmap_int_str. reflexivity.
    + destruct counts; cbn in *; [lia|discriminate].
    + intros s Hs. apply in_map_iff in Hs. destruct Hs as (x & <- & _). apply no_bar_int.
  - destruct counts; [reflexivity | cbn [List.length] in H; lia].
Qed.

(** Every histogram the code produces has as many counts as bins. *)
Theorem produced_counts : forall {T} (ops : NumOps T) to_int pinf ninf lab dem w lm bg st l h,
  bluespot_hypsometry_stats ops to_int pinf ninf lab dem w lm bg = Ok st -> In (l, h) st ->
  Z.of_nat (List.length (h_counts (z_hist h))) = b_num (h_bins (z_hist h)).
Proof.
  intros T ops to_int pinf ninf lab dem w lm bg st l h H Hin. unfold bluespot_hypsometry_stats in H.
  apply bind_ok in H. destruct H as (n & _ & H). apply bind_ok in H. destruct H as (zst & _ & H).
  apply bind_ok in H. destruct H as (ld & _ & H).
  destruct (mmap_nth _ _ _ H) as (Len & NTH). apply In_nth_error in Hin. destruct Hin as (i & Hi).
  assert (Hx : exists x, nth_error (combine (pyrange 0 (Z.of_nat (List.length ld)) 1) ld) i = Some x).
  { destruct (nth_error (combine _ ld) i) eqn:E; eauto. apply nth_error_None in E.
    assert (i < List.length st)%nat by (apply nth_error_Some; congruence). lia. }
  destruct Hx as ((label, data) & Hx). destruct (NTH _ _ Hx) as (y & Ey & Ny). rewrite Hi in Ny. injection Ny as <-.
  apply bind_ok in Ey. destruct Ey as (s & _ & Ey). apply bind_ok in Ey. destruct Ey as (hh & Eh & Ey).
  injection Ey as -> <-. cbn [z_hist]. destruct (l =? bg).
  - injection Eh as <-. reflexivity.
  - apply bind_ok in Eh. destruct Eh as (b & _ & Eh). apply bind_ok in Eh. destruct Eh as (c & Ec & Eh).
    injection Eh as <-. cbn [h_counts h_bins]. unfold np_histogram in Ec.
    destruct (Z.ltb_spec (b_num b) 1); [discriminate|]. destruct (nltb ops _ _); [discriminate|].
    injection Ec as <-. rewrite map_length, pyrange_from0, zseq_length. lia.
Qed.

Theorem produced_roundtrip : forall {T} (ops : NumOps T) to_int pinf ninf lab dem w lm bg st l h,
  bluespot_hypsometry_stats ops to_int pinf ninf lab dem w lm bg = Ok st -> In (l, h) st ->
  hyps_from_flatdict (hyps_to_flatdict h) = Ok h.
Proof. intros. apply flatdict_roundtrip. eapply produced_counts; eauto. Qed.

(** ** Attaching the histograms to the pour points *)

Lemma index_fresh : forall {V} (g : Z -> V) ids d, NoDup (map fst d ++ ids) ->
  fold_left (fun d id => dset Z.eqb d id (g id)) ids d = d ++ map (fun id => (id, g id)) ids.
Proof.
  intros V g. induction ids as [|i ids IH]; intros d ND; cbn [fold_left map]; [rewrite app_nil_r; auto|].
  rewrite dset_fresh; [|apply Z.eqb_spec|].
  - rewrite IH.
    + rewrite <- app_assoc. reflexivity.
    + rewrite map_app. cbn [map fst]. rewrite <- app_assoc. exact ND.
  - apply NoDup_remove_2 in ND. intros X. apply ND. apply in_or_app. auto.
Qed.

Lemma stats_labels : forall {T} (ops : NumOps T) to_int pinf ninf lab dem w n bg st,
  bluespot_hypsometry_stats ops to_int pinf ninf lab dem w (Some n) bg = Ok st ->
  exists k, map fst st = zseq 0 k.
Proof.
  intros T ops to_int pinf ninf lab dem w n bg st H. unfold bluespot_hypsometry_stats in H. cbn [bind] in H.
  apply bind_ok in H. destruct H as (zst & _ & H). apply bind_ok in H. destruct H as (ld & _ & H).
  exists (List.length ld). rewrite pyrange_from0, Nat2Z.id in H.
  set (f := fun '(label, data) => _) in H. revert st H. generalize 0.
  induction ld as [|d ld IH]; intros a st H; cbn [List.length zseq combine mmap] in H.
  - injection H as <-. reflexivity.
  - apply bind_ok in H. destruct H as (y & Ey & H). apply bind_ok in H. destruct H as (ys & E & H). injection H as <-.
    apply bind_ok in Ey. destruct Ey as (s & _ & Ey). apply bind_ok in Ey. destruct Ey as (hh & _ & Ey).
    injection Ey as <-. cbn [map fst List.length zseq]. f_equal. eapply IH; eauto.
Qed.

Lemma attach_loop : forall {T} (area : T) st (d d' : list (Z * @hyps_feature T)),
  NoDup (map fst st) -> (forall id f, In (id, f) d -> hf_bspot f = id) -> NoDup (map fst d) ->
  mfold (fun d '(bs_id, s) =>
           pp <- dget_err Z.eqb d bs_id ;;
           Ok (dset Z.eqb d bs_id (mkHF (hf_bspot pp) (Some (hyps_to_flatdict s)) (Some area)))) st d = Ok d' ->
  map fst d' = map fst d /\ (forall l, In l (map fst st) -> In l (map fst d)) /\
  (forall id f, In (id, f) d' -> hf_bspot f = id /\
     ((exists h, In (id, h) st /\ f = mkHF id (Some (hyps_to_flatdict h)) (Some area)) \/
      (~ In id (map fst st) /\ In (id, f) d))).
Proof.
  intros T area. induction st as [|[l h] st IH]; intros d d' ND B NDd H; cbn [mfold] in H.
  - injection H as <-. split; auto. split; [intros l []|]. intros id f Hf. split; auto.
  - apply bind_ok in H. destruct H as (d1 & E & H). apply bind_ok in E. destruct E as (pp & Ep & E).
    injection E as <-. unfold dget_err in Ep. destruct (dget Z.eqb d l) as [p|] eqn:G; [|discriminate].
    injection Ep as ->. pose proof (dget_in _ Z.eqb_spec _ _ _ G) as Hin. pose proof (B _ _ Hin) as Bp.
    assert (K : In l (map fst d)) by (apply in_map_iff; exists (l, pp); auto).
    cbn [map fst] in ND. inversion ND as [|x y N1 N2]; subst.
    apply IH in H; auto.
    + destruct H as (A1 & A2 & A3). rewrite (dset_keys_present _ Z.eqb_spec) in A1, A2 by auto.
      split; auto. split; [intros x [<-|Hx]; auto|].
      intros id f Hf. destruct (A3 id f Hf) as (Hb & [(h' & Hh & Ef)|(Ni & Hf')]); split; auto.
      * left. exists h'. split; [right; auto|auto].
      * apply (dset_in _ Z.eqb_spec) in Hf'; auto. destruct Hf' as [(-> & ->)|(Ne & Hf')].
        -- left. exists h. split; [left; auto|]. reflexivity.
        -- right. split; auto. cbn. intros [X|X]; auto; congruence.
    + intros id f Hf. apply (dset_in _ Z.eqb_spec) in Hf; auto. destruct Hf as [(-> & ->)|(Ne & Hf)]; auto.
    + apply (dset_nodup _ Z.eqb_spec); auto.
Qed.

Lemma attach_total : forall {T} (area : T) st (d : list (Z * @hyps_feature T)),
  (forall l, In l (map fst st) -> In l (map fst d)) ->
  exists d', mfold (fun d '(bs_id, s) =>
           pp <- dget_err Z.eqb d bs_id ;;
           Ok (dset Z.eqb d bs_id (mkHF (hf_bspot pp) (Some (hyps_to_flatdict s)) (Some area)))) st d = Ok d'.
Proof.
  intros T area. induction st as [|[l h] st IH]; intros d K; cbn [mfold]; [eauto|].
  unfold dget_err. destruct (dget Z.eqb d l) as [p|] eqn:G.
  - cbn [bind]. apply IH. intros l' Hl. rewrite (dset_keys_present _ Z.eqb_spec); [|apply K; left; auto].
    apply K. right; auto.
  - apply (dget_none _ Z.eqb_spec) in G. exfalso. apply G. apply K. left; auto.
Qed.

Lemma stats_labels_n : forall {T} (ops : NumOps T) to_int pinf ninf lab dem w n bg st,
  same_shape dem lab -> labels_in lab n -> largest_label lab n ->
  bluespot_hypsometry_stats ops to_int pinf ninf lab dem w (Some n) bg = Ok st ->
  map fst st = zseq 0 (Z.to_nat (n + 1)).
Proof.
  intros T ops to_int pinf ninf lab dem w n bg st S L LG H.
  assert (Hd : 1 <= nrows lab /\ 1 <= ncols lab).
  { destruct LG as ((c & (H1 & H2) & _) & _). unfold inside in *. lia. }
  destruct (stats_labels _ _ _ _ _ _ _ _ _ _ H) as (k & E). rewrite E. f_equal.
  unfold bluespot_hypsometry_stats in H. cbn [bind] in H.
  apply bind_ok in H. destruct H as (zst & _ & H). apply bind_ok in H. destruct H as (ld & Ed & H).
  destruct (label_data_spec dem lab (Some n) n bg S (largest_nlabels _ _ LG) L (proj1 Hd) (proj2 Hd)) as (ld' & Ed' & Ld & _).
  rewrite Ed' in Ed. injection Ed as <-. apply mmap_nth in H. destruct H as (H & _).
  apply (f_equal (@List.length Z)) in E. rewrite map_length, zseq_length in E.
  rewrite combine_length, pyrange_from0, zseq_length in H. lia.
Qed.

Lemma index_hf : forall {T} ids, NoDup ids ->
  fold_left (fun d id => dset Z.eqb d id (@mkHF T id None None)) ids [] = map (fun id => (id, mkHF id None None)) ids.
Proof. intros T ids ND. rewrite index_fresh by auto. reflexivity. Qed.

Theorem hypsometry_io_sound : forall {T} (ops : NumOps T) to_int pinf ninf (lab : raster Z) dem cr ids w n out,
  labels_in lab n -> largest_label lab n -> NoDup ids ->
  bluespot_hypsometry_io ops to_int pinf ninf lab dem cr ids w = Ok out ->
  same_shape dem lab /\ nltb ops (nofZ ops 0) w = true /\
  map hf_bspot out = ids /\ (forall l, 0 <= l <= n -> In l ids) /\ (forall id, In id ids -> id <= n) /\
  exists st, bluespot_hypsometry_stats ops to_int pinf ninf lab dem w (Some n) 0 = Ok st /\
  forall f, In f out -> 0 <= hf_bspot f -> exists h d, In (hf_bspot f, h) st /\ hf_dict f = Some d /\
    hyps_from_flatdict d = Ok h /\ hf_cell_area f = Some (nmul ops (fst cr) (snd cr)).
Proof.
  intros T ops to_int pinf ninf lab dem cr ids w n out L LG ND H. unfold bluespot_hypsometry_io in H.
  destruct (nltb ops (nofZ ops 0) w) eqn:W; cbn [negb] in H; [|discriminate].
  destruct ((nrows lab =? nrows dem) && (ncols lab =? ncols dem)) eqn:SH; cbn [negb] in H; [|discriminate].
  apply andb_true_iff in SH. destruct SH as (S1 & S2). apply Z.eqb_eq in S1. apply Z.eqb_eq in S2.
  assert (S : same_shape dem lab) by (split; auto).
  split; auto. split; auto. rewrite index_hf in H by auto.
  apply bind_ok in H. destruct H as (m & Em & H). apply bind_ok in H. destruct H as (vm & Ev & H).
  destruct (Z.eqb_spec m vm) as [<-|]; cbn [negb] in H; [|discriminate].
  assert (m = n) by (eapply largest_unique; [apply np_max_spec; eauto|auto]). subst m.
  apply bind_ok in H. destruct H as (st & Est & H). apply bind_ok in H. destruct H as (d' & Ed & H). injection H as <-.
  assert (MF : map fst (map (fun id => (id, @mkHF T id None None)) ids) = ids).
  { rewrite map_map. cbn [fst]. apply map_id. }
  pose proof (stats_labels_n _ _ _ _ _ _ _ _ _ _ S L LG Est) as LB.
  apply attach_loop in Ed.
  - destruct Ed as (A1 & A2 & A3). rewrite MF in *.
    assert (NDd' : map hf_bspot (map snd d') = map fst d').
    { rewrite map_map. apply map_ext_in. intros [id f] Hf. cbn. apply A3 in Hf. apply Hf. }
    split; [congruence|]. split.
    { intros l Hl. apply A2. rewrite LB. apply in_zseq. lia. }
    split.
    { intros id Hid. destruct ids as [|x ids]; [destruct Hid|]. cbn [map] in Ev. injection Ev as Ev.
      destruct (zmax_from_spec (map fst (map (fun id => (id, @mkHF T id None None)) ids)) x) as (Z1 & Z2 & _).
      cbn [map fst] in MF. injection MF as MF. rewrite MF in *. rewrite Ev in *.
      destruct Hid as [<-|Hid]; auto. }
    exists st. split; auto. intros f Hf Hp. apply in_map_iff in Hf. destruct Hf as ((id & f') & Hs & Hf). cbn in Hs. subst f'.
    destruct (A3 _ _ Hf) as (Hb & [(h & Hh & Ef)|(Ni & Hf')]).
    + exists h. exists (hyps_to_flatdict h). rewrite Hb. split; auto. rewrite Ef. cbn. split; auto.
      split; [|auto]. eapply produced_roundtrip; eauto.
    + exfalso. apply Ni. rewrite LB. apply in_zseq. rewrite Hb in Hp.
      assert (In id ids) by (rewrite <- A1; apply in_map_iff; exists (id, f); auto).
      assert (id <= n); [|lia].
      destruct ids as [|x ids]; [destruct H|]. cbn [map] in Ev. injection Ev as Ev.
      destruct (zmax_from_spec (map fst (map (fun id => (id, @mkHF T id None None)) ids)) x) as (Z1 & Z2 & _).
      cbn [map fst] in MF. injection MF as MF. rewrite MF in *. rewrite Ev in *.
      destruct H as [<-|H]; auto.
  - rewrite LB. apply zseq_NoDup.
  - intros id f Hf. apply in_map_iff in Hf. destruct Hf as (x & Hx & _). injection Hx as <- <-. reflexivity.
  - rewrite MF. auto.
Qed.

Theorem hypsometry_io_total : forall {T} (ops : NumOps T) to_int pinf ninf (lab : raster Z) dem cr ids w n st,
  same_shape dem lab -> labels_in lab n -> largest_label lab n -> NoDup ids ->
  nltb ops (nofZ ops 0) w = true -> (forall l, In l ids <-> 0 <= l <= n) ->
  bluespot_hypsometry_stats ops to_int pinf ninf lab dem w (Some n) 0 = Ok st ->
  exists out, bluespot_hypsometry_io ops to_int pinf ninf lab dem cr ids w = Ok out.
Proof.
  intros T ops to_int pinf ninf lab dem cr ids w n st S L LG ND W I Est. unfold bluespot_hypsometry_io.
  assert (Hd : 1 <= nrows lab /\ 1 <= ncols lab).
  { destruct LG as ((c & (H1 & H2) & _) & _). unfold inside in *. lia. }
  rewrite W. cbn [negb]. destruct S as (S1 & S2). rewrite S1, S2, !Z.eqb_refl. cbn [andb negb].
  rewrite index_hf by auto.
  assert (NM : np_max lab = Ok n).
  { destruct (np_max_total lab (proj1 Hd) (proj2 Hd)) as (m & E). rewrite E. f_equal.
    eapply largest_unique; [apply np_max_spec; eauto|auto]. }
  rewrite NM. cbn [bind].
  assert (Hn : 0 <= n). { destruct LG as ((c & Hc & Hl) & _). specialize (L c Hc). lia. }
  assert (MF : map fst (map (fun id => (id, @mkHF T id None None)) ids) = ids).
  { rewrite map_map. cbn [fst]. apply map_id. }
  rewrite MF. destruct ids as [|x ids].
  { exfalso. apply (I 0). lia. }
  cbn [bind]. assert (ZM : zmax_from x ids = n).
  { destruct (zmax_from_spec ids x) as (A & B & C).
    assert (X : In n (x :: ids)) by (apply I; lia).
    assert (n <= zmax_from x ids) by (destruct X as [<-|X]; auto).
    assert (Y : In (zmax_from x ids) (x :: ids)) by (destruct C as [->|C]; [left|right]; auto).
    apply I in Y. lia. }
  rewrite ZM, Z.eqb_refl. cbn [negb]. rewrite Est. cbn [bind].
  destruct (attach_total (nmul ops (fst cr) (snd cr)) st (map (fun id => (id, @mkHF T id None None)) (x :: ids))) as (d' & E).
  - rewrite MF. rewrite (stats_labels_n _ _ _ _ _ _ _ _ _ _ (conj S1 S2) L LG Est). intros l Hl. apply in_zseq in Hl. apply I. lia.
  - rewrite E. cbn [bind]. eauto.
Qed.

(** ** Refutations and examples *)

Definition hy_lab : raster Z := of_rows 0 [[1; 1; 0; 2]].
Definition hy_dem : raster Q := of_rows 0%Q [[(1#2)%Q; (7#4)%Q; (9#1)%Q; (5#2)%Q]].

Lemma hy_lab_ok : numbered hy_lab 2 /\ largest_label hy_lab 2.
Proof.
  assert (L : labels_in hy_lab 2) by (apply labels_check_ok; reflexivity).
  split.
  - split; auto. split; [lia|]. intros l Hl.
    assert (l = 1 \/ l = 2) as [->| ->] by lia; [exists (0, 0)|exists (0, 3)]; vm_compute; repeat split; discriminate.
  - split; [exists (0, 3); vm_compute; repeat split; discriminate|]. intros c Hc. apply L; auto.
Qed.

Definition neg_lab : raster Z := of_rows 0 [[1; 1]].
Definition neg_dem : raster Q := of_rows 0%Q [[(-1#2)%Q; (1#2)%Q]].

Lemma neg_lab_ok : numbered neg_lab 1 /\ largest_label neg_lab 1 /\ lists_cells (has_label neg_lab 1) [(0, 0); (0, 1)].
Proof.
  assert (L : labels_in neg_lab 1) by (apply labels_check_ok; reflexivity).
  split.
  - split; auto. split; [lia|]. intros l Hl. assert (l = 1) by lia. subst. exists (0, 0). vm_compute; repeat split; discriminate.
  - split.
    + split; [exists (0, 1); vm_compute; repeat split; discriminate|]. intros c Hc. apply L; auto.
    + change [(0, 0); (0, 1)] with (lcells neg_lab 1). apply lcells_spec.
Qed.

Theorem negative_refuted : exists (lab : raster Z) (dem : raster Q) st h,
  same_shape dem lab /\ numbered lab 1 /\ largest_label lab 1 /\ lists_cells (has_label lab 1) [(0, 0); (0, 1)] /\
  bluespot_hypsometry_stats QOps Q_int 1000%Q (-1000)%Q lab dem 1%Q None 0 = Ok st /\
  nth_error st 1 = Some (1, h) /\ zsum (h_counts (z_hist h)) = 1 /\ (z_min h < b_lower (h_bins (z_hist h)))%Q.
Proof.
  exists neg_lab, neg_dem. do 2 eexists. split; [split; reflexivity|]. split; [apply neg_lab_ok|].
  split; [apply neg_lab_ok|]. split; [apply neg_lab_ok|].
  split; [vm_compute; reflexivity|]. split; [reflexivity|]. split; reflexivity.
Qed.

Definition one_lab : raster Z := of_rows 0 [[1]].
Definition tenth (k : Z) : b64 := f64_div (f64_ofZ k) (f64_ofZ 10).
Definition round_dem : raster b64 := of_rows f64_zero [[tenth 3]].

Lemma one_lab_ok : numbered one_lab 1 /\ largest_label one_lab 1 /\ lists_cells (has_label one_lab 1) [(0, 0)].
Proof.
  assert (L : labels_in one_lab 1) by (apply labels_check_ok; reflexivity).
  split.
  - split; auto. split; [lia|]. intros l Hl. assert (l = 1) by lia. subst. exists (0, 0). vm_compute; repeat split; discriminate.
  - split.
    + split; [exists (0, 0); vm_compute; repeat split; discriminate|]. intros c Hc. apply L; auto.
    + change [(0, 0)] with (lcells one_lab 1). apply lcells_spec.
Qed.

(** 0.3 with resolution 0.1: the lower bound is 3 * 0.1 = 0.30000000000000004 *)
Theorem rounding_refuted : exists (lab : raster Z) (dem : raster b64) w st h,
  same_shape dem lab /\ numbered lab 1 /\ largest_label lab 1 /\ lists_cells (has_label lab 1) [(0, 0)] /\
  lt64 f64_zero w /\ lt64 f64_zero (at_ dem (0, 0)) /\ lt64 (at_ dem (0, 0)) (f64_ofZ 1) /\
  bluespot_hypsometry_stats F64Ops b64_int f64_inf f64_ninf lab dem w None 0 = Ok st /\
  nth_error st 1 = Some (1, h) /\ zsum (h_counts (z_hist h)) = 0 /\ lt64 (z_min h) (b_lower (h_bins (z_hist h))).
Proof.
  assert (C : on_ok (fun st : list (Z * @hyps b64) => match st with
     | [_; (1, h)] => (zsum (h_counts (z_hist h)) =? 0) && Flocq.IEEE754.BinarySingleNaN.Bltb (z_min h) (b_lower (h_bins (z_hist h)))
     | _ => false end)
    (bluespot_hypsometry_stats F64Ops b64_int f64_inf f64_ninf one_lab round_dem (tenth 1) None 0) = true)
    by (vm_compute; reflexivity).
  apply on_ok_ex in C. destruct C as (st & E & C).
  destruct st as [|s0 [|[l h] [|]]]; try discriminate C.
  2:{ destruct l as [|[| |]|]; discriminate C. }
  destruct l as [|[| |]|]; try discriminate C.
  apply andb_prop in C. destruct C as [C1 C2]. apply Z.eqb_eq in C1.
  exists one_lab, round_dem, (tenth 1), [s0; (1, h)], h.
  split; [split; reflexivity|]. split; [apply one_lab_ok|]. split; [apply one_lab_ok|]. split; [apply one_lab_ok|].
  split; [vm_compute; reflexivity|]. split; [vm_compute; reflexivity|]. split; [vm_compute; reflexivity|].
  split; [exact E|]. split; [reflexivity|]. split; [exact C1|exact C2].
Qed.
