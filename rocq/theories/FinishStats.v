(** * The hypsometry of a float32 DEM is computed without errors *)

From Coq Require Import QArith Reals Lra Lia.
From Flocq Require Import Core IEEE754.BinarySingleNaN.
From Verif Require Import Base BaseProofs Num Float64 Float64Proofs Float64Arith LabelModel LabelSpec LabelProofs CompProofs BluespotSpec
  BluespotProofs LabelThms BluespotThms HypsModel HypsProofs HypsThms FloatFinishModel RoundProofs OverflowProofs FinishArith FinishBins.
Local Open Scope Z_scope.

(** ** Least and greatest of finite values *)
Lemma fold_lt_in : forall (vs : list b64) m, is_finite m = true -> (forall v, In v vs -> is_finite v = true) ->
  let r := fold_left (fun m v => if Bltb v m then v else m) vs m in
  In r (m :: vs) /\ forall v, In v (m :: vs) -> (B2R r <= B2R v)%R.
Proof.
  induction vs as [|a vs IH]; intros m Fm F; cbn [fold_left]; cbv zeta.
  - split; [left; reflexivity|]. intros v [<-|[]]. apply Rle_refl.
  - assert (Fa : is_finite a = true) by (apply F; left; reflexivity).
    destruct (Bltb a m) eqn:E.
    + apply ltb_R in E; auto. destruct (IH a Fa (fun v Hv => F v (or_intror Hv))) as [A B]. split; [right; exact A|].
      intros v [<-|Hv]; [|apply B; exact Hv]. apply Rle_trans with (B2R a); [apply B; left; reflexivity|lra].
    + assert (Le : (B2R m <= B2R a)%R). { apply Rnot_lt_le. intros H. apply ltb_R in H; auto. congruence. }
      destruct (IH m Fm (fun v Hv => F v (or_intror Hv))) as [A B]. split; [destruct A as [A|A]; [left; exact A|right; right; exact A]|].
      intros v [<-|[<-|Hv]]; [apply B; left; reflexivity| |apply B; right; exact Hv]. apply Rle_trans with (B2R m); [apply B; left; reflexivity|exact Le].
Qed.

Lemma fold_gt_in : forall (vs : list b64) m, is_finite m = true -> (forall v, In v vs -> is_finite v = true) ->
  let r := fold_left (fun m v => if Bltb m v then v else m) vs m in
  In r (m :: vs) /\ forall v, In v (m :: vs) -> (B2R v <= B2R r)%R.
Proof.
  induction vs as [|a vs IH]; intros m Fm F; cbn [fold_left]; cbv zeta.
  - split; [left; reflexivity|]. intros v [<-|[]]. apply Rle_refl.
  - assert (Fa : is_finite a = true) by (apply F; left; reflexivity).
    destruct (Bltb m a) eqn:E.
    + apply ltb_R in E; auto. destruct (IH a Fa (fun v Hv => F v (or_intror Hv))) as [A B]. split; [right; exact A|].
      intros v [<-|Hv]; [|apply B; exact Hv]. apply Rle_trans with (B2R a); [lra|apply B; left; reflexivity].
    + assert (Le : (B2R a <= B2R m)%R). { apply Rnot_lt_le. intros H. apply ltb_R in H; auto. congruence. }
      destruct (IH m Fm (fun v Hv => F v (or_intror Hv))) as [A B]. split; [destruct A as [A|A]; [left; exact A|right; right; exact A]|].
      intros v [<-|[<-|Hv]]; [apply B; left; reflexivity| |apply B; right; exact Hv]. apply Rle_trans with (B2R m); [exact Le|apply B; left; reflexivity].
Qed.

Lemma stats_ends : forall vs : list b64, vs <> [] -> (forall v, In v vs -> is_finite v = true) ->
  let s := fold_left (stat_add F64Ops) vs (stat0 F64Ops f64_inf f64_ninf) in
  In (s_min s) vs /\ In (s_max s) vs /\ forall v, In v vs -> (B2R (s_min s) <= B2R v <= B2R (s_max s))%R.
Proof.
  intros vs NE F s. unfold s. rewrite fold_min, fold_max. cbn [stat0 s_min s_max nltb F64Ops].
  destruct vs as [|a vs]; [congruence|]. cbn [fold_left]. assert (Fa : is_finite a = true) by (apply F; left; reflexivity).
  assert (E1 : Bltb a f64_inf = true) by (destruct a as [| | |[|] m e P]; try discriminate Fa; reflexivity).
  assert (E2 : Bltb f64_ninf a = true) by (destruct a as [| | |[|] m e P]; try discriminate Fa; reflexivity).
  rewrite E1, E2. destruct (fold_lt_in vs a Fa (fun v Hv => F v (or_intror Hv))) as [A B].
  destruct (fold_gt_in vs a Fa (fun v Hv => F v (or_intror Hv))) as [C D].
  split; [exact A|]. split; [exact C|]. intros v Hv. split; [apply B|apply D]; exact Hv.
Qed.

(** ** The histogram *)
Lemma histogram32_ok : forall data n lower upper, 1 <= n -> is_finite lower = true -> is_finite upper = true -> (B2R lower < B2R upper)%R ->
  exists counts, np_histogram32 data n lower upper = Ok counts /\ Z.of_nat (length counts) = n /\
    (forall c, In c counts -> 0 <= c <= Z.of_nat (length data)) /\
    counts = map (fun i => Z.of_nat (length (filter (fun x => Bleb (store32 (edge F64Ops n lower upper i)) x && ((i =? n - 1) || Bltb x (store32 (edge F64Ops n lower upper (i + 1)))))
      (filter (fun x => Bleb (store32 lower) x && Bleb x (store32 upper)) data)))) (zseq 0 (Z.to_nat n)).
Proof.
  intros data n lower upper N F1 F2 L. unfold np_histogram32. destruct (Z.ltb_spec n 1); [lia|].
  assert (E1 : Bltb upper lower = false). { destruct (Bltb upper lower) eqn:E; [|reflexivity]. apply ltb_R in E; auto. lra. }
  assert (E2 : Beqb lower upper = false). { destruct (Beqb lower upper) eqn:E; [|reflexivity]. apply eqb_R in E; auto. lra. }
  rewrite E1, E2, F1, F2. cbn [andb negb]. rewrite pyrange_from0. eexists. split; [reflexivity|].
  split; [rewrite map_length, zseq_length; lia|]. split; [|reflexivity].
  intros c Hc. apply in_map_iff in Hc. destruct Hc as (i & <- & _). split; [lia|]. apply inj_le.
  assert (FL : forall (f : b64 -> bool) l, (length (filter f l) <= length l)%nat) by (intros f l; induction l as [|x l IH]; cbn [filter length]; [lia|destruct (f x); cbn [length]; lia]).
  eapply Nat.le_trans; apply FL.
Qed.

(** ** All labels *)
Definition elev_ok (w z : b64) : Prop :=
  is_finite z = true /\ (Rabs (B2R z) <= bpow radix2 126)%R /\ (Rabs (B2R z) <= bpow radix2 40 * B2R w)%R.

Record stats_of (dem : raster b64) (w : b64) (cs : list cell) (h : @hyps b64) : Prop := mkStats {
  so_min : In (z_min h) (map (at_ dem) cs);
  so_max : In (z_max h) (map (at_ dem) cs);
  so_between : forall c, In c cs -> (B2R (z_min h) <= B2R (at_ dem c) <= B2R (z_max h))%R;
  so_bins : histogram_bins F64Ops b64_int (z_min h) (z_max h) w = Ok (h_bins (z_hist h));
  so_hist : np_histogram32 (map (at_ dem) cs) (b_num (h_bins (z_hist h))) (b_lower (h_bins (z_hist h))) (b_upper (h_bins (z_hist h))) = Ok (h_counts (z_hist h));
  so_len : Z.of_nat (length (h_counts (z_hist h))) = b_num (h_bins (z_hist h));
  so_counts : forall c, In c (h_counts (z_hist h)) -> 0 <= c <= Z.of_nat (length cs)
}.

Theorem hyps32_total : forall (lab : raster Z) (dem : raster b64) w n,
  same_shape dem lab -> numbered lab n -> largest_label lab n ->
  is_finite w = true -> (bpow radix2 (-100) <= B2R w <= bpow radix2 100)%R ->
  (forall c, inside (nrows lab) (ncols lab) c -> elev_ok w (at_ dem c)) ->
  exists st, hypsometry_stats32 lab dem w n = Ok st /\
    forall l h, In (l, h) st -> 1 <= l <= n -> exists cs, lists_cells (has_label lab l) cs /\ stats_of dem w cs h.
Proof.
  intros lab dem w n Sh (L & Hn0 & U) LG Fw [W1 W2] F.
  assert (Hd : 1 <= nrows lab /\ 1 <= ncols lab).
  { destruct LG as ((c & (H1 & H2) & _) & _). unfold inside in *. lia. }
  destruct Hd as (Hr & Hc). pose proof (largest_nlabels _ _ LG) as NL.
  destruct (label_stats_fold F64Ops f64_inf f64_ninf dem lab (Some n) n Sh NL L Hr Hc) as (zst & Ez & Lz & Nz).
  destruct (label_data_spec dem lab (Some n) n 0 Sh NL L Hr Hc) as (ld & Ed & Ld & Nd).
  unfold hypsometry_stats32. rewrite Ez. cbn [bind]. rewrite Ed. cbn [bind].
  set (f := fun '(label, data) => _). set (inp := combine _ _).
  assert (IN : forall i, 0 <= i <= n -> exists cs, lists_cells (has_label lab i) cs /\
    nth_error inp (Z.to_nat i) = Some (i, if i =? 0 then [] else map (at_ dem) cs)).
  { intros i Hi. destruct (Nd i Hi) as (cs & Lc & E). exists cs. split; auto.
    apply nth_error_combine; auto. rewrite pyrange_from0, nth_error_zseq by lia. f_equal. lia. }
  assert (LI : List.length inp = Z.to_nat (n + 1)).
  { unfold inp. rewrite combine_length, pyrange_from0, zseq_length. lia. }
  assert (STEP : forall i cs, 1 <= i <= n -> lists_cells (has_label lab i) cs ->
    exists h, f (i, map (at_ dem) cs) = Ok (i, h) /\ stats_of dem w cs h).
  { intros i cs Hi Lc. pose proof (lists_unique _ _ _ Lc (lcells_spec lab i)) as ->.
    set (cs := lcells lab i) in *. set (zs := map (at_ dem) cs).
    assert (NE : zs <> []).
    { destruct (U i Hi) as (c & Hl). apply (proj2 Lc) in Hl. unfold zs. destruct cs; [destruct Hl|discriminate]. }
    assert (BD : forall z, In z zs -> elev_ok w z).
    { intros z Hz. apply in_map_iff in Hz. destruct Hz as (c & <- & Hc'). apply F. apply (proj2 Lc) in Hc'. apply Hc'. }
    set (s := fold_left (stat_add F64Ops) zs (stat0 F64Ops f64_inf f64_ninf)).
    destruct (stats_ends zs NE (fun z Hz => proj1 (BD z Hz))) as (MN & MX & BT). fold s in MN, MX, BT.
    destruct (BD _ MN) as (Fa & Aa & Ba). destruct (BD _ MX) as (Fb & Ab & Bb).
    pose proof (proj2 (BT _ MN)) as LE.
    destruct (bins_ok w Fw W1 W2 (s_min s) (s_max s) Fa Fb Aa Ab Ba Bb LE) as (b & Eb & Nb & _ & Fl & Fu & _ & _ & _ & _ & _ & Lt).
    destruct (m_facts w Fw W1 W2 (s_min s) (s_max s) Fa Fb Aa Ab Ba Bb LE) as (_ & _ & N1).
    destruct (histogram32_ok zs (b_num b) (b_lower b) (b_upper b) ltac:(lia) Fl Fu Lt) as (counts & Ec & Lc' & Cb & _).
    unfold f. assert (ER : list_rd zst i = Ok s).
    { replace i with (Z.of_nat (Z.to_nat i)) by lia. apply list_rd_nth. rewrite Nz by lia. reflexivity. }
    rewrite ER. cbn [bind]. destruct (Z.eqb_spec i 0); [lia|]. rewrite Eb. cbn [bind]. fold zs. rewrite Ec. cbn [bind].
    eexists. split; [reflexivity|]. constructor; cbn [z_hist z_min z_max h_bins h_counts]; auto.
    - intros c Hc'. apply BT. apply in_map. exact Hc'.
    - intros c Hc'. apply Cb in Hc'. unfold zs in Hc'. rewrite map_length in Hc'. exact Hc'. }
  destruct (mmap_ok f inp) as (st & Est).
  { intros x Hx. apply In_nth_error in Hx. destruct Hx as (k & Hk).
    assert (Hk' : (k < List.length inp)%nat) by (apply nth_error_Some; congruence).
    destruct (IN (Z.of_nat k)) as (cs & Lc & E); [lia|]. rewrite Nat2Z.id in E. rewrite Hk in E. injection E as ->.
    destruct (Z.eqb_spec (Z.of_nat k) 0) as [Z0|Z0].
    - unfold f. rewrite Z0. assert (ER : exists s, list_rd zst 0 = Ok s).
      { eexists. change 0 with (Z.of_nat 0). apply list_rd_nth. apply (Nz 0). lia. }
      destruct ER as (s & ER). rewrite ER. cbn [bind]. rewrite Z.eqb_refl. cbn [bind]. eauto.
    - destruct (STEP (Z.of_nat k) cs) as (h & Eh & _); [lia|auto|]. eauto. }
  exists st. split; [exact Est|]. intros l h Hin Hl. apply In_nth_error in Hin. destruct Hin as (k & Hk).
  destruct (mmap_nth _ _ _ Est) as (Len & NTH).
  assert (Hk' : (k < List.length inp)%nat) by (rewrite <- Len; apply nth_error_Some; congruence).
  destruct (IN (Z.of_nat k)) as (cs & Lc & E); [lia|]. rewrite Nat2Z.id in E. destruct (NTH _ _ E) as (y & Ey & Ny).
  rewrite Hk in Ny. injection Ny as <-.
  assert (Lk : l = Z.of_nat k).
  { unfold f in Ey. apply bind_ok in Ey. destruct Ey as (s & _ & Ey). apply bind_ok in Ey. destruct Ey as (hh & _ & Ey). injection Ey as <- _. reflexivity. }
  subst l. destruct (Z.eqb_spec (Z.of_nat k) 0); [lia|]. destruct (STEP _ cs Hl Lc) as (h' & Eh & P). rewrite Eh in Ey. injection Ey as <-.
  exists cs. split; assumption.
Qed.
