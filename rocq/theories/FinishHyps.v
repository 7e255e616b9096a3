(** * The hypsometry layer of a float32 DEM

    As HypsThms, for the histograms of FloatFinishModel. *)

From Coq Require Import ZArith.
From Flocq Require Import IEEE754.BinarySingleNaN.
From Verif Require Import Base BaseProofs Num Float64 Dict DictProofs LabelModel LabelSpec LabelProofs LabelThms CompProofs BluespotSpec BluespotProofs
  HypsModel HypsSpec HypsThms FloatFinishModel.
Local Open Scope Z_scope.

Theorem produced_counts32 : forall lab dem w n st l h,
  hypsometry_stats32 lab dem w n = Ok st -> In (l, h) st ->
  Z.of_nat (List.length (h_counts (z_hist h))) = b_num (h_bins (z_hist h)).
Proof.
  intros lab dem w n st l h H Hin. unfold hypsometry_stats32 in H.
  apply bind_ok in H. destruct H as (zst & _ & H).
  apply bind_ok in H. destruct H as (ld & _ & H).
  destruct (mmap_nth _ _ _ H) as (Len & NTH). apply In_nth_error in Hin. destruct Hin as (i & Hi).
  assert (Hx : exists x, nth_error (combine (pyrange 0 (Z.of_nat (List.length ld)) 1) ld) i = Some x).
  { destruct (nth_error (combine _ ld) i) eqn:E; eauto. apply nth_error_None in E.
    assert (i < List.length st)%nat by (apply nth_error_Some; congruence). lia. }
  destruct Hx as ((label, data) & Hx). destruct (NTH _ _ Hx) as (y & Ey & Ny). rewrite Hi in Ny. injection Ny as <-.
  apply bind_ok in Ey. destruct Ey as (s & _ & Ey). apply bind_ok in Ey. destruct Ey as (hh & Eh & Ey).
  injection Ey as -> <-. cbn [z_hist]. destruct (l =? 0).
  - injection Eh as <-. reflexivity.
  - apply bind_ok in Eh. destruct Eh as (b & _ & Eh). apply bind_ok in Eh. destruct Eh as (c & Ec & Eh).
    injection Eh as <-. cbn [h_counts h_bins]. unfold np_histogram32 in Ec.
    destruct (Z.ltb_spec (b_num b) 1); [discriminate|]. destruct (Bltb _ _); [discriminate|]. destruct (negb _); [discriminate|].
    injection Ec as <-. rewrite map_length, pyrange_from0, zseq_length. lia.
Qed.

Theorem produced_roundtrip32 : forall lab dem w n st l h,
  hypsometry_stats32 lab dem w n = Ok st -> In (l, h) st ->
  hyps_from_flatdict (hyps_to_flatdict h) = Ok h.
Proof. intros. apply flatdict_roundtrip. eapply produced_counts32; eauto. Qed.

Lemma stats_labels32 : forall lab dem w n st,
  hypsometry_stats32 lab dem w n = Ok st ->
  exists k, map fst st = zseq 0 k.
Proof.
  intros lab dem w n st H. unfold hypsometry_stats32 in H.
  apply bind_ok in H. destruct H as (zst & _ & H). apply bind_ok in H. destruct H as (ld & _ & H).
  exists (List.length ld). rewrite pyrange_from0, Nat2Z.id in H.
  set (f := fun '(label, data) => _) in H. revert st H. generalize 0.
  induction ld as [|d ld IH]; intros a st H; cbn [List.length zseq combine mmap] in H.
  - injection H as <-. reflexivity.
  - apply bind_ok in H. destruct H as (y & Ey & H). apply bind_ok in H. destruct H as (ys & E & H). injection H as <-.
    apply bind_ok in Ey. destruct Ey as (s & _ & Ey). apply bind_ok in Ey. destruct Ey as (hh & _ & Ey).
    injection Ey as <-. cbn [map fst List.length zseq]. f_equal. eapply IH; eauto.
Qed.

Lemma stats_labels_n32 : forall lab dem w n st,
  same_shape dem lab -> labels_in lab n -> largest_label lab n ->
  hypsometry_stats32 lab dem w n = Ok st ->
  map fst st = zseq 0 (Z.to_nat (n + 1)).
Proof.
  intros lab dem w n st S L LG H.
  assert (Hd : 1 <= nrows lab /\ 1 <= ncols lab).
  { destruct LG as ((c & (H1 & H2) & _) & _). unfold inside in *. lia. }
  destruct (stats_labels32 _ _ _ _ _ H) as (k & E). rewrite E. f_equal.
  unfold hypsometry_stats32 in H.
  apply bind_ok in H. destruct H as (zst & _ & H). apply bind_ok in H. destruct H as (ld & Ed & H).
  destruct (label_data_spec dem lab (Some n) n 0 S (largest_nlabels _ _ LG) L (proj1 Hd) (proj2 Hd)) as (ld' & Ed' & Ld & _).
  rewrite Ed' in Ed. injection Ed as <-. apply mmap_nth in H. destruct H as (H & _).
  apply (f_equal (@List.length Z)) in E. rewrite map_length, zseq_length in E.
  rewrite combine_length, pyrange_from0, zseq_length in H. lia.
Qed.

Theorem hypsometry_io_sound32 : forall (lab : raster Z) dem cr ids w n out,
  labels_in lab n -> largest_label lab n -> NoDup ids ->
  hypsometry_io32 lab dem cr ids w = Ok out ->
  same_shape dem lab /\ Bltb (f64_ofZ 0) w = true /\
  map hf_bspot out = ids /\ (forall l, 0 <= l <= n -> In l ids) /\ (forall id, In id ids -> id <= n) /\
  exists st, hypsometry_stats32 lab dem w n = Ok st /\
  forall f, In f out -> 0 <= hf_bspot f -> exists h d, In (hf_bspot f, h) st /\ hf_dict f = Some d /\
    hyps_from_flatdict d = Ok h /\ hf_cell_area f = Some (f64_mul (fst cr) (snd cr)).
Proof.
  intros lab dem cr ids w n out L LG ND H. unfold hypsometry_io32 in H.
  destruct (Bltb (f64_ofZ 0) w) eqn:W; cbn [negb] in H; [|discriminate].
  destruct ((nrows lab =? nrows dem) && (ncols lab =? ncols dem)) eqn:SH; cbn [negb] in H; [|discriminate].
  apply andb_true_iff in SH. destruct SH as (S1 & S2). apply Z.eqb_eq in S1. apply Z.eqb_eq in S2.
  assert (S : same_shape dem lab) by (split; auto).
  split; auto. split; auto. rewrite index_hf in H by auto.
  apply bind_ok in H. destruct H as (m & Em & H). apply bind_ok in H. destruct H as (vm & Ev & H).
  destruct (Z.eqb_spec m vm) as [<-|]; cbn [negb] in H; [|discriminate].
  assert (m = n) by (eapply largest_unique; [apply np_max_spec; eauto|auto]). subst m.
  apply bind_ok in H. destruct H as (st & Est & H). apply bind_ok in H. destruct H as (d' & Ed & H). injection H as <-.
  assert (MF : map fst (map (fun id => (id, @mkHF b64 id None None)) ids) = ids).
  { rewrite map_map. cbn [fst]. apply map_id. }
  pose proof (stats_labels_n32 _ _ _ _ _ S L LG Est) as LB.
  apply attach_loop in Ed.
  - destruct Ed as (A1 & A2 & A3). rewrite MF in *.
    assert (NDd' : map hf_bspot (map snd d') = map fst d').
    { rewrite map_map. apply map_ext_in. intros [id f] Hf. cbn. apply A3 in Hf. apply Hf. }
    split; [congruence|]. split.
    { intros l Hl. apply A2. rewrite LB. apply in_zseq. lia. }
    split.
    { intros id Hid. destruct ids as [|x ids]; [destruct Hid|]. cbn [map] in Ev. injection Ev as Ev.
      destruct (zmax_from_spec (map fst (map (fun id => (id, @mkHF b64 id None None)) ids)) x) as (Z1 & Z2 & _).
      cbn [map fst] in MF. injection MF as MF. rewrite MF in *. rewrite Ev in *.
      destruct Hid as [<-|Hid]; auto. }
    exists st. split; auto. intros f Hf Hp. apply in_map_iff in Hf. destruct Hf as ((id & f') & Hs & Hf). cbn in Hs. subst f'.
    destruct (A3 _ _ Hf) as (Hb & [(h & Hh & Ef)|(Ni & Hf')]).
    + exists h. exists (hyps_to_flatdict h). rewrite Hb. split; auto. rewrite Ef. cbn. split; auto.
      split; [|auto]. eapply produced_roundtrip32; eauto.
    + exfalso. apply Ni. rewrite LB. apply in_zseq. rewrite Hb in Hp.
      assert (In id ids) by (rewrite <- A1; apply in_map_iff; exists (id, f); auto).
      assert (id <= n); [|lia].
      destruct ids as [|x ids]; [destruct H|]. cbn [map] in Ev. injection Ev as Ev.
      destruct (zmax_from_spec (map fst (map (fun id => (id, @mkHF b64 id None None)) ids)) x) as (Z1 & Z2 & _).
      cbn [map fst] in MF. injection MF as MF. rewrite MF in *. rewrite Ev in *.
      destruct H as [<-|H]; auto.
  - rewrite LB. apply zseq_NoDup.
  - intros id f Hf. apply in_map_iff in Hf. destruct Hf as (x & Hx & _). injection Hx as <- <-. reflexivity.
  - rewrite MF. auto.
Qed.

Theorem hypsometry_io_total32 : forall (lab : raster Z) dem cr ids w n st,
  same_shape dem lab -> labels_in lab n -> largest_label lab n -> NoDup ids ->
  Bltb (f64_ofZ 0) w = true -> (forall l, In l ids <-> 0 <= l <= n) ->
  hypsometry_stats32 lab dem w n = Ok st ->
  exists out, hypsometry_io32 lab dem cr ids w = Ok out.
Proof.
  intros lab dem cr ids w n st S L LG ND W I Est. unfold hypsometry_io32.
  assert (Hd : 1 <= nrows lab /\ 1 <= ncols lab).
  { destruct LG as ((c & (H1 & H2) & _) & _). unfold inside in *. lia. }
  rewrite W. cbn [negb]. destruct S as (S1 & S2). rewrite S1, S2, !Z.eqb_refl. cbn [andb negb].
  rewrite index_hf by auto.
  assert (NM : np_max lab = Ok n).
  { destruct (np_max_total lab (proj1 Hd) (proj2 Hd)) as (m & E). rewrite E. f_equal.
    eapply largest_unique; [apply np_max_spec; eauto|auto]. }
  rewrite NM. cbn [bind].
  assert (Hn : 0 <= n). { destruct LG as ((c & Hc & Hl) & _). specialize (L c Hc). lia. }
  assert (MF : map fst (map (fun id => (id, @mkHF b64 id None None)) ids) = ids).
  { rewrite map_map. cbn [fst]. apply map_id. }
  rewrite MF. destruct ids as [|x ids].
  { exfalso. apply (I 0). lia. }
  cbn [bind]. assert (ZM : zmax_from x ids = n).
  { destruct (zmax_from_spec ids x) as (A & B & C).
    assert (X : In n (x :: ids)) by (apply I; lia).
    assert (n <= zmax_from x ids) by (destruct X as [<-|X]; auto).
    assert (Y : In (zmax_from x ids) (x :: ids)) by (destruct C as [->|C]; [left|right]; auto).
    apply I in Y. lia. }
  rewrite ZM, Z.eqb_refl. cbn [negb]. rewrite Est. cbn [bind].
  destruct (attach_total (f64_mul (fst cr) (snd cr)) st (map (fun id => (id, @mkHF b64 id None None)) (x :: ids))) as (d' & E).
  - rewrite MF. rewrite (stats_labels_n32 _ _ _ _ _ (conj S1 S2) L LG Est). intros l Hl. apply in_zseq in Hl. apply I. lia.
  - rewrite E. cbn [bind]. eauto.
Qed.
