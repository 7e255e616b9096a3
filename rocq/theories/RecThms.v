(** * Theorems about the recursion limit *)

From Coq Require Import Permutation.
From Verif Require Import Base BaseProofs Float64 Dict FillModel FillSpec FlowModel FlowSpec FlowThms DemModel DemProofs CompSpec CompProofs BluespotModel LevelProofs LabelModel LabelSpec LabelProofs BluespotSpec NetModel NetSpec
  UntangleProofs UntangleFacts NetProofs NetThms RecModel RecSpec RecProofs.
Local Open Scope Z_scope.

(** ** Rows of junctions in the network *)
Lemma rd_label : forall (lab : raster Z) i j v, rd lab i j = Ok v -> exists c, has_label lab v c.
Proof.
  intros lab i j v H. unfold rd, pyidx in H.
  repeat match type of H with context [if ?b then _ else _] => destruct b eqn:?; try discriminate end;
    cbn in H; inversion H; subst;
    repeat match goal with E : _ && _ = true |- _ => apply andb_true_iff in E; destruct E end;
    [exists (i, j) | exists (i, j + ncols lab) | exists (i + nrows lab, j) | exists (i + nrows lab, j + ncols lab)];
    (split; [unfold inside; cbn [fst snd]; lia | reflexivity]).
Qed.

Lemma loop_label : forall fuel f lab src bg g c geom l geom', label_loop fuel f lab src bg g c geom = Ok (Some l, geom') ->
  exists x, has_label lab l x.
Proof.
  induction fuel as [|fuel IH]; intros f lab src bg g c geom l geom' H; cbn [label_loop] in H;
    destruct (cell_in_raster (nrows f) (ncols f) c); try discriminate.
  apply bind_ok in H. destruct H as (v & Ev & H).
  match type of H with (if ?b then _ else _) = _ => destruct b end.
  - inversion H; subst. eapply rd_label; eauto.
  - apply bind_ok in H. destruct H as (dir & _ & H). apply bind_ok in H. destruct H as ([[dr dc]|] & _ & H); [|discriminate].
    eapply IH; eauto.
Qed.

Definition labelled (lab : raster Z) (o : option Z) : Prop := match o with Some d => exists c, has_label lab d c | None => True end.
Definition fresh_nodes (lab : raster Z) (d : list (option Z * list gnode)) : Prop :=
  forall k l n, In (k, l) d -> In n l -> g_junction n = false /\ labelled lab (g_dstr n).

Lemma push_fresh : forall lab d n, fresh_nodes lab d -> g_junction n = false -> labelled lab (g_dstr n) -> fresh_nodes lab (push d n).
Proof.
  intros lab d n F J L k l m H Hm. unfold push in H.
  assert (X : In m (flat_map snd (dset optZ_eqb d (g_dstr n) (match dget optZ_eqb d (g_dstr n) with Some l => l | None => [] end ++ [n])))).
  { apply in_flat_map. exists (k, l). split; auto. }
  eapply Permutation_in in X; [|apply dset_flat]. apply in_app_or in X. destruct X as [X|[<-|[]]]; auto.
  apply in_flat_map in X. destruct X as ([k' l'] & Hk & Hl). eapply F; eauto.
Qed.

Lemma built_fresh : forall fuel f lab bg l d d', fresh_nodes lab d -> mfold (fun d ip =>
             '(down_lbl, geom) <- next_downstream_label fuel f lab (snd ip) bg true ;;
             Ok (push d (mkG (fst ip) down_lbl false (snd ip) geom))) l d = Ok d' -> fresh_nodes lab d'.
Proof.
  intros fuel f lab bg. induction l as [|ip l IH]; intros d d' F H; cbn [mfold] in H.
  - inversion H; subst; auto.
  - apply bind_ok in H. destruct H as (d1 & E & H). apply bind_ok in E. destruct E as ([lb geom] & E & E2).
    inversion E2; subst; clear E2. eapply IH; [|exact H]. apply push_fresh; auto. cbn [g_dstr].
    destruct lb as [lb|]; [|exact I]. unfold next_downstream_label in E. apply bind_ok in E.
    destruct E as (src & _ & E). eapply loop_label; eauto.
Qed.

Theorem network_rows : forall fuel f lab pps bg out, geometric_pourpoint_network fuel f lab pps bg = Ok out ->
  forall room, (1 <= room)%nat ->
  (geometric_pourpoint_network_rec room fuel f lab pps bg = Ok out /\
     forall js, junctions_in_a_row out js -> (length js < room)%nat) \/
  (geometric_pourpoint_network_rec room fuel f lab pps bg = Exc RecursionError /\
     exists js, junctions_in_a_row out js /\ length js = room).
Proof.
  intros fuel f lab pps bg out H room Hr. unfold geometric_pourpoint_network in H. unfold geometric_pourpoint_network_rec.
  apply bind_ok in H. destruct H as (d & Ed & H). rewrite Ed. cbn [bind].
  apply bind_ok in H. destruct H as (m & Em & H). rewrite Em. cbn [bind].
  apply bind_ok in H. destruct H as ([o b] & Eo & H). inversion H; subst o; clear H.
  apply built_fresh in Ed; [|intros ? ? ? []]. apply np_max_spec in Em. destruct Em as [_ Em].
  assert (HP : forall z, labelled lab (Some z) -> z < m + 1).
  { intros z (c & Ic & <-). specialize (Em c Ic). lia. }
  destruct room as [|room]; [lia|].
  destruct (fold_rows (fun r st (kv : option Z * list gnode) =>
             let '(final_nodes, next_available_label) := st in
             '(ns, next_available_label) <- untangle_rec (S r) (snd kv) next_available_label ;;
             Ok (final_nodes ++ ns, next_available_label)) (fun st (kv : option Z * list gnode) =>
             let '(final_nodes, next_available_label) := st in
             '(ns, next_available_label) <- untangle fuel (snd kv) next_available_label ;;
             Ok (final_nodes ++ ns, next_available_label)) (labelled lab) (m + 1) d HP) with (out0 := @nil gnode) (a0 := m + 1) (r := out) (b := b)
    as (o & E & C & F); [|lia|exact Eo|].
  - intros [k l] out0 a0 r b' Hk La H. cbn [snd] in *. apply bind_ok in H. destruct H as ([ns b2] & Eu & H).
    inversion H; subst; clear H. apply (untangle_rows fuel l (labelled lab)) in Eu.
    + destruct Eu as [Cu Fu]. exists ns. split; auto. split; auto. intros r. destruct (Fu (S r)) as [[Q S1]|[Q S1]]; rewrite Q; cbn [bind].
      * left. auto.
      * right. auto.
    + intros n Hn. eapply Ed; eauto.
    + intros z Hz. specialize (HP z Hz). lia.
  - cbn [app] in E. subst o. destruct (F room) as [[Q S1]|[Q (js & R & L & _)]]; rewrite Q; cbn [bind].
    + left. auto.
    + right. split; auto. exists js. auto.
Qed.

Theorem limit_exact : forall fuel f lab pps bg out room, geometric_pourpoint_network fuel f lab pps bg = Ok out -> (1 <= room)%nat ->
  (geometric_pourpoint_network_rec room fuel f lab pps bg = Exc RecursionError <->
     exists js, junctions_in_a_row out js /\ length js = room) /\
  (geometric_pourpoint_network_rec room fuel f lab pps bg = Ok out <->
     forall js, junctions_in_a_row out js -> (length js < room)%nat).
Proof.
  intros fuel f lab pps bg out room H Hr. destruct (network_rows _ _ _ _ _ _ H room Hr) as [[E S1]|[E (js & R & L)]]; rewrite E.
  - split; split; intros X; auto; [discriminate|]. destruct X as (js & R & L). specialize (S1 js R). lia.
  - split; split; intros X; auto; [exists js; auto|discriminate|]. specialize (X js R). lia.
Qed.

(** ** Enough room *)
Lemma untangle_room : forall room ns a r, untangle room ns a = Ok r -> untangle_rec room ns a = Ok r.
Proof.
  induction room as [|room IH]; intros ns a r H; [discriminate|].
  rewrite untangle_eq in H. rewrite untangle_rec_eq. apply bind_ok in H. destruct H as (gs & Es & H). rewrite Es. cbn [bind].
  clear Es. revert H. generalize (@nil gnode, a) as st. induction gs as [|g gs IHg]; intros st H; cbn [mfold] in *; auto.
  apply bind_ok in H. destruct H as (st2 & E & H).
  assert (X : rec_step room st g = Ok st2); [|rewrite X; cbn [bind]; apply IHg; exact H].
  unfold unt_step in E. unfold rec_step. destruct st as [o a0]. destruct (1 <? Z.of_nat (length g)); [|exact E].
  apply bind_ok in E. destruct E as ([us j] & Ep & E). rewrite Ep. cbn [bind].
  apply bind_ok in E. destruct E as ([ns1 b1] & Eu & E). apply IH in Eu. rewrite Eu. cbn [bind]. exact E.
Qed.

Lemma untangle_more : forall k ns a r, untangle k ns a = Ok r -> forall k', (k <= k')%nat -> untangle k' ns a = Ok r.
Proof.
  induction k as [|k IH]; intros ns a r H k' Hk; [discriminate|]. destruct k' as [|k']; [lia|].
  rewrite untangle_eq in *. apply bind_ok in H. destruct H as (gs & Es & H). rewrite Es. cbn [bind].
  clear Es. revert H. generalize (@nil gnode, a) as st. induction gs as [|g gs IHg]; intros st H; cbn [mfold] in *; auto.
  apply bind_ok in H. destruct H as (st2 & E & H).
  assert (X : unt_step k' st g = Ok st2); [|rewrite X; cbn [bind]; apply IHg; exact H].
  unfold unt_step in *. destruct st as [o a0]. destruct (1 <? Z.of_nat (length g)); [|exact E].
  apply bind_ok in E. destruct E as ([us j] & Ep & E). rewrite Ep. cbn [bind].
  apply bind_ok in E. destruct E as ([ns1 b1] & Eu & E). rewrite (IH _ _ _ Eu k') by lia. cbn [bind]. exact E.
Qed.

Lemma group_short : forall ns gs x g, groups_of ns gs -> In x ns -> long x = false -> In g gs ->
  (length g <= Nat.max 1 (length ns - 1))%nat.
Proof.
  intros ns gs x g H Hx Lx Hg. inversion H as [|n rest gs' H' E1 E2]; subst; [destruct Hg|].
  destruct Hg as [<-|Hg].
  - cbn [length]. destruct Hx as [->|Hx].
    + replace (filter (same x) rest) with (@nil gnode); [cbn [length]; lia|].
      symmetry. clear - Lx. induction rest as [|o rest IH]; cbn [filter]; auto. unfold same at 1. rewrite Lx. exact IH.
    + assert (X : (length (filter (same n) rest) < length rest)%nat).
      { clear - Hx Lx. induction rest as [|o rest IH]; [destruct Hx|]. cbn [filter length]. destruct Hx as [->|Hx].
        - replace (same n x) with false; [pose proof (filter_length_le (same n) rest); lia|].
          unfold same. rewrite Lx. rewrite andb_false_r. reflexivity.
        - specialize (IH Hx). destruct (same n o); cbn [length]; lia. }
      lia.
  - pose proof (group_length _ _ H' g Hg). pose proof (filter_length_le (fun o => negb (same n o)) rest).
    cbn [length]. lia.
Qed.

Section Enough.
Variables (f lab : raster Z) (pps : list cell).
Hypothesis Sh : same_shape f lab.
Hypothesis Dr : fully_draining f.
Hypothesis Ne : pps <> [].
Hypothesis PP : pourpoints_ok f lab pps.

Lemma fold_room : forall room d, grouped d -> NoDup (map g_id (flat_map snd d)) ->
  (forall n, In n (flat_map snd d) -> from_pp f lab n) ->
  (forall k l gs g, In (k, l) d -> groups_of l gs -> In g gs -> (length g <= room)%nat) -> (1 <= room)%nat ->
  forall out0 a fuel r, (length (flat_map snd d) <= fuel)%nat ->
    mfold (fun st (kv : option Z * list gnode) =>
             let '(final_nodes, next_available_label) := st in
             '(ns, next_available_label) <- untangle fuel (snd kv) next_available_label ;;
             Ok (final_nodes ++ ns, next_available_label)) d (out0, a) = Ok r ->
    mfold (fun st (kv : option Z * list gnode) =>
             let '(final_nodes, next_available_label) := st in
             '(ns, next_available_label) <- untangle_rec room (snd kv) next_available_label ;;
             Ok (final_nodes ++ ns, next_available_label)) d (out0, a) = Ok r.
Proof.
  intros room. induction d as [|[k l] d IH]; intros [NK G] ND FP Sz Hr out0 a fuel r Fu H; cbn [mfold flat_map snd] in *; auto.
  rewrite map_app in ND. apply NoDup_app_parts in ND. destruct ND as (ND1 & ND2 & NX).
  destruct (G k l (or_introl eq_refl)) as [NE Dk]. rewrite app_length in Fu.
  assert (T : tidy (nxt f) (ends f lab k) k l).
  { apply group_tidy; auto. intros n Hn. split; [apply FP; apply in_or_app; auto | auto]. }
  destruct (untangle_ok (nxt f) (pred room) l (ends f lab k) k a NE T) with (fuel := room) as (o1 & b & E1 & U1); [|lia|].
  { intros gs g Hg Hin. replace (S (pred room)) with room by lia. exact (Sz k l gs g (or_introl eq_refl) Hg Hin). }
  pose proof (untangle_room _ _ _ _ E1) as E1'.
  assert (Q : untangle fuel l a = Ok (o1, b)).
  { destruct (untangle_ok (nxt f) (pred (length l)) l (ends f lab k) k a NE T) with (fuel := fuel) as (o2 & b2 & E2 & U2).
    - intros gs g Hg Hin. pose proof (group_length _ _ Hg g Hin). destruct l; [congruence|]. cbn [length pred] in *. lia.
    - destruct l; [congruence|]. cbn [length pred] in *. lia.
    - rewrite E2. pose proof (untangle_more _ _ _ _ E1 (Nat.max room fuel) ltac:(lia)) as A1.
      pose proof (untangle_more _ _ _ _ E2 (Nat.max room fuel) ltac:(lia)) as A2. rewrite A1 in A2. symmetry. exact A2. }
  rewrite Q in H. cbn [bind] in H. rewrite E1'. cbn [bind]. inversion NK as [|? ? K1 K2]; subst.
  apply IH with (fuel := fuel); auto.
  - split; auto. intros k' l' Hin. apply G. right; auto.
  - intros n Hn. apply FP. apply in_or_app; auto.
  - intros k' l' gs g Hin. apply (Sz k'). right; auto.
  - lia.
Qed.

Theorem room_enough : forall fuel room, (length (rcells f) <= fuel)%nat -> (length pps <= fuel)%nat ->
  (1 <= room)%nat -> (length pps <= S room)%nat -> exists out,
    geometric_pourpoint_network fuel f lab pps (Some 0) = Ok out /\
    geometric_pourpoint_network_rec room fuel f lab pps (Some 0) = Ok out.
Proof.
  intros fuel room F1 F2 R1 R2.
  destruct (nodes_exist f lab Sh Dr pps PP) as (N & A & B & C & D).
  pose proof (from_pp_all f lab pps PP N A B C) as FP.
  destruct (pushes N []) as [G P]; [split; [constructor | intros ? ? []]|]. cbn [flat_map app] in P.
  assert (LN : length N = length pps) by (rewrite <- B, map_length; auto).
  assert (ND : NoDup (map g_id (flat_map snd (fold_left push N [])))).
  { eapply Permutation_NoDup; [apply Permutation_map; apply Permutation_sym; exact P|]. rewrite A. apply zseq_NoDup. }
  assert (FQ : forall n, In n (flat_map snd (fold_left push N [])) -> from_pp f lab n).
  { intros n Hn. apply FP. eapply Permutation_in; eauto. }
  assert (LF : length (flat_map snd (fold_left push N [])) = length pps) by (rewrite (Permutation_length P); auto).
  destruct (D fuel F1) as [_ D2].
  destruct (final_fold f lab Dr _ fuel G ND FQ ltac:(lia) [] (Z.of_nat (length pps))) as (out & b & E & U).
  exists out. unfold geometric_pourpoint_network, geometric_pourpoint_network_rec.
  rewrite D2. cbn [bind]. rewrite (max_label f lab Sh pps Ne PP). cbn [bind].
  replace (Z.of_nat (length pps) - 1 + 1) with (Z.of_nat (length pps)) by lia.
  split; [rewrite E; reflexivity|].
  rewrite (fold_room room _ G ND FQ) with (fuel := fuel) (r := ([] ++ out, b)); [reflexivity| |exact R1|lia|exact E].
  intros k l gs g Hk Hg Hin.
  assert (X : exists n0, In n0 N /\ g_id n0 = 0).
  { destruct pps as [|c0 t] eqn:Ep; [congruence|]. destruct N as [|n0 N']; [discriminate|]. exists n0. split; [left; auto|].
    cbn [map length zseq] in A. inversion A; auto. }
  destruct X as (n0 & H0 & I0). destruct (off_single f lab n0 (FP n0 H0) I0) as [Eg _].
  assert (L0 : long n0 = false) by (unfold long; rewrite Eg; reflexivity).
  assert (F0 : In n0 (flat_map snd (fold_left push N []))) by (eapply Permutation_in; [apply Permutation_sym; exact P|auto]).
  apply in_split in Hk. destruct Hk as (d1 & d2 & Ed). rewrite Ed in LF, F0. rewrite flat_map_app in LF, F0. cbn [flat_map snd] in LF, F0.
  rewrite !app_length in LF.
  apply in_app_or in F0. destruct F0 as [F0|F0]; [|apply in_app_or in F0; destruct F0 as [F0|F0]].
  - pose proof (group_length _ _ Hg g Hin). destruct (flat_map snd d1); [destruct F0|]. cbn [length] in LF. lia.
  - pose proof (group_short l gs n0 g Hg F0 L0 Hin). lia.
  - pose proof (group_length _ _ Hg g Hin). destruct (flat_map snd d2); [destruct F0|]. cbn [length] in LF. lia.
Qed.
End Enough.

(** ** The tool chain *)
Theorem chain_room : forall cc, labels_components cc ->
  forall sp fuel fuel' t1 t5 dem dout t f accum out,
  size_ok sp dem -> dem32 dem -> dem_finite dem -> nrows dem * ncols dem <= 2 ^ 53 ->
  dem_process sp fuel t1 t5 dem = Ok dout ->
  accum = None \/ accum = Some (accum64 (do_accum dout)) ->
  bluespot_process sp cc fuel' t (do_depths dout) (do_flowdir dout) (Some f) accum (Some dem) = Ok out ->
  forall fuel2 room, (length (rcells (do_flowdir dout)) <= fuel2)%nat -> (length (pps_of out) <= fuel2)%nat ->
  (1 <= room)%nat -> (length (pps_of out) <= S room)%nat -> exists net,
    geometric_pourpoint_network fuel2 (do_flowdir dout) (bo_labeled out) (pps_of out) (Some 0) = Ok net /\
    geometric_pourpoint_network_rec room fuel2 (do_flowdir dout) (bo_labeled out) (pps_of out) (Some 0) = Ok net.
Proof.
  intros cc CC sp fuel fuel' t1 t5 dem dout t f accum out S H32 HF Big H HA HB fuel2 room F1 F2 R1 R2.
  destruct (chain_points cc CC sp fuel fuel' t1 t5 dem dout t f accum out S H32 HF Big H HA HB)
    as (Sh & Dr & _ & _ & _ & PP & Ne & _).
  apply room_enough; auto.
Qed.
