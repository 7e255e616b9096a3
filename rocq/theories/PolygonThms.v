(** * Polygons of bluespots, watersheds and final bluespots *)

From Coq Require Import Permutation QArith.
From Verif Require Import Base BaseProofs Num Float64 FillSpec FlowModel FlowSpec FlowProofs FlowDirProofs WatershedProofs LabelModel LabelSpec CompSpec CompProofs VectorModel DemModel DemProofs
  BluespotModel BluespotSpec BluespotProofs LevelProofs BluespotThms PolygonSpec.
Local Open Scope Z_scope.

Lemma linked_same : forall ids a b, linked ids a b -> has_label ids (at_ ids a) b /\ at_ ids a <> 0 /\ inside (nrows ids) (ncols ids) a.
Proof.
  intros ids a b H. induction H as [c I N|a b c H IH A I E]; [split; [split; auto|auto]|].
  destruct IH as ((Ib & Eb) & N & Ia). split; [split; [exact I|congruence]|auto].
Qed.
Lemma linked_trans : forall ids a b c, linked ids a b -> linked ids b c -> linked ids a c.
Proof. intros ids a b c H H'. revert H. induction H' as [c I N|b' d c H' IH A I E]; intros H; [exact H|]. eapply ln_step; [apply IH; exact H|exact A|exact I|exact E]. Qed.
Lemma linked_sym : forall ids a b, linked ids a b -> linked ids b a.
Proof.
  intros ids a b H. induction H as [c I N|a b c H IH A I E]; [constructor; auto|].
  destruct (linked_same _ _ _ H) as ((Ib & Eb) & N & Ia).
  apply linked_trans with b; [|exact IH]. apply ln_step with c; [constructor; [exact I|congruence]|apply CompProofs.adjacent_sym; exact A|exact Ib|congruence].
Qed.

(** ** Labels that are connected have one polygon each *)
Section One.
Variables (ids : raster Z) (n : Z) (ps : list (Z * list cell)).
Hypothesis Nm : numbered ids n.
Hypothesis Lk : forall c d, inside (nrows ids) (ncols ids) c -> inside (nrows ids) (ncols ids) d -> at_ ids c <> 0 -> at_ ids c = at_ ids d -> linked ids c d.
Hypothesis P : polygonized ids ps.

Lemma polygon_cells : forall i cs, In (i, cs) ps -> i <> 0 /\ forall c, In c cs <-> has_label ids i c.
Proof.
  intros i cs H. destruct (pg_region _ _ P i cs H) as (c & (Ic & Ec) & N & D). split; [exact N|]. intros d. rewrite D. split.
  - intros L. apply linked_same in L. destruct L as (L & _). rewrite Ec in L. exact L.
  - intros (Id & Ed). apply Lk; auto; congruence.
Qed.

Lemma polygon_ids_once : NoDup (map fst ps).
Proof.
  apply NoDup_nth_error. intros j k Hj E. rewrite map_length in Hj. rewrite !nth_error_map in E.
  destruct (nth_error ps j) as [[i cs]|] eqn:Ej; [|apply nth_error_None in Ej; lia].
  destruct (nth_error ps k) as [[i' cs']|] eqn:Ek; [|discriminate]. cbn in E. injection E as <-.
  destruct (pg_region _ _ P i cs (nth_error_In _ _ Ej)) as (c & Hc & _).
  apply (pg_once _ _ P j k i cs i cs' c Ej Ek).
  - apply (polygon_cells i cs (nth_error_In _ _ Ej)). exact Hc.
  - apply (polygon_cells i cs' (nth_error_In _ _ Ek)). exact Hc.
Qed.

Lemma polygon_ids : Permutation (map fst ps) (zseq 1 (Z.to_nat n)).
Proof.
  apply NoDup_Permutation; [apply polygon_ids_once|apply zseq_NoDup|]. intros i. destruct Nm as (Li & Hn & U). rewrite in_zseq. split.
  - intros H. apply in_map_iff in H. destruct H as ([j cs] & <- & H). cbn [fst]. destruct (pg_region _ _ P j cs H) as (c & (Ic & Ec) & N & _).
    specialize (Li c Ic). lia.
  - intros H. destruct (U i) as (c & Ic & Ec); [lia|]. destruct (pg_covered _ _ P c Ic) as (j & cs & H1 & H2); [lia|].
    apply in_map_iff. exists (j, cs). split; [|exact H1]. apply (polygon_cells j cs H1) in H2. destruct H2. cbn. congruence.
Qed.
End One.

(** ** Labels of components *)
Lemma component_linked : forall data lab n, cc_contract data lab n -> forall c d, connected data c d -> linked lab c d.
Proof.
  intros data lab n C c d H. destruct (cc_shape _ _ _ C) as (Sr & Sc).
  induction H as [c I D|a b c H IH A I D].
  - constructor; [rewrite <- Sr, <- Sc; exact I|]. pose proof (cc_range _ _ _ C c I D). lia.
  - eapply ln_step; [exact IH|exact A|rewrite <- Sr, <- Sc; exact I|].
    apply linked_same in IH. destruct IH as ((Ib & Eb) & Na & Ia).
    rewrite <- Sr, <- Sc in Ia, Ib.
    assert (Da : at_ data a = true). { destruct (at_ data a) eqn:E; [reflexivity|]. apply (cc_background _ _ _ C) in E; auto; congruence. }
    rewrite Eb. symmetry. apply (cc_same _ _ _ C); auto. eapply co_step; eauto.
Qed.

Lemma labels_linked : forall data lab n, cc_contract data lab n ->
  forall c d, inside (nrows lab) (ncols lab) c -> inside (nrows lab) (ncols lab) d -> at_ lab c <> 0 -> at_ lab c = at_ lab d -> linked lab c d.
Proof.
  intros data lab n C c d Ic Id N E. destruct (cc_shape _ _ _ C) as (Sr & Sc). rewrite <- Sr, <- Sc in Ic, Id.
  eapply component_linked; [exact C|]. apply (cc_same _ _ _ C); auto.
  - destruct (at_ data c) eqn:D; [reflexivity|]. apply (cc_background _ _ _ C) in D; auto; congruence.
  - destruct (at_ data d) eqn:D; [reflexivity|]. apply (cc_background _ _ _ C) in D; auto; congruence.
Qed.

Theorem bluespot_polygons : forall cc, labels_components cc ->
  forall sp fuel t depths flowdir f accum dem out ps, 1 <= nrows depths -> 1 <= ncols depths ->
  bluespot_process sp cc fuel t depths flowdir (Some f) accum dem = Ok out -> polygonized (bo_labeled out) ps ->
  Permutation (map fst ps) (zseq 1 (Z.to_nat (bo_nlabels out))) /\
  forall i cs, In (i, cs) ps -> forall c, In c cs <-> has_label (bo_labeled out) i c.
Proof.
  intros cc Hcc sp fuel t depths flowdir f accum dem out ps R C H P.
  destruct (process_filter cc Hcc sp _ _ _ _ _ _ _ _ R C H) as (_ & Nm & _).
  destruct (run_inv cc Hcc sp _ _ _ _ _ _ _ _ R C H) as (st & new & bst & wst & pix & _ & _ & E1 & E2 & _).
  pose proof (Hcc new) as CC. rewrite <- E1 in CC. pose proof (labels_linked _ _ _ CC) as Lk.
  split; [exact (polygon_ids _ _ _ Nm Lk P)|]. intros i cs Hi. apply (polygon_cells _ _ Lk P i cs Hi).
Qed.

(** ** Watersheds *)
Lemma flows_adjacent : forall f c d, flows f c d -> adjacent c d.
Proof.
  intros f c d (_ & _ & T). unfold target in T. destruct (offset (at_ f c)) as [o|] eqn:O; [|discriminate]. injection T as <-.
  eapply offset_adjacent. exact O.
Qed.

Lemma first_label_inside : forall f lab u c l, first_label f lab u c l -> inside (nrows f) (ncols f) c.
Proof. intros f lab u c l H. destruct H as [c I N|c d l E F _|c E F]; [exact I|apply F|apply F]. Qed.

Section Watershed.
Variables (f lab w : raster Z).
Hypothesis Sl : same_shape f lab.
Hypothesis Sw : same_shape f w.
Hypothesis K : forall c, inside (nrows f) (ncols f) c -> at_ lab c <> 0 -> at_ w c = at_ lab c.
Hypothesis F : forall c, inside (nrows f) (ncols f) c -> first_label f lab 0 c (at_ w c).
Hypothesis Lk : forall c d, inside (nrows lab) (ncols lab) c -> inside (nrows lab) (ncols lab) d -> at_ lab c <> 0 -> at_ lab c = at_ lab d -> linked lab c d.

Lemma labels_in_watershed : forall c d, linked lab c d -> linked w c d.
Proof.
  destruct Sl as (L1 & L2), Sw as (W1 & W2). intros c d H. induction H as [c I N|a b c H IH A I E].
  - rewrite <- L1, <- L2 in I. constructor; [rewrite <- W1, <- W2; exact I|]. rewrite K; auto.
  - destruct (linked_same _ _ _ H) as ((Ib & Eb) & N & _). rewrite <- L1, <- L2 in I, Ib.
    eapply ln_step; [exact IH|exact A|rewrite <- W1, <- W2; exact I|]. rewrite !K; auto; congruence.
Qed.

Lemma down_to_label : forall c l, first_label f lab 0 c l -> l <> 0 -> exists d, inside (nrows f) (ncols f) d /\ at_ lab d = l /\ linked w c d.
Proof.
  destruct Sw as (W1 & W2). intros c l H. induction H as [c I N|c d l E Fl H IH|c E Fo]; intros NL.
  - exists c. split; [exact I|]. split; [reflexivity|]. constructor; [rewrite <- W1, <- W2; exact I|rewrite K; auto].
  - destruct (IH NL) as (e & Ie & Ee & Le). exists e. split; [exact Ie|]. split; [exact Ee|].
    pose proof (first_label_inside _ _ _ _ _ H) as Id. pose proof (proj1 Fl) as Ic.
    assert (Wd : at_ w d = l) by (eapply first_label_unique; [apply F; exact Id|exact H]).
    assert (Wc : at_ w c = l) by (eapply first_label_unique; [apply F; exact Ic|eapply fl_step; eauto]).
    apply linked_trans with d; [|exact Le]. apply ln_step with c; [constructor; [rewrite <- W1, <- W2; exact Ic|congruence]|eapply flows_adjacent; exact Fl|rewrite <- W1, <- W2; exact Id|congruence].
  - congruence.
Qed.

Lemma watershed_linked : forall c d, inside (nrows w) (ncols w) c -> inside (nrows w) (ncols w) d -> at_ w c <> 0 -> at_ w c = at_ w d -> linked w c d.
Proof.
  destruct Sl as (L1 & L2), Sw as (W1 & W2). intros c d Ic Id N E. rewrite <- W1, <- W2 in Ic, Id.
  destruct (down_to_label c _ (F c Ic) N) as (c' & Ic' & Ec' & Lc). destruct (down_to_label d _ (F d Id)) as (d' & Id' & Ed' & Ld); [congruence|].
  apply linked_trans with c'; [exact Lc|]. apply linked_trans with d'; [|apply linked_sym; exact Ld].
  apply labels_in_watershed. apply Lk; try congruence; rewrite <- L1, <- L2; assumption.
Qed.
End Watershed.

Theorem watershed_polygons : forall cc, labels_components cc ->
  forall sp fuel fuel' t1 t5 dem dout t f accum out ps, size_ok sp dem -> dem32 dem -> dem_finite dem ->
  dem_process sp fuel t1 t5 dem = Ok dout ->
  bluespot_process sp cc fuel' t (do_depths dout) (do_flowdir dout) (Some f) accum (Some dem) = Ok out ->
  polygonized (bo_watersheds out) ps ->
  Permutation (map fst ps) (zseq 1 (Z.to_nat (bo_nlabels out))) /\
  forall i cs, In (i, cs) ps -> forall c, In c cs <-> has_label (bo_watersheds out) i c.
Proof.
  intros cc Hcc sp fuel fuel' t1 t5 dem dout t f accum out ps SO H32 HF HD HB P.
  destruct (depths_facts sp fuel t1 t5 dem dout SO H32 HF HD) as (Sd & _).
  destruct (dem_flow sp fuel t1 t5 dem dout SO H32 HF HD) as (Sf & D & _).
  assert (Hr : 1 <= nrows (do_depths dout)) by (destruct Sd as [<- _]; destruct sp; cbn in SO; lia).
  assert (Hc : 1 <= ncols (do_depths dout)) by (destruct Sd as [_ <-]; destruct sp; cbn in SO; lia).
  destruct (process_filter cc Hcc sp _ _ _ _ _ _ _ _ Hr Hc HB) as (Sh & Nm & _).
  destruct (run_inv cc Hcc sp _ _ _ _ _ _ _ _ Hr Hc HB) as (st & new & bst & wst & pix & _ & _ & E1 & E2 & _ & E4 & _).
  pose proof (Hcc new) as CC. rewrite <- E1 in CC. pose proof (labels_linked _ _ _ CC) as Lk.
  assert (Sl : same_shape (do_flowdir dout) (bo_labeled out)) by (destruct Sh, Sf, Sd; split; congruence).
  assert (Hr3 : 1 <= nrows (do_flowdir dout)) by (destruct Sl, Sh; lia). assert (Hc3 : 1 <= ncols (do_flowdir dout)) by (destruct Sl, Sh; lia).
  rewrite watersheds_either in E4 by auto.
  destruct (watersheds_numbered fuel' _ _ _ _ D Sl Hr3 Hc3 Nm E4) as [Sw Nw].
  destruct (watersheds_first_label _ _ 0 fuel' _ D Sl Hr3 Hc3 E4) as (_ & K & F).
  pose proof (watershed_linked _ _ _ Sl Sw K F Lk) as LW.
  split; [exact (polygon_ids _ _ _ Nw LW P)|]. intros i cs Hi. apply (polygon_cells _ _ LW P i cs Hi).
Qed.

(** ** The reference is a polygonization *)
Lemma connected_linked : forall ids i, i <> 0 -> forall c d, connected (having ids i) c d <-> linked ids c d /\ at_ ids c = i.
Proof.
  intros ids i N c d. split.
  - intros H. induction H as [c I D|a b c H IH A I D].
    + unfold at_, having in D. cbn in D. apply Z.eqb_eq in D. split; [apply ln_here; [exact I|intros X; apply N; rewrite <- D; destruct c; exact X]|destruct c; exact D].
    + destruct IH as (L & E). split; [|exact E]. unfold at_ in D. cbn in D. apply Z.eqb_eq in D.
      eapply ln_step; [exact L|exact A|exact I|]. apply linked_same in L. destruct L as ((_ & L) & _). unfold at_ in *. cbn in *. congruence.
  - intros (H & E). induction H as [c I D|a b c H IH A I D].
    + apply co_here; [exact I|]. apply Z.eqb_eq. destruct c. exact E.
    + eapply co_step; [apply IH; exact E|exact A|exact I|]. apply linked_same in H. destruct H as ((_ & L) & _). apply Z.eqb_eq. transitivity (at_ ids c); [destruct c; reflexivity|congruence].
Qed.

Lemma NoDup_map_in : forall {A B} (g : A -> B) l, NoDup l -> (forall x y, In x l -> In y l -> g x = g y -> x = y) -> NoDup (map g l).
Proof.
  intros A B g l N. induction N as [|a l Na N IH]; intros I; cbn [map]; [constructor|]. constructor.
  - intros H. apply in_map_iff in H. destruct H as (y & E & Hy). assert (y = a) as -> by (apply I; cbn; auto). contradiction.
  - apply IH. intros x y Hx Hy. apply I; cbn; auto.
Qed.

Theorem polygons_exist : forall cc, labels_components cc -> forall ids, polygonized ids (polygons_of cc ids).
Proof.
  intros cc Hcc ids.
  assert (IDS : forall i, In i (ids_of ids) <-> i <> 0 /\ exists c, has_label ids i c).
  { intros i. unfold ids_of. rewrite nodup_In, filter_In, in_map_iff. split.
    - intros ((c & E & Hc) & N). apply in_cells_of in Hc. split; [lia|]. exists c. split; auto.
    - intros (N & c & Ic & Ec). split; [|lia]. exists c. split; [exact Ec|]. apply in_cells_of. exact Ic. }
  assert (M : forall i cs, In (i, cs) (polygons_of cc ids) <-> In i (ids_of ids) /\
    exists k, 1 <= k <= snd (cc (having ids i)) /\ cs = filter (fun c => at_ (fst (cc (having ids i))) c =? k) (rcells ids)).
  { intros i cs. unfold polygons_of. rewrite in_flat_map. split.
    - intros (j & Hj & H). destruct (cc (having ids j)) as [lab n] eqn:E. apply in_map_iff in H. destruct H as (k & X & Hk). injection X as <- <-.
      rewrite E. cbn. split; [exact Hj|]. exists k. apply in_pyrange_up in Hk. split; [lia|reflexivity].
    - intros (Hi & k & Hk & ->). exists i. split; [exact Hi|]. destruct (cc (having ids i)) as [lab n] eqn:E. cbn [fst snd] in *.
      apply in_map_iff. exists k. split; [reflexivity|]. apply in_pyrange_up. lia. }
  assert (Cell : forall i k c, In i (ids_of ids) -> In c (filter (fun c => at_ (fst (cc (having ids i))) c =? k) (rcells ids)) <->
    inside (nrows ids) (ncols ids) c /\ at_ (fst (cc (having ids i))) c = k).
  { intros i k c _. rewrite filter_In. unfold rcells. rewrite in_cells_of. rewrite Z.eqb_eq. reflexivity. }
  assert (Lab : forall i c, inside (nrows ids) (ncols ids) c -> at_ (fst (cc (having ids i))) c <> 0 <-> at_ ids c = i).
  { intros i c Ic. pose proof (Hcc (having ids i)) as C. assert (D : at_ (having ids i) c = (at_ ids c =? i)) by (destruct c; reflexivity). split.
    - intros X. destruct (Z.eqb_spec (at_ ids c) i) as [E|E]; [exact E|]. exfalso. apply X. apply (cc_background _ _ _ C); auto.
    - intros E. pose proof (cc_range _ _ _ C c Ic) as X. rewrite D in X. specialize (X (proj2 (Z.eqb_eq _ _) E)). lia. }
  assert (Same : forall i c d, i <> 0 -> inside (nrows ids) (ncols ids) c -> inside (nrows ids) (ncols ids) d -> at_ ids c = i -> at_ ids d = i ->
    (at_ (fst (cc (having ids i))) c = at_ (fst (cc (having ids i))) d <-> linked ids c d)).
  { intros i c d N Ic Id Ec Ed. pose proof (Hcc (having ids i)) as C.
    assert (D : forall c, at_ (having ids i) c = (at_ ids c =? i)) by (intros []; reflexivity).
    rewrite (cc_same _ _ _ C c d Ic Id); [|rewrite D; lia|rewrite D; lia]. rewrite (connected_linked ids i N). intuition. }
  assert (Dis : forall i cs i' cs' c, In (i, cs) (polygons_of cc ids) -> In (i', cs') (polygons_of cc ids) -> In c cs -> In c cs' -> (i, cs) = (i', cs')).
  { intros i cs i' cs' c H H' Hc Hc'. apply M in H. apply M in H'. destruct H as (Hi & k & Hk & ->), H' as (Hi' & k' & Hk' & ->).
    apply Cell in Hc; auto. apply Cell in Hc'; auto. destruct Hc as (Ic & Ec), Hc' as (_ & Ec').
    assert (E1 : at_ ids c = i) by (apply Lab; [exact Ic|lia]). assert (E2 : at_ ids c = i') by (apply Lab; [exact Ic|lia]).
    subst i i'. subst k k'. reflexivity. }
  assert (Used : forall i k, 1 <= k <= snd (cc (having ids i)) -> exists c, inside (nrows ids) (ncols ids) c /\ at_ (fst (cc (having ids i))) c = k).
  { intros i k Hk. exact (cc_used _ _ _ (Hcc (having ids i)) k Hk). }
  constructor.
  - intros i cs H. apply M in H. destruct H as (Hi & k & Hk & ->). destruct (Used i k Hk) as (c & Ic & Ec).
    destruct (proj1 (IDS i) Hi) as (N & _). assert (E : at_ ids c = i) by (apply Lab; [exact Ic|lia]).
    exists c. split; [split; auto|]. split; [exact N|]. intros d. rewrite Cell by exact Hi. split.
    + intros (Id & Ed). apply (Same i c d N Ic Id E); [apply Lab; [exact Id|lia]|congruence].
    + intros L. destruct (linked_same _ _ _ L) as ((Id & Ed) & _). split; [exact Id|]. rewrite <- Ec. symmetry. apply (Same i c d N Ic Id E); congruence.
  - intros c Ic N. assert (Hi : In (at_ ids c) (ids_of ids)) by (apply IDS; split; [exact N|exists c; split; auto]).
    eexists (at_ ids c), _. split; [apply M; split; [exact Hi|]; exists (at_ (fst (cc (having ids (at_ ids c)))) c); split; [|reflexivity]|].
    + apply (cc_range _ _ _ (Hcc (having ids (at_ ids c)))); [exact Ic|]. destruct c. apply Z.eqb_eq. reflexivity.
    + apply Cell; auto.
  - intros j k i cs i' cs' c Ej Ek Hc Hc'.
    assert (ND : NoDup (polygons_of cc ids)).
    { unfold polygons_of. apply NoDup_flat_map.
      - apply NoDup_nodup.
      - intros i0 Hi. destruct (cc (having ids i0)) as [lab n] eqn:E. pose proof (Used i0) as U. rewrite E in U. cbn [fst snd] in U.
        apply NoDup_map_in; [apply pyrange_up_NoDup|]. intros x y Hx Hy X. injection X as X. apply in_pyrange_up in Hx.
        destruct (U x ltac:(lia)) as (c0 & Ic0 & Ec0). assert (Y : In c0 (filter (fun c => at_ lab c =? x) (rcells ids))).
        { apply filter_In. split; [apply in_cells_of; exact Ic0|lia]. }
        rewrite X in Y. apply filter_In in Y. lia.
      - intros a b x Ha Hb Xa Xb. destruct (cc (having ids a)) as [la na], (cc (having ids b)) as [lb nb].
        apply in_map_iff in Xa. apply in_map_iff in Xb. destruct Xa as (? & <- & _), Xb as (? & X & _). congruence. }
    apply (proj1 (NoDup_nth_error _) ND); [apply nth_error_Some; congruence|]. rewrite Ej, Ek. f_equal.
    eapply Dis; eauto using nth_error_In.
Qed.
