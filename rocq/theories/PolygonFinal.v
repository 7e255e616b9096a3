(** * Polygons of the final bluespots *)

From Coq Require Import Permutation QArith.
From Verif Require Import Base BaseProofs Num Float64 FloatQ FillSpec FillThms LabelModel LabelSpec CompSpec CompProofs VectorModel DemModel DemProofs
  BluespotModel BluespotSpec BluespotProofs LevelProofs BluespotThms RainThms PipelineModel NetworkModel ApproxModel CompleteModel CompleteThms PolygonSpec PolygonThms.
Local Open Scope Z_scope.

(** A cell with no neighbour of its id is a region. *)
Definition alone (ids : raster Z) (c : cell) : bool :=
  forallb (fun d => negb (adjacentb c d && (at_ ids d =? at_ ids c))) (rcells ids).
Lemma alone_linked : forall ids c, alone ids c = true -> forall d, linked ids c d -> d = c.
Proof.
  intros ids c A d H. induction H as [c I N|a b c H IH Ad I E]; [reflexivity|]. specialize (IH A). subst b.
  unfold alone in A. rewrite forallb_forall in A. specialize (A c). rewrite <- E, Z.eqb_refl in A.
  apply adjacentb_spec in Ad. rewrite Ad in A. discriminate A. apply in_cells_of. exact I.
Qed.

(** Two hollows with a sill between them, below the spill level. *)
Definition twin_dem : raster b64 := zrows [[9;9;9;9;9]; [9;1;5;1;7]; [9;9;9;9;9]].
Definition twin_run := complete_all false cc_memo 60 ex_gt twin_dem all_pass false 200%Q (1 # 2).
Lemma twin_ok : dem32 twin_dem /\ dem_finite twin_dem.
Proof. apply dem_ok. vm_compute. reflexivity. Qed.

Theorem final_split : exists a, size_ok false twin_dem /\ dem32 twin_dem /\ dem_finite twin_dem /\ twin_run = Ok a /\
  bo_nlabels (ca_bluespots a) = 1 /\
  forall ps, polygonized (fo_labels (ca_finish a)) ps ->
  exists j k cs cs', j <> k /\ nth_error ps j = Some (1, cs) /\ nth_error ps k = Some (1, cs').
Proof.
  assert (X : at_run twin_run (fun a => let ids := fo_labels (ca_finish a) in
     (bo_nlabels (ca_bluespots a) =? 1) && (nrows ids =? 3) && (ncols ids =? 5) && (at_ ids (1, 1) =? 1) && (at_ ids (1, 3) =? 1) && alone ids (1, 1)) = true)
    by (vm_compute; reflexivity).
  destruct twin_run as [a| |] eqn:E; try discriminate X. cbn [at_run] in X. cbv zeta in X. exists a.
  split; [cbn; lia|]. split; [apply twin_ok|]. split; [apply twin_ok|]. split; [reflexivity|].
  set (ids := fo_labels (ca_finish a)) in *. apply andb_prop in X; destruct X as (X & X6). apply andb_prop in X; destruct X as (X & X5). apply andb_prop in X; destruct X as (X & X4).
  apply andb_prop in X; destruct X as (X & X3). apply andb_prop in X; destruct X as (X1 & X2).
  split; [lia|]. intros ps P.
  assert (I : forall c, In c [1; 3] -> inside (nrows ids) (ncols ids) (1, c)) by (intros c [<-|[<-|[]]]; unfold inside; cbn; lia).
  destruct (pg_covered _ _ P (1, 1)) as (i & cs & H1 & H2); [apply I; cbn; auto|lia|].
  destruct (pg_covered _ _ P (1, 3)) as (i' & cs' & H1' & H2'); [apply I; cbn; auto|lia|].
  assert (ID : forall i cs c, In (i, cs) ps -> In c cs -> at_ ids c = i).
  { intros i0 cs0 c Hi Hc. destruct (pg_region _ _ P i0 cs0 Hi) as (c0 & (_ & E0) & _ & D). apply D in Hc. apply linked_same in Hc.
    destruct Hc as ((_ & Hc) & _). congruence. }
  assert (i = 1) as -> by (rewrite <- (ID _ _ _ H1 H2); lia). assert (i' = 1) as -> by (rewrite <- (ID _ _ _ H1' H2'); lia).
  apply In_nth_error in H1. apply In_nth_error in H1'. destruct H1 as (j & Ej), H1' as (k & Ek).
  exists j, k, cs, cs'. split; [|auto]. intros ->. rewrite Ej in Ek. injection Ek as <-.
  destruct (pg_region _ _ P 1 cs (nth_error_In _ _ Ej)) as (c0 & _ & _ & D). apply D in H2. apply D in H2'.
  assert (L : linked ids (1, 1) (1, 3)) by (eapply linked_trans; [apply linked_sym; exact H2|exact H2']).
  apply alone_linked in L; [discriminate|assumption].
Qed.

Theorem final_inside : forall cc, labels_components cc -> forall sp t dem f (use_accum : bool),
  size_ok sp dem -> dem32 dem -> dem_finite dem -> nrows dem * ncols dem <= 2 ^ 53 ->
  square_cells (gt1 t) (gt5 t) = true ->
  exists k, forall fuel, (fuel >= k)%nat -> forall mm zres, (0 < zres)%Q ->
  exists a, complete_all sp cc fuel t dem f use_accum mm zres = Ok a /\
  forall ps qs, polygonized (bo_labeled (ca_bluespots a)) ps -> polygonized (fo_labels (ca_finish a)) qs ->
    (forall i cs, In (i, cs) qs -> exists ds, In (i, ds) ps /\ incl cs ds) /\
    (forall c, inside (nrows dem) (ncols dem) c -> (0 < at_ (fo_depths (ca_finish a)) c)%Q -> (-999 <= b64_Q (at_ dem c))%Q ->
       exists cs, In (at_ (bo_labeled (ca_bluespots a)) c, cs) qs /\ In c cs).
Proof.
  intros cc Hcc sp t dem f use_accum SO H32 HF Big Sq.
  destruct (complete_succeeds cc Hcc sp t dem f use_accum SO H32 HF Big Sq) as (k1 & W).
  exists k1. intros fuel Hf mm zres Hz. destruct (W fuel Hf mm zres Hz) as (a & E & _ & _ & _ & (S1 & S2) & _ & M). exists a. split; [exact E|]. intros ps qs P Q.
  unfold complete_all in E. apply bind_ok in E. destruct E as (dout & ED & E). apply bind_ok in E. destruct E as (out & EB & E).
  apply bind_ok in E. destruct E as (pps & _ & E). apply bind_ok in E. destruct E as ([nodes streams] & _ & E). cbv zeta in E.
  apply bind_ok in E. destruct E as (final & _ & E). apply bind_ok in E. destruct E as (fin & _ & E). injection E as <-. cbn [ca_bluespots ca_finish] in *.
  destruct (depths_facts sp fuel _ _ dem dout SO H32 HF ED) as ((D1 & D2) & _).
  assert (Hr : 1 <= nrows (do_depths dout)) by (destruct sp; cbn in SO; lia).
  assert (Hc : 1 <= ncols (do_depths dout)) by (destruct sp; cbn in SO; lia).
  destruct (process_filter cc Hcc sp _ _ _ _ _ _ _ _ Hr Hc EB) as ((L1 & L2) & _).
  destruct (bluespot_polygons cc Hcc sp _ _ _ _ _ _ _ _ ps Hr Hc EB P) as (_ & PC).
  assert (Mk : forall c, inside (nrows dem) (ncols dem) c -> at_ (fo_labels fin) c <> 0 -> at_ (fo_labels fin) c = at_ (bo_labeled out) c).
  { intros c Ic N. destruct (M c Ic) as (M0 & M1). destruct (Z.eq_dec (at_ (bo_labeled out) c) 0) as [E|E]; [exfalso; apply N; apply M0; exact E|].
    destruct (M1 E) as (o & _ & _ & A & B). destruct (Qlt_le_dec (lf_z o) (b64_Q (at_ dem c))) as [X|X]; [exfalso; apply N; apply A; exact X|apply B; exact X]. }
  assert (ID : forall i cs, In (i, cs) qs -> i <> 0 /\ forall c, In c cs -> inside (nrows dem) (ncols dem) c /\ at_ (fo_labels fin) c = i).
  { intros i cs Hi. destruct (pg_region _ _ Q i cs Hi) as (c0 & (_ & E0) & N & D). split; [exact N|]. intros c X. apply D in X. apply linked_same in X.
    destruct X as ((X1 & X2) & _). rewrite S1, S2. split; [exact X1|congruence]. }
  split.
  - intros i cs Hi. destruct (ID i cs Hi) as (N & IC). destruct (pg_region _ _ Q i cs Hi) as (c0 & (I0 & E0) & _ & D).
    rewrite <- S1, <- S2 in I0. assert (E1 : at_ (bo_labeled out) c0 = i) by (rewrite <- E0; symmetry; apply Mk; [exact I0|congruence]).
    destruct (pg_covered _ _ P c0) as (i1 & ds & H1 & H2); [rewrite <- L1, <- L2, <- D1, <- D2; exact I0|congruence|].
    assert (i1 = i) as -> by (apply (PC i1 ds H1) in H2; destruct H2; congruence). exists ds. split; [exact H1|]. intros c X. destruct (IC c X) as (Ic & Ec).
    apply (PC i ds H1). split; [rewrite <- L1, <- L2, <- D1, <- D2; exact Ic|]. rewrite <- Ec. symmetry. apply Mk; [exact Ic|congruence].
  - intros c Ic Wc G. destruct (M c Ic) as (M0 & M1). destruct (Z.eq_dec (at_ (bo_labeled out) c) 0) as [E|E].
    + exfalso. destruct (M0 E) as (_ & D). rewrite (D G) in Wc. apply (Qlt_irrefl 0 Wc).
    + destruct (M1 E) as (o & _ & _ & A & B). destruct (Qlt_le_dec (lf_z o) (b64_Q (at_ dem c))) as [X|X].
      * exfalso. destruct (A X) as (D & _). rewrite D in Wc. apply (Qlt_irrefl 0 Wc).
      * destruct (B X) as (_ & EL). destruct (pg_covered _ _ Q c) as (i & cs & H1 & H2); [rewrite <- S1, <- S2; exact Ic|congruence|].
        exists cs. destruct (ID i cs H1) as (_ & IC). destruct (IC c H2) as (_ & Ei). rewrite <- EL, Ei. auto.
Qed.
