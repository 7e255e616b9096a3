(** * Theorems about the bluespot network *)

From Coq Require Import Permutation QArith Lqa.
From Flocq Require Import IEEE754.BinarySingleNaN.
From Verif Require Import Base BaseProofs Num Float64 Float64Proofs FillModel FillSpec FillProofs Float64Scale Float64Arith Float32Proofs CompProofs FlowThms Dict FlowModel FlowSpec FlowProofs FlowDirProofs
  AccumProofs LabelModel LabelSpec LabelProofs LabelFloat VectorModel CompSpec BluespotModel BluespotSpec BluespotProofs DemModel DemProofs
  LevelProofs NetModel NetSpec UntangleProofs UntangleFacts NetProofs NetworkModel NetworkSpec NetworkThms.
Local Open Scope Z_scope.

(** ** C31, C32 *)
Section Shape.
Variables (f lab : raster Z) (pps : list cell).
Hypothesis Sh : same_shape f lab.
Hypothesis Dr : fully_draining f.
Hypothesis Ne : pps <> [].
Hypothesis PP : pourpoints_ok f lab pps.

Lemma node_label : forall n d, from_pp f lab n -> g_dstr n = Some d ->
  d <> g_id n /\ 1 <= d < Z.of_nat (length pps).
Proof.
  intros n d ((_ & La & W) & _) E. rewrite E in W. apply walk_label in W. destruct W as (A & B & x & _ & Ex & P).
  split; auto. destruct PP as [L _]. specialize (L x). destruct Sh as [E1 E2]. rewrite <- E1, <- E2 in L.
  specialize (L (passes_inside_r f _ _ P)). lia.
Qed.

Theorem junctions_preserve : forall fuel, (length (rcells f) <= fuel)%nat -> (length pps <= fuel)%nat ->
  exists plain out,
    pourpoint_network fuel f lab pps (Some 0) = Ok plain /\
    geometric_pourpoint_network fuel f lab pps (Some 0) = Ok out /\
    map g_id plain = zseq 0 (length pps) /\ map g_pix plain = pps /\
    Permutation (map (fun n => (g_id n, g_pix n)) (filter (fun n => negb (g_junction n)) out))
      (map (fun n => (g_id n, g_pix n)) plain) /\
    NoDup (map g_id out) /\
    (forall j c, In j out -> g_junction j = true -> inside (nrows lab) (ncols lab) c -> at_ lab c < g_id j) /\
    (forall n, In n out -> hd_error (g_geom n) = Some (g_pix n)) /\
    (forall n j, In n out -> In j out -> g_junction j = true -> g_dstr n = Some (g_id j) ->
       last (g_geom n) (0, 0) = g_pix j) /\
    (forall n, In n plain -> exists tr path, trace_downstream fuel f (g_pix n) = Ok tr /\
       first_foreign lab (g_id n) (Some 0) tr (g_dstr n) path /\ leads out (g_id n) path (g_dstr n)) /\
    (forall n m x y, In n out -> In m out -> step_in (g_geom n) x y -> step_in (g_geom m) x y -> n = m) /\
    (forall n, In n out -> NoDup (g_geom n)).
Proof.
  intros fuel F1 F2. destruct (network_shape f lab Sh Dr pps Ne PP) as (N & A & B & C & D).
  destruct (D fuel F1 F2) as (out & b & E1 & E2 & U). exists (map strip N), out.
  split; auto. split; auto. split; [rewrite map_map; exact A|]. split; [rewrite map_map; exact B|].
  assert (Jf : forall n, In n N -> g_junction n = false) by (intros n Hn; destruct (C n Hn) as [[J _] _]; auto).
  assert (Hd : forall n, In n N -> hd_error (g_geom n) = Some (g_pix n)).
  { intros n Hn. destruct (C n Hn) as [(_ & _ & W) _]. apply walk_hd in W. destruct W as (_ & t & ->). reflexivity. }
  assert (NE : forall n, In n N -> g_geom n <> []).
  { intros n Hn X. specialize (Hd n Hn). rewrite X in Hd. discriminate. }
  destruct (unt_ids _ _ _ _ U) as [Lb Pi].
  assert (ND : NoDup (map g_id out)).
  { eapply Permutation_NoDup; [apply Permutation_sym; exact Pi|]. rewrite A.
    pose proof (zseq_app (length pps) (Z.to_nat (b - Z.of_nat (length pps))) 0) as Z0. rewrite Z.add_0_l in Z0.
    rewrite <- Z0. apply zseq_NoDup. }
  assert (JI : forall j, In j out -> g_junction j = true -> Z.of_nat (length pps) <= g_id j).
  { intros j Hj Jj. destruct (unt_junction _ _ _ _ U Jf j Hj Jj). auto. }
  split; [|split; [auto|split; [|split; [|split; [|split; [|split]]]]]].
  - change (fun n => negb (g_junction n)) with pour. change (fun n => (g_id n, g_pix n)) with key.
    rewrite (unt_pour _ _ _ _ U). rewrite map_map. unfold key, strip. cbn [g_id g_pix].
    replace (filter pour N) with N; [reflexivity|]. clear - Jf. induction N as [|n N IH]; auto.
    cbn [filter]. unfold pour at 1. rewrite (Jf n (or_introl eq_refl)). cbn [negb]. f_equal. apply IH.
    intros; apply Jf; right; auto.
  - intros j c Hj Jj I. destruct PP as [L _]. specialize (L c I). specialize (JI j Hj Jj). lia.
  - apply (unt_heads _ _ _ _ U). auto.
  - intros n j Hn Hj Jj E. destruct (unt_ends _ _ _ _ U n Hn) as [(m & Hm & E' & _)|(j' & Hj' & _ & E' & L)].
    + rewrite E in E'. symmetry in E'. destruct (node_label m (g_id j) (C m Hm) E') as [_ X].
      specialize (JI j Hj Jj). lia.
    + assert (j' = j) by (eapply NoDup_ids_inj; eauto; congruence). subst j'. exact L.
  - intros n' Hn'. apply in_map_iff in Hn'. destruct Hn' as (n & <- & Hn). cbn [strip g_id g_pix g_dstr].
    destruct (C n Hn) as [(_ & La & W) _]. destruct (walk_hd _ _ _ _ _ _ W) as (I & _).
    destruct (trace_drains f (g_pix n) Dr I) as (tr & NDt & Mt & _ & Tt).
    assert (Lt : (length tr <= fuel)%nat).
    { assert (length tr <= length (rcells f))%nat; [|lia]. apply NoDup_incl_length; auto. intros x Hx.
      apply in_cells_of. apply Mt in Hx. apply passes_inside_r in Hx. exact Hx. }
    specialize (Tt fuel Lt). exists tr, (g_geom n). split; auto. split.
    + destruct (label_loop_trace f lab Sh (g_id n) (Some 0) fuel _ _ Tt) as (l & path & FF & L).
      destruct (inside_end f Dr _ I) as (k & Ek).
      destruct (walk_total f lab Sh Dr (g_id n) k (g_pix n) Ek) as (l2 & p2 & W2 & L2).
      specialize (L true []). specialize (L2 fuel).
      assert (Kf : (k < fuel)%nat) by (pose proof (end_in_bound f k _ Ek) as LB; unfold ncells in LB; lia).
      specialize (L2 Kf true []). rewrite L in L2. cbn [app] in L2. inversion L2; subst l2 p2.
      destruct (walk_det _ _ _ _ _ _ W _ _ W2) as [-> ->]. exact FF.
    + split.
      * eapply (unt_reach _ _ _ _ U out); auto; [apply incl_refl|]. apply (unt_nonempty _ _ _ _ U); auto.
      * intros j Hj Jj E. destruct (node_label n _ (C n Hn) E) as [_ X]. specialize (JI j Hj Jj). lia.
  - intros n m x y Hn Hm (p & q & Ep) (p' & q' & Ep'). destruct (unt_apart _ _ _ _ U) as (AP & _).
    destruct (ForallOrdPairs_In AP n m Hn Hm) as [E|X]; auto. exfalso.
    assert (K : forall g p q, g = p ++ x :: y :: q -> In x (removelast g)).
    { intros g p0 q0 ->. rewrite removelast_app by discriminate. apply in_or_app. right. left. auto. }
    destruct X as [X|X]; apply (X x); unfold body; eapply K; eauto.
  - apply (unt_apart _ _ _ _ U).
Qed.
End Shape.

Theorem no_parallel : forall (f lab : raster Z) (pps : list cell) fuel out,
  same_shape f lab -> fully_draining f -> pps <> [] -> pourpoints_ok f lab pps ->
  (length (rcells f) <= fuel)%nat -> (length pps <= fuel)%nat ->
  geometric_pourpoint_network fuel f lab pps (Some 0) = Ok out ->
  (forall n m x y, In n out -> In m out -> step_in (g_geom n) x y -> step_in (g_geom m) x y -> n = m) /\
  (forall n, In n out -> NoDup (g_geom n)).
Proof.
  intros f lab pps fuel out Sh Dr Ne PP F1 F2 E.
  destruct (junctions_preserve f lab pps Sh Dr Ne PP fuel F1 F2) as (plain & out' & _ & E' & X).
  rewrite E in E'. injection E' as <-. tauto.
Qed.

(** ** C33 *)
Section Transparent.
Variables (f lab : raster Z) (pps : list cell).
Hypothesis Sh : same_shape f lab.
Hypothesis Dr : fully_draining f.
Hypothesis Ne : pps <> [].
Hypothesis PP : pourpoints_ok f lab pps.

Section Net.
Context {T : Type}.
Variables (zero : T) (water cap : Z -> T).
Notation net := (as_network zero water cap).

Lemma net_in : forall ns n, In n ns -> In (mkNode (g_id n) (g_dstr n) (if g_junction n then zero else water (g_id n))
  (if g_junction n then zero else cap (g_id n))) (net ns).
Proof. intros ns n H. unfold as_network. apply in_map_iff. exists n. auto. Qed.

Lemma net_in_inv : forall ns m, In m (net ns) -> exists n, In n ns /\ n_id m = g_id n /\ n_dstr m = g_dstr n /\
  n_water m = (if g_junction n then zero else water (g_id n)) /\ n_cap m = (if g_junction n then zero else cap (g_id n)).
Proof. intros ns m H. unfold as_network in H. apply in_map_iff in H. destruct H as (n & <- & Hn). exists n. auto. Qed.

Lemma net_root : forall ns n, In n ns -> g_dstr n = None -> root_of (net ns) (g_id n) (g_id n).
Proof. intros ns n H E. apply (ro_root (net ns) _ (net_in ns n H)). exact E. Qed.

Lemma net_step : forall ns n d r, In n ns -> g_dstr n = Some d -> root_of (net ns) d r -> root_of (net ns) (g_id n) r.
Proof. intros ns n d r H E R. apply (ro_step (net ns) _ d r (net_in ns n H)); auto. Qed.

Lemma reach_root : forall out a p d, reach out a p d ->
  (d = None -> exists r, root_of (net out) a r) /\
  (forall k r, d = Some k -> root_of (net out) k r -> exists r', root_of (net out) a r').
Proof.
  intros out a p d H. induction H as [n Hn|n j p d Hn Hj Jj Ed H [IH1 IH2]].
  - split.
    + intros E. exists (g_id n). apply net_root; auto.
    + intros k r E R. exists r. eapply net_step; eauto.
  - split.
    + intros E. destruct (IH1 E) as (r & R). exists r. eapply net_step; eauto.
    + intros k r E R. destruct (IH2 k r E R) as (r' & R'). exists r'. eapply net_step; eauto.
Qed.

Lemma strip_net : forall N, net (map strip N) = net N.
Proof. intros N. unfold as_network. rewrite map_map. reflexivity. Qed.

Section Unt.
Variables (N out : list gnode) (a b : Z).
Hypothesis U : unt N a out b.
Hypothesis ND : NoDup (map g_id N).
Hypothesis NDo : NoDup (map g_id out).
Hypothesis NE : forall n, In n N -> g_geom n <> [].
Hypothesis Cl : forall n d, In n N -> g_dstr n = Some d -> In d (map g_id N).

Lemma rooted_out : forall k r, root_of (net N) k r -> exists r', root_of (net out) k r'.
Proof.
  pose proof (unt_nonempty _ _ _ _ U NE) as NO.
  intros k r R. induction R as [m Hm Ed|m d r Hm Ed R IH].
  - apply net_in_inv in Hm. destruct Hm as (n & Hn & -> & E & _). rewrite E in Ed.
    pose proof (unt_reach _ _ _ _ U out (incl_refl _) NO n Hn) as RR. destruct (reach_root _ _ _ _ RR) as [X _]. auto.
  - apply net_in_inv in Hm. destruct Hm as (n & Hn & -> & E & _). rewrite E in Ed. destruct IH as (r' & R').
    pose proof (unt_reach _ _ _ _ U out (incl_refl _) NO n Hn) as RR. destruct (reach_root _ _ _ _ RR) as [_ X]. eauto.
Qed.

Lemma rooted_in : forall k r, root_of (net out) k r -> forall p d, reach out k p d ->
  (forall x, d = Some x -> In x (map g_id N)) -> d = None \/ exists x r', d = Some x /\ root_of (net N) x r'.
Proof.
  pose proof (unt_nonempty _ _ _ _ U NE) as NO.
  intros k r R. induction R as [m Hm Ed|m x r Hm Ed R IH]; intros p d RR Pl;
    apply net_in_inv in Hm; destruct Hm as (o & Ho & Ei & E & _); rewrite E in Ed; rewrite Ei in RR.
  - left. inversion RR as [n Hn En|n j q d' Hn Hj Jj Ej RR' En]; subst;
      assert (n = o) by (apply (NoDup_ids_inj out n o NDo); auto); subst n; congruence.
  - inversion RR as [n Hn En Ep Ed'|n j q d' Hn Hj Jj Ej RR' En Ep Ed'];
      assert (n = o) by (apply (NoDup_ids_inj out n o NDo); auto); subst n.
    + right. exists x. subst d. specialize (Pl x Ed). apply in_map_iff in Pl. destruct Pl as (n & <- & Hn').
      pose proof (unt_reach _ _ _ _ U out (incl_refl _) NO n Hn') as R2.
      destruct (IH _ _ R2 (fun y => Cl n y Hn')) as [Z|(y & r' & Z & R3)].
      * exists (g_id n). split; auto. apply net_root; auto.
      * exists r'. split; auto. eapply net_step; eauto.
    + subst d'. assert (x = g_id j) by congruence. subst x. eauto.
Qed.

Lemma rooted_iff : forall n, In n N -> (exists r, root_of (net N) (g_id n) r) <-> exists r, root_of (net out) (g_id n) r.
Proof.
  intros n Hn. split; intros (r & R); [apply rooted_out in R; auto|].
  pose proof (unt_reach _ _ _ _ U out (incl_refl _) (unt_nonempty _ _ _ _ U NE) n Hn) as RR.
  destruct (rooted_in _ _ R _ _ RR (fun y => Cl n y Hn)) as [Z|(y & r' & Z & R3)].
  - exists (g_id n). apply net_root; auto.
  - exists r'. eapply net_step; eauto.
Qed.
End Unt.
End Net.
End Transparent.

Lemma direct_sum : forall water cap (s : Z -> Q) ns k,
  Qsum (map (fun u => s (n_id u)) (direct_upstream (as_network 0%Q water cap ns) k)) = sum_to s (Some k) ns.
Proof.
  intros water cap s ns k. unfold direct_upstream, as_network, sum_to.
  induction ns as [|n ns IH]; [reflexivity|]. cbn [map filter]. unfold refers at 1, is_dstr at 1. cbn [n_dstr].
  destruct (g_dstr n) as [d|]; cbn [optZ_eqb]; [destruct (d =? k)|]; cbn [map Qsum n_id]; rewrite IH; reflexivity.
Qed.

Lemma sum_to_zero : forall (s : Z -> Q) d l, (forall n, In n l -> g_dstr n = d -> s (g_id n) == 0)%Q -> (sum_to s d l == 0)%Q.
Proof.
  intros s d l H. unfold sum_to. induction l as [|n l IH]; [reflexivity|]. cbn [filter].
  assert (IH' : (Qsum (map (fun n0 => s (g_id n0)) (filter (refers d) l)) == 0)%Q) by (apply IH; intros; apply H; auto; right; auto).
  unfold refers at 1. destruct (optZ_eqb_spec' (g_dstr n) d) as [E|E]; auto.
  cbn [map Qsum]. rewrite IH', (H n (or_introl eq_refl) E). reflexivity.
Qed.

(** The balance of the nodes with junctions is one of the nodes without. *)
Lemma root_in : forall {T} (ns : list (@NetworkModel.node T)) k r, root_of ns k r -> exists n, In n ns /\ n_id n = k.
Proof. intros T ns k r R. inversion R; eauto. Qed.

Lemma balance_through : forall water cap N a out b v s, unt N a out b ->
  NoDup (map g_id N) -> NoDup (map g_id out) -> (forall n, In n N -> g_geom n <> []) ->
  (forall n d, In n N -> g_dstr n = Some d -> In d (map g_id N)) ->
  (forall n, In n N -> g_junction n = false /\ g_id n < a) ->
  let P := as_network 0%Q water cap N in let J := as_network 0%Q water cap out in
  balance J v s ->
  (forall k, (exists r, root_of J k r) \/ s k == 0)%Q ->
  balance P v s /\ (sum_to s None out == sum_to s None N)%Q /\
  (forall j, In j out -> g_junction j = true -> (exists r, root_of J (g_id j) r) -> v (g_id j) == 0)%Q.
Proof.
  intros water cap N a out b v s U ND NDo NE Cl Jf P J B Un.
  destruct (unt_ids _ _ _ _ U) as [Lb Pi].
  assert (Bo : forall o, In o out -> (exists r, root_of J (g_id o) r) ->
    let total := ((if g_junction o then 0 else water (g_id o)) + sum_to s (Some (g_id o)) out)%Q in
    (v (g_id o) == if Qlt_le_dec (if g_junction o then 0 else cap (g_id o)) total then (if g_junction o then 0 else cap (g_id o)) else total)%Q /\
    (s (g_id o) == if Qlt_le_dec (if g_junction o then 0 else cap (g_id o)) total then total - (if g_junction o then 0 else cap (g_id o)) else 0)%Q).
  { intros o Ho R. specialize (B _ (net_in 0%Q water cap out o Ho) R). cbn [n_id n_water n_cap] in B.
    fold J in B. unfold J in B. rewrite direct_sum in B. exact B. }
  assert (S0 : forall k, (0 <= s k)%Q).
  { intros k. destruct (Un k) as [X|X]; [|rewrite X; lra]. destruct X as (r & R). destruct (root_in _ _ _ R) as (m & Hm & Em).
    apply net_in_inv in Hm. destruct Hm as (o & Ho & Eo & _). rewrite Eo in Em. subst k.
    destruct (Bo o Ho (ex_intro _ r R)) as [_ X]. cbv zeta in X. rewrite X. destruct Qlt_le_dec; lra. }
  assert (SN : forall d l, (0 <= sum_to s d l)%Q).
  { intros d l. apply Qsum_nonneg. intros x Hx. apply in_map_iff in Hx. destruct Hx as (n & <- & _). auto. }
  assert (Jt : forall j, a <= j < b -> exists o, In o out /\ g_id o = j /\ g_junction o = true).
  { intros j Hj. assert (X : In j (map g_id out)).
    { eapply Permutation_in; [apply Permutation_sym; exact Pi|]. apply in_or_app. right. apply in_zseq. lia. }
    apply in_map_iff in X. destruct X as (o & <- & Ho). exists o. split; auto. split; auto.
    destruct (g_junction o) eqn:Eo; auto. exfalso.
    assert (X : In (key o) (map key (filter pour N))).
    { eapply Permutation_in; [apply (unt_pour _ _ _ _ U)|]. apply in_map. apply filter_In. split; auto. unfold pour. rewrite Eo. auto. }
    apply in_map_iff in X. destruct X as (n & En & Hn). apply filter_In in Hn. destruct Hn as [Hn _].
    unfold key in En. destruct (Jf n Hn). assert (g_id n = g_id o) by congruence. lia. }
  assert (SJ : forall j, a <= j < b -> (s j == sum_to s (Some j) out)%Q).
  { intros j Hj. destruct (Jt j Hj) as (o & Ho & Eo & Jo). destruct (Un j) as [X|X].
    - rewrite <- Eo in *. destruct (Bo o Ho X) as [_ Y]. rewrite Jo in Y. cbv zeta in Y. rewrite Y.
      pose proof (SN (Some (g_id o)) out). destruct Qlt_le_dec; lra.
    - rewrite X. symmetry. apply sum_to_zero. intros n Hn En. destruct (Un (g_id n)) as [(r & R)|Z]; auto.
      inversion R as [m Hm Ed Eq Er|m d' r' Hm Ed R' Eq Er]; apply net_in_inv in Hm; destruct Hm as (n' & Hn' & E1 & E2 & _);
        assert (n' = n) by (apply (NoDup_ids_inj out n' n NDo); auto; congruence); subst n'; rewrite E2, En in Ed; [discriminate Ed|].
      injection Ed as <-. assert (D : (exists r, root_of J j r)) by eauto. rewrite <- Eo in D, X. 
      destruct (Bo o Ho D) as [_ Y]. rewrite Jo in Y. cbv zeta in Y. rewrite Eo in *.
      assert (Le : (s (g_id n) <= sum_to s (Some j) out)%Q).
      { clear - Hn En S0. unfold sum_to. induction out as [|x l IH]; [destruct Hn|]. cbn [filter].
        assert (Z : (0 <= Qsum (map (fun n0 => s (g_id n0)) (filter (refers (Some j)) l)))%Q)
          by (apply Qsum_nonneg; intros y Hy; apply in_map_iff in Hy; destruct Hy as (m & <- & _); auto).
        destruct Hn as [->|Hn].
        - unfold refers at 1. rewrite En. cbn [optZ_eqb]. rewrite Z.eqb_refl. cbn [map Qsum]. lra.
        - specialize (IH Hn). pose proof (S0 (g_id x)). destruct (refers (Some j) x); cbn [map Qsum]; lra. }
      pose proof (S0 (g_id n)). rewrite X in Y. match type of Y with context [Qlt_le_dec ?p ?q] => destruct (Qlt_le_dec p q) end; rewrite E1; lra. }
  assert (Da : forall n d, In n N -> g_dstr n = Some d -> d < a).
  { intros n d Hn E. specialize (Cl n d Hn E). apply in_map_iff in Cl. destruct Cl as (m & <- & Hm). apply Jf; auto. }
  pose proof (unt_sum s N a out b U Da SJ) as US.
  split; [|split].
  - intros m Hm R. apply net_in_inv in Hm. destruct Hm as (n & Hn & Ei & Ed & Ew & Ec). destruct (Jf n Hn) as [Jn La].
    rewrite Ei in R. cbv zeta. rewrite Ei, Ew, Ec. unfold P. rewrite direct_sum, Jn.
    assert (R' : exists r, root_of J (g_id n) r).
    { destruct R as (r & R). eapply (rooted_out 0%Q water cap); eauto. }
    assert (X : exists o, In o out /\ g_id o = g_id n /\ g_junction o = false).
    { assert (X : In (key n) (map key (filter pour out))).
      { eapply Permutation_in; [apply Permutation_sym; apply (unt_pour _ _ _ _ U)|]. apply in_map. apply filter_In. split; auto. unfold pour. rewrite Jn. auto. }
      apply in_map_iff in X. destruct X as (o & Eo & Ho). apply filter_In in Ho. destruct Ho as [Ho Po].
      exists o. split; auto. unfold key in Eo. split; [congruence|]. unfold pour in Po. destruct (g_junction o); [discriminate|auto]. }
    destruct X as (o & Ho & Eo & Jo). rewrite <- Eo in *. specialize (Bo o Ho R'). rewrite Jo in Bo. cbv zeta in Bo.
    assert (Q0 : (sum_to s (Some (g_id o)) out == sum_to s (Some (g_id o)) N)%Q).
    { apply US. intros k Ek. injection Ek as <-. lia. }
    destruct Bo as [B1 B2]. split.
    + rewrite B1. repeat destruct Qlt_le_dec; lra.
    + rewrite B2. repeat destruct Qlt_le_dec; lra.
  - apply US. discriminate.
  - intros j Hj Jj R. destruct (Bo j Hj R) as [X _]. rewrite Jj in X. cbv zeta in X. rewrite X.
    pose proof (SN (Some (g_id j)) out). destruct Qlt_le_dec; lra.
Qed.

Section Same.
Variables (f lab : raster Z) (pps : list cell).
Hypothesis Sh : same_shape f lab.
Hypothesis Dr : fully_draining f.
Hypothesis Ne : pps <> [].
Hypothesis PP : pourpoints_ok f lab pps.

Lemma net_ids : forall {T} (zero : T) water cap ns, map n_id (as_network zero water cap ns) = map g_id ns.
Proof. intros. unfold as_network. rewrite map_map. reflexivity. Qed.

Theorem junctions_transparent : forall fuel, (length (rcells f) <= fuel)%nat -> (length pps <= fuel)%nat ->
  exists plain out,
    pourpoint_network fuel f lab pps (Some 0) = Ok plain /\
    geometric_pourpoint_network fuel f lab pps (Some 0) = Ok out /\
    forall (water cap : Z -> Q),
    let run := fun k ns => rain_event QOps k (add_nodes empty_network (as_network 0%Q water cap ns)) in
    (forall k, (length out <= k)%nat -> exists evs evs', run k plain = Ok evs /\ run k out = Ok evs') /\
    forall k k' evs evs', run k plain = Ok evs -> run k' out = Ok evs' ->
    (forall e, In e evs -> exists e', In e' evs' /\ e_id e' = e_id e /\
       e_vol e' == e_vol e /\ e_spill e' == e_spill e)%Q /\
    (forall e', In e' evs' ->
       (exists e, In e evs /\ e_id e = e_id e') \/
       (exists j, In j out /\ g_junction j = true /\ g_id j = e_id e' /\ (e_vol e' == 0)%Q)).
Proof.
  intros fuel F1 F2. destruct (network_shape f lab Sh Dr pps Ne PP) as (N & A & B & C & D).
  destruct (D fuel F1 F2) as (out & b & E1 & E2 & U). exists (map strip N), out.
  split; auto. split; auto. intros water cap run.
  assert (RN : forall k, run k (map strip N) = run k N) by (intros k; unfold run; rewrite strip_net; reflexivity).
  destruct (unt_ids _ _ _ _ U) as [Lb Pi].
  assert (NDN : NoDup (map g_id N)) by (rewrite A; apply zseq_NoDup).
  assert (ND : NoDup (map g_id out)).
  { eapply Permutation_NoDup; [apply Permutation_sym; exact Pi|]. rewrite A.
    pose proof (zseq_app (length pps) (Z.to_nat (b - Z.of_nat (length pps))) 0) as Z0. rewrite Z.add_0_l in Z0.
    rewrite <- Z0. apply zseq_NoDup. }
  assert (UN : unique_ids (as_network 0%Q water cap N)) by (unfold unique_ids; rewrite net_ids; auto).
  assert (UO : unique_ids (as_network 0%Q water cap out)) by (unfold unique_ids; rewrite net_ids; auto).
  assert (NE : forall n, In n N -> g_geom n <> []).
  { intros n Hn X. destruct (C n Hn) as [(_ & _ & W) _]. apply walk_hd in W. destruct W as (_ & t & E). congruence. }
  assert (Jf : forall n, In n N -> g_junction n = false /\ g_id n < Z.of_nat (length pps)).
  { intros n Hn. destruct (C n Hn) as [[J _] _]. split; auto.
    assert (X : In (g_id n) (zseq 0 (length pps))) by (rewrite <- A; apply in_map; auto). apply in_zseq in X. lia. }
  assert (Cl : forall n d, In n N -> g_dstr n = Some d -> In d (map g_id N)).
  { intros n d Hn E. rewrite A. apply in_zseq. destruct (node_label f lab pps Sh PP n d (C n Hn) E). lia. }
  split.
  - intros k Hk. assert (L : (length N <= length out)%nat).
    { rewrite <- (map_length g_id N), <- (map_length g_id out). apply Permutation_length in Pi. rewrite app_length in Pi. lia. }
    destruct (network_total _ UN k) as (evs & He); [unfold as_network; rewrite map_length; lia|].
    destruct (network_total _ UO k) as (evs' & He'); [unfold as_network; rewrite map_length; lia|].
    exists evs, evs'. rewrite RN. auto.
  - intros k k' evs evs' H H'. rewrite RN in H. unfold run in H, H'.
    destruct (run_facts _ UN _ _ H) as (rv & Ev & G & K & I & NDe).
    destruct (run_facts _ UO _ _ H') as (rv' & Ev' & G' & K' & I' & NDe').
    pose proof (run_balance _ UN _ _ H) as Bn. pose proof (run_balance _ UO _ _ H') as Bo.
    destruct (balance_through water cap N _ out b _ _ U NDN ND NE Cl Jf Bo) as (Bt & _ & Jv).
    { intros x. unfold lookup. destruct (find (fun e => e_id e =? x) evs') as [e|] eqn:F; [left|right; reflexivity].
      apply find_some in F. destruct F as [F1' F2']. apply Z.eqb_eq in F2'. apply K'. rewrite <- I', <- F2'. apply in_map; auto. }
    split.
    + intros e He. assert (Hk : In (e_id e) (map fst rv)) by (rewrite <- I; apply in_map; auto).
      apply K in Hk. destruct Hk as (r & R).
      assert (X : In (e_id e) (map e_id evs')).
      { rewrite I'. apply K'. eapply (rooted_out 0%Q water cap); eauto. }
      apply in_map_iff in X. destruct X as (e' & Ee & He'). exists e'. split; auto. split; auto.
      destruct (balance_unique _ _ _ _ _ UN Bt Bn (e_id e) r R) as [V S].
      rewrite (lookup_in evs e_vol e NDe He) in V. rewrite (lookup_in evs e_spill e NDe He) in S.
      rewrite <- Ee in V, S. rewrite lookup_in in V by auto. rewrite lookup_in in S by auto. auto.
    + intros e' He'. assert (Hk : In (e_id e') (map fst rv')) by (rewrite <- I'; apply in_map; auto).
      apply K' in Hk. destruct (Hk) as (r & R). destruct (root_in _ _ _ R) as (m & Hm & Em).
      apply net_in_inv in Hm. destruct Hm as (o & Ho & Eo & _). rewrite Eo in Em.
      destruct (g_junction o) eqn:Jo.
      * right. exists o. split; auto. split; auto. split; auto. rewrite <- Em in Hk. specialize (Jv o Ho Jo Hk).
        rewrite Em, lookup_in in Jv by auto. exact Jv.
      * left. assert (X : In (key o) (map key (filter pour N))).
        { eapply Permutation_in; [apply (unt_pour _ _ _ _ U)|]. apply in_map. apply filter_In. split; auto. unfold pour. rewrite Jo. auto. }
        apply in_map_iff in X. destruct X as (n & En & Hn). apply filter_In in Hn. destruct Hn as [Hn _].
        assert (Ei : g_id n = e_id e') by (unfold key in En; congruence). rewrite <- Ei in *.
        assert (Y : In (g_id n) (map e_id evs)).
        { rewrite I. apply K. apply (rooted_iff 0%Q water cap N out _ b U ND NE Cl n Hn). eauto. }
        apply in_map_iff in Y. destruct Y as (e & Ee & He). eauto.
Qed.
End Same.

(** ** C28 *)
Section Acyclic.
Variables (f lab : raster Z) (h : cell -> Z) (pps : list cell).
Hypothesis Sh : same_shape f lab.
Hypothesis Dr : fully_draining f.
Hypothesis Po : potential f h.
Hypothesis LP : lowest_points h lab pps.
Hypothesis Hr : 1 <= nrows f.
Hypothesis Hc : 1 <= ncols f.

(** What pourpoint_network makes of the k-th pour point. *)
Definition node_ok (n : gnode) : Prop :=
  g_junction n = false /\
  (g_dstr n = None \/
   inside (nrows f) (ncols f) (g_pix n) /\ at_ lab (g_pix n) = g_id n /\
   exists l x, g_dstr n = Some l /\ l <> g_id n /\ l <> 0 /\ at_ lab x = l /\ passes f (g_pix n) x).

Lemma pp_nodes : forall l, (forall ip, In ip l -> (inside (nrows f) (ncols f) (snd ip) /\ at_ lab (snd ip) = fst ip) \/ snd ip = (-1, -1)) ->
  exists N, map g_id N = map fst l /\ map g_pix N = map snd l /\ (forall n, In n N -> node_ok n) /\
  forall fuel, (length (rcells f) <= fuel)%nat ->
    mmap (fun ip =>
          '(down_lbl, _) <- next_downstream_label fuel f lab (snd ip) (Some 0) false ;;
          Ok (mkG (fst ip) down_lbl false (snd ip) [])) l = Ok N.
Proof.
  induction l as [|ip l IH]; intros Hin.
  - exists []. split; auto. split; auto. split; [intros ? []|]. reflexivity.
  - destruct IH as (N & A & B & C & D); [intros; apply Hin; right; auto|].
    assert (X : exists lb, node_ok (mkG (fst ip) lb false (snd ip) []) /\ forall fuel, (length (rcells f) <= fuel)%nat ->
      next_downstream_label fuel f lab (snd ip) (Some 0) false = Ok (lb, [])).
    { destruct (Hin ip (or_introl eq_refl)) as [[I La]|E].
      - destruct (inside_end f Dr _ I) as (n & En). destruct (walk_total f lab Sh Dr (fst ip) n (snd ip) En) as (lb & p & W & L).
        exists lb. split.
        + split; auto. destruct lb as [lb|]; [right|left; auto]. cbn [g_pix g_id g_dstr]. split; auto. split; auto.
          apply walk_label in W. destruct W as (W1 & W2 & x & _ & W3 & W4). exists lb, x. auto.
        + intros fuel Fu. unfold next_downstream_label. rewrite (lab_rd f lab Sh) by auto. cbn [bind]. rewrite La, L; auto.
          pose proof (end_in_bound f n (snd ip) En) as LB. unfold ncells in LB. lia.
      - exists None. split; [split; auto|]. intros fuel _. rewrite E. unfold next_downstream_label. cbn [fst snd].
        destruct Sh as [Q1 Q2]. unfold rd. unfold pyidx. cbn [Z.leb Z.ltb Z.compare].
        cbn [andb]. replace (- nrows lab <=? -1) with true by lia. replace (- ncols lab <=? -1) with true by lia. cbn [andb bind].
        destruct fuel; reflexivity. }
    destruct X as (lb & OK & X). exists (mkG (fst ip) lb false (snd ip) [] :: N). cbn [map g_id g_pix]. rewrite A, B.
    split; auto. split; auto. split; [intros n [<-|Hn]; auto|]. intros fuel Fu. cbn [mmap]. rewrite X by auto. cbn [bind].
    rewrite D by auto. reflexivity.
Qed.

Theorem network_acyclic : exists plain, 
  (forall fuel, (length (rcells f) <= fuel)%nat -> pourpoint_network fuel f lab pps (Some 0) = Ok plain) /\
  map g_id plain = zseq 0 (length pps) /\ map g_pix plain = pps /\
  (forall n d, In n plain -> g_dstr n = Some d -> d <> 0 /\ d <> g_id n /\ exists m, In m plain /\ g_id m = d) /\
  forall T (zero : T) water cap, acyclic_closed (as_network zero water cap plain).
Proof.
  destruct (enum_spec pps 0) as [E1 E2]. destruct LP as [LI L].
  destruct (pp_nodes (pourpoint_enumerator 0 pps)) as (N & A & B & C & D).
  { intros ip H. destruct (enum_nth _ _ _ H) as (k & Ek & Ef). destruct (L k _ Ek) as [[[I La] _]|[E _]]; [left|right; auto].
    destruct Sh as [-> ->]. split; auto. lia. }
  rewrite E1 in A. rewrite E2 in B. exists N. split; [exact D|]. split; auto. split; auto.
  assert (S : forall n d, In n N -> g_dstr n = Some d -> d <> 0 /\ d <> g_id n /\ exists m, In m N /\ g_id m = d /\ h (g_pix m) < h (g_pix n)).
  { intros n d Hn E. destruct (C n Hn) as [_ [X|(I & La & l & x & X & N1 & N0 & Lx & P)]]; [congruence|].
    rewrite E in X. injection X as <-. split; auto. split; auto.
    assert (Ix : inside (nrows lab) (ncols lab) x) by (destruct Sh as [<- <-]; apply (passes_inside_r f _ _ P)).
    pose proof (LI x Ix) as Bx. rewrite Lx in Bx.
    destruct (nth_error pps (Z.to_nat d)) as [c|] eqn:Ec; [|apply nth_error_None in Ec; lia].
    destruct (at_node N pps 0 A B _ _ Ec) as (m & Hm & Ep & Em). exists m. split; auto. split; [lia|]. rewrite Ep.
    assert (Hx : has_label lab (Z.of_nat (Z.to_nat d)) x) by (split; auto; lia).
    destruct (L _ _ Ec) as [[_ Lw]|[_ Y]]; [|destruct (Y x Hx)].
    specialize (Lw x Hx). destruct (potential_passes f h Po _ _ P) as [Q|Q]; [|lia]. subst x. congruence. }
  split; [intros n d Hn E; destruct (S n d Hn E) as (S1 & S2 & m & S3 & S4 & _); eauto|].
  intros T zero water cap.
  assert (Lo : exists lo, forall n, In n N -> lo <= h (g_pix n)).
  { clear. induction N as [|n N (lo & IH)]; [exists 0; intros ? []|]. exists (Z.min lo (h (g_pix n))).
    intros m [<-|Hm]; [lia|]. specialize (IH m Hm). lia. }
  destruct Lo as (lo & Lo).
  assert (K : forall k n, In n N -> (Z.to_nat (h (g_pix n) - lo) < k)%nat -> exists r, root_of (as_network zero water cap N) (g_id n) r).
  { induction k as [|k IH]; intros n Hn Hk; [lia|]. destruct (g_dstr n) as [d|] eqn:E.
    - destruct (S n d Hn E) as (_ & _ & m & Hm & Em & Lt). pose proof (Lo m Hm). destruct (IH m Hm) as (r & R); [lia|].
      exists r. eapply net_step; eauto. rewrite <- Em. auto.
    - exists (g_id n). apply net_root; auto. }
  intros m Hm. apply net_in_inv in Hm. destruct Hm as (n & Hn & -> & _). eapply K; eauto.
Qed.
End Acyclic.

Lemma min_points : forall (h : raster b64) lab nl n, dem_finite h -> same_shape h lab -> nlabels_is lab nl n -> labels_in lab n ->
  1 <= nrows lab -> 1 <= ncols lab -> exists st,
  label_min_index64 h lab nl = Ok st /\ label_min_index64_cy h lab nl = Ok st /\ Z.of_nat (length st) = n + 1 /\
  lowest_points (fun c => rank (at_ h c)) lab (map (fun r => (i_row r, i_col r)) st).
Proof.
  intros h lab nl n F S NL L Hr Hc.
  destruct (label_min_index_spec h lab nl n S NL L Hr Hc) as (st & E1 & E2 & E3 & E4). exists st.
  split; auto. split; auto. split; auto.
  unfold lowest_points. rewrite map_length. replace (Z.of_nat (length st) - 1) with n by lia. split; auto.
  intros k c Hk. rewrite nth_error_map in Hk. destruct (nth_error st k) as [r|] eqn:Er; [|discriminate Hk].
  cbn [option_map] in Hk. injection Hk as <-.
  assert (Lk : 0 <= Z.of_nat k <= n).
  { assert (k < length st)%nat by (apply nth_error_Some; congruence). lia. }
  assert (N : forall d, has_label lab (Z.of_nat k) d -> is_finite (at_ h d) = true).
  { intros d [Hd _]. apply F. destruct S as [-> ->]. auto. }
  destruct (E4 _ Lk) as (r' & Er' & D). rewrite Nat2Z.id, Er in Er'. injection Er' as <-.
  destruct D as [[(D1 & D2 & D3 & _) _]|[-> D]]; [left|right].
  - split; auto. intros d Hd. specialize (D3 d Hd (finite_not_nan _ (N d Hd))).
    rewrite D2 in D3. apply le64_rank in D3; auto; apply finite_not_nan; auto.
  - split; auto. intros d Hd. apply (D d Hd). specialize (N d Hd). apply lt64_rank; [apply finite_not_nan; auto|reflexivity|].
    unfold f64_inf. rewrite rank_pinf. apply rank_finite_bound; auto.
Qed.

Lemma max_points : forall (a : raster Z) lab nl n,
  (forall c, inside (nrows a) (ncols a) c -> 0 <= at_ a c <= 2 ^ 53) ->
  same_shape a lab -> nlabels_is lab nl n -> labels_in lab n -> 1 <= nrows lab -> 1 <= ncols lab ->
  exists st, label_max_index64 (accum64 a) lab nl = Ok st /\ Z.of_nat (length st) = n + 1 /\
  lowest_points (fun c => - at_ a c) lab (map (fun r => (i_row r, i_col r)) st).
Proof.
  intros a lab nl n B S NL L Hr Hc.
  destruct (label_max_index_spec (accum64 a) lab nl n S NL L Hr Hc) as (st & E1 & E3 & E4).
  exists st. split; auto. split; auto.
  unfold lowest_points. rewrite map_length. replace (Z.of_nat (length st) - 1) with n by lia. split; auto.
  intros k c Hk. rewrite nth_error_map in Hk. destruct (nth_error st k) as [r|] eqn:Er; [|discriminate Hk].
  cbn [option_map] in Hk. injection Hk as <-.
  assert (Lk : 0 <= Z.of_nat k <= n).
  { assert (k < length st)%nat by (apply nth_error_Some; congruence). lia. }
  assert (I : forall d, has_label lab (Z.of_nat k) d -> 0 <= at_ a d <= 2 ^ 53).
  { intros d [Hd _]. apply B. destruct S as [-> ->]. auto. }
  assert (V : forall d, at_ (accum64 a) d = f64_ofZ (at_ a d)) by reflexivity.
  assert (N : forall d, has_label lab (Z.of_nat k) d -> is_finite (at_ (accum64 a) d) = true).
  { intros d Hd. rewrite V. apply ofZ_exact; auto. }
  destruct (E4 _ Lk) as (r' & Er' & D). rewrite Nat2Z.id, Er in Er'. injection Er' as <-.
  destruct D as [[(D1 & D2 & D3 & _) _]|[-> D]]; [left|right].
  - split; auto. intros d Hd. specialize (D3 d Hd (finite_not_nan _ (N d Hd))). cbv beta in D3.
    rewrite D2 in D3. apply le64_rank in D3; try (apply finite_not_nan; auto; fail).
    rewrite !V in D3. destruct (Z_lt_ge_dec (at_ a (i_row r, i_col r)) (at_ a d)) as [G|]; [|lia].
    apply ofZ_lt in G; auto. lia.
  - split; auto. intros d Hd. apply (D d Hd). specialize (N d Hd). apply lt64_rank; [reflexivity|apply finite_not_nan; auto|].
    unfold f64_ninf. rewrite rank_ninf. apply rank_finite_bound; auto.
Qed.

Theorem acyclic_min_rule : forall (f lab : raster Z) (h : raster b64) n,
  fully_draining f -> dem_finite h -> same_shape h f -> same_shape h lab -> 1 <= nrows h -> 1 <= ncols h ->
  (forall c d, flows f c d -> lt64 (at_ h d) (at_ h c)) -> numbered lab n ->
  exists st plain, label_min_index64 h lab (Some n) = Ok st /\ label_min_index64_cy h lab (Some n) = Ok st /\
  let pps := map (fun r => (i_row r, i_col r)) st in
  (forall fuel, (length (rcells f) <= fuel)%nat -> pourpoint_network fuel f lab pps (Some 0) = Ok plain) /\
  good_network plain pps.
Proof.
  intros f lab h n Dr F Sf Sl Hr Hc M Nm.
  assert (NL : nlabels_is lab (Some n) n).
  { destruct (Z.eq_dec n 0) as [E0|]; [|left; auto]. rewrite E0 in *. right. split; auto.
    apply numbered_largest; auto; destruct Sl; lia. }
  destruct (min_points h lab (Some n) n F Sl NL (proj1 Nm)) as (st & E1 & E2 & E3 & LP); try (destruct Sl; lia).
  exists st. cbv zeta.
  destruct (network_acyclic f lab (fun c => rank (at_ h c)) (map (fun r => (i_row r, i_col r)) st)) as (plain & P1 & P2); auto;
    try (destruct Sf; lia).
  - destruct Sf, Sl; split; congruence.
  - intros c d Fl. pose proof (M c d Fl) as L. destruct Fl as (I1 & I2 & _).
    destruct Sf as [Q1 Q2]. rewrite <- Q1, <- Q2 in *. apply lt64_rank in L; auto; apply finite_not_nan; apply F; auto.
  - exists plain. auto.
Qed.

Theorem acyclic_max_rule : forall (sp : bool) fuel (f lab a : raster Z) n,
  fully_draining f -> 1 <= nrows f -> 1 <= ncols f -> nrows f * ncols f <= 2 ^ 53 ->
  (if sp then accumulated_flow_cy else accumulated_flow) fuel f = Ok a ->
  same_shape f lab -> numbered lab n ->
  exists st plain, label_max_index64 (accum64 a) lab (Some n) = Ok st /\
  let pps := map (fun r => (i_row r, i_col r)) st in
  (forall fuel, (length (rcells f) <= fuel)%nat -> pourpoint_network fuel f lab pps (Some 0) = Ok plain) /\
  good_network plain pps.
Proof.
  intros sp fuel f lab a n D Hr Hc Big HA Sl Nm.
  destruct (accum_either sp f fuel a D HA) as (Sa & Ia & Ba).
  assert (NL : nlabels_is lab (Some n) n).
  { destruct (Z.eq_dec n 0) as [E0|]; [|left; auto]. rewrite E0 in *. right. split; auto.
    apply numbered_largest; auto; destruct Sl; lia. }
  destruct (max_points a lab (Some n) n) as (st & E1 & E3 & LP); auto; try (destruct Sl; lia); try apply Nm.
  { intros c Hi. destruct Sa as [Q1 Q2]. rewrite <- Q1, <- Q2 in Hi. specialize (Ba c Hi). lia. }
  { destruct Sa, Sl; split; congruence. }
  exists st. cbv zeta.
  destruct (network_acyclic f lab (fun c => - at_ a c) (map (fun r => (i_row r, i_col r)) st)) as (plain & P1 & P2); auto.
  - intros c d Fl. specialize (Ia c d Fl). lia.
  - exists plain. auto.
Qed.

(** ** C29 *)
Lemma off_edge : forall f c, flows_off f c -> on_edge (nrows f) (ncols f) c.
Proof.
  intros f c (I & d & T & N). split; auto. unfold target in T. destruct (offset (at_ f c)) as [o|] eqn:O; [|discriminate T].
  injection T as <-. unfold inside, shift in *. cbn [fst snd] in *.
  assert (-1 <= fst o <= 1 /\ -1 <= snd o <= 1).
  { unfold offset in O. destruct (at_ f c) as [|[[[|[]|]|[|[]|]|]|[[|[]|]|[|[]|]|]|]|]; inversion O; cbn; lia. }
  lia.
Qed.

Theorem background_pour : forall f lab c, same_shape f lab -> fully_draining f ->
  (forall x, on_edge (nrows lab) (ncols lab) x -> at_ lab x = 0) -> pour_ok f lab 0 c ->
  flows_off f c /\ on_edge (nrows lab) (ncols lab) c.
Proof.
  intros f lab c [E1 E2] [_ Dr] Ed [[I La] P]. assert (I' := I). rewrite <- E1, <- E2 in I'.
  destruct (drains_passes_off f c (Dr c I')) as (o & Fo & Po).
  pose proof (off_edge f o Fo) as Eo. rewrite E1, E2 in Eo. pose proof (P o Po (Ed o Eo)) as X. subst o. auto.
Qed.

Theorem background_alone : forall f lab pps, same_shape f lab -> fully_draining f ->
  (forall x, inside (nrows lab) (ncols lab) x -> at_ lab x <> 0 -> interior (nrows lab) (ncols lab) x) ->
  labels_in lab (Z.of_nat (length pps) - 1) -> pps <> [] ->
  (forall k c, nth_error pps k = Some c -> pour_ok f lab (Z.of_nat k) c) ->
  pourpoints_ok f lab pps /\
  forall fuel, (length (rcells f) <= fuel)%nat -> exists plain,
    pourpoint_network fuel f lab pps (Some 0) = Ok plain /\
    (exists n0 rest, plain = n0 :: rest /\ g_id n0 = 0 /\ g_dstr n0 = None /\
       on_edge (nrows lab) (ncols lab) (g_pix n0) /\ flows_off f (g_pix n0)) /\
    forall n, In n plain -> g_dstr n <> Some 0.
Proof.
  intros f lab pps Sh Dr In LI Ne P.
  assert (Ed : forall x, on_edge (nrows lab) (ncols lab) x -> at_ lab x = 0).
  { intros x Hx. destruct (Z.eq_dec (at_ lab x) 0) as [|Nz]; auto. specialize (In x (proj1 Hx) Nz).
    destruct Hx as [_ Hx]. unfold interior in In. lia. }
  assert (PP : pourpoints_ok f lab pps).
  { split; auto. intros k c Hk. split; auto. intros ->. apply (background_pour f lab c Sh Dr Ed (P 0%nat c Hk)). }
  split; auto. intros fuel Fu.
  destruct (nodes_exist f lab Sh Dr pps PP) as (N & A & B & C & X). destruct (X fuel Fu) as [X1 _].
  pose proof (from_pp_all f lab pps PP N A B C) as FP.
  exists (map strip N). split; auto. split.
  - destruct N as [|n0 N]; [destruct pps; [congruence|discriminate B]|].
    destruct pps as [|c0 rest]; [congruence|]. cbn [map length zseq] in A, B. injection A as A0 _. injection B as B0 _.
    specialize (FP n0 (or_introl eq_refl)). destruct (off_single f lab n0 FP A0) as [_ D0].
    exists (strip n0), (map strip N). split; [reflexivity|]. cbn [strip g_id g_dstr g_pix]. split; auto. split; auto.
    rewrite B0. destruct (background_pour f lab c0 Sh Dr Ed (P 0%nat c0 eq_refl)). auto.
  - intros n Hn E. apply in_map_iff in Hn. destruct Hn as (m & <- & Hm). cbn [strip g_dstr] in E.
    destruct (C m Hm) as (_ & _ & W). rewrite E in W. apply walk_label in W. tauto.
Qed.

(** ** The tool chain *)
Section Chain.
Variable cc : raster bool -> raster Z * Z.
Hypothesis Hcc : labels_components cc.
Variable sp : bool.

Theorem chain_points : forall fuel fuel' t1 t5 dem dout t f accum out,
  size_ok sp dem -> dem32 dem -> dem_finite dem -> nrows dem * ncols dem <= 2 ^ 53 ->
  dem_process sp fuel t1 t5 dem = Ok dout ->
  accum = None \/ accum = Some (accum64 (do_accum dout)) ->
  bluespot_process sp cc fuel' t (do_depths dout) (do_flowdir dout) (Some f) accum (Some dem) = Ok out ->
  same_shape (do_flowdir dout) (bo_labeled out) /\ fully_draining (do_flowdir dout) /\
  1 <= nrows (do_flowdir dout) /\ 1 <= ncols (do_flowdir dout) /\
  map pp_id (bo_pourpoints out) = zseq 0 (length (bo_pourpoints out)) /\
  pourpoints_ok (do_flowdir dout) (bo_labeled out) (pps_of out) /\ pps_of out <> [] /\
  (forall x, on_edge (nrows (bo_labeled out)) (ncols (bo_labeled out)) x -> at_ (bo_labeled out) x = 0) /\
  exists h, potential (do_flowdir dout) h /\ lowest_points h (bo_labeled out) (pps_of out).
Proof.
  intros fuel fuel' t1 t5 dem dout t f accum out S H32 HF Big H HA HB.
  destruct (depths_facts sp fuel t1 t5 dem dout S H32 HF H) as (Sd & Dp & De).
  destruct (dem_flow sp fuel t1 t5 dem dout S H32 HF H) as (Sf & D & _).
  assert (Hr : 1 <= nrows (do_depths dout)) by (destruct Sd as [<- _]; destruct sp; cbn in S; lia).
  assert (Hc : 1 <= ncols (do_depths dout)) by (destruct Sd as [_ <-]; destruct sp; cbn in S; lia).
  destruct (process_filter cc Hcc sp _ _ _ _ _ _ _ _ Hr Hc HB) as (Sh & Nm & Fl & _).
  destruct (chain_pour cc Hcc sp fuel fuel' t1 t5 dem dout t _ f accum out S H32 HF Big H Sd HA HB) as (h & Po & Lp & X).
  assert (Sl : same_shape (do_flowdir dout) (bo_labeled out)) by (destruct Sd, Sf, Sh; split; congruence).
  assert (Ed : forall x, on_edge (nrows (bo_labeled out)) (ncols (bo_labeled out)) x -> at_ (bo_labeled out) x = 0).
  { intros x Hx. assert (I := proj1 Hx). destruct Sh as [Q1 Q2], Sd as [Q3 Q4]. rewrite <- Q1, <- Q2 in I.
    destruct (Z.eq_dec (at_ (bo_labeled out) x) 0) as [|Nz]; auto. exfalso. apply (Fl x I) in Nz. destruct Nz as [Nz _].
    rewrite <- Q1, <- Q2, <- Q3, <- Q4 in Hx. specialize (De x Hx). revert Nz De. unfold nonzero, at_. cbn [rget].
    unfold eq64. intros Nz De. rewrite De in Nz. discriminate Nz. }
  assert (L0 : exists c, has_label (bo_labeled out) 0 c).
  { exists (0, 0). split.
    - destruct Sh as [<- <-]. unfold inside. cbn [fst snd]. lia.
    - apply Ed. split; cbn [fst snd]; auto. destruct Sh as [<- <-]. unfold inside. cbn [fst snd]. lia. }
  assert (Ln : length (pps_of out) = length (bo_pourpoints out)) by (unfold pps_of; apply map_length).
  assert (Al : forall k c, nth_error (pps_of out) k = Some c -> lowest_in h (bo_labeled out) (Z.of_nat k) c).
  { intros k c Hk. unfold pps_of in Hk. rewrite nth_error_map in Hk.
    destruct (nth_error (bo_pourpoints out) k) as [p|] eqn:Ek; [|discriminate Hk]. injection Hk as <-.
    assert (k < length (bo_pourpoints out))%nat by (apply nth_error_Some; congruence).
    destruct (X (Z.of_nat k)) as (p' & E1 & _ & E2); [lia| |].
    - destruct k as [|k]; [exact L0|]. apply Nm. lia.
    - rewrite Nat2Z.id in E1. assert (p' = p) by congruence. subst p'. exact E2. }
  assert (LI : labels_in (bo_labeled out) (Z.of_nat (length (pps_of out)) - 1)).
  { rewrite Ln. replace (Z.of_nat (length (bo_pourpoints out)) - 1) with (bo_nlabels out) by lia. apply Nm. }
  split; [exact Sl|]. split; [exact D|].
  split; [destruct Sl, Sh; lia|]. split; [destruct Sl, Sh; lia|].
  split.
  { apply nth_error_ext. intros k. rewrite nth_error_map.
    destruct (nth_error (bo_pourpoints out) k) as [p|] eqn:Ek.
    - assert (Lk : (k < length (bo_pourpoints out))%nat) by (apply nth_error_Some; congruence).
      destruct (X (Z.of_nat k)) as (p' & E1 & E2 & _); [lia| |].
      + destruct k as [|k]; [exact L0|]. apply Nm. lia.
      + rewrite Nat2Z.id in E1. assert (p' = p) by congruence. subst p'. cbn [option_map]. rewrite E2. symmetry.
        rewrite (nth_error_nth' _ 0) by (rewrite zseq_length; auto). rewrite zseq_nth by auto. reflexivity.
    - apply nth_error_None in Ek. symmetry. apply nth_error_None. rewrite zseq_length. auto. }
  assert (PP : pourpoints_ok (do_flowdir dout) (bo_labeled out) (pps_of out)).
  { split; auto. intros k c Hk. assert (P : pour_ok (do_flowdir dout) (bo_labeled out) (Z.of_nat k) c).
    { eapply lowest_pour; eauto. }
    split; auto. intros ->. destruct (background_pour _ _ c Sl D Ed P). auto. }
  split; auto. split; [intros E0; rewrite E0 in Ln; cbn [length] in Ln; destruct Nm as (_ & N0 & _); lia|]. split; auto.
  exists h. split; auto. split; auto. intros k c Hk. left. apply (Al k c Hk).
Qed.

Theorem chain_network : forall fuel fuel' t1 t5 dem dout t f accum out,
  size_ok sp dem -> dem32 dem -> dem_finite dem -> nrows dem * ncols dem <= 2 ^ 53 ->
  dem_process sp fuel t1 t5 dem = Ok dout ->
  accum = None \/ accum = Some (accum64 (do_accum dout)) ->
  bluespot_process sp cc fuel' t (do_depths dout) (do_flowdir dout) (Some f) accum (Some dem) = Ok out ->
  exists plain,
    (forall k, (length (rcells (do_flowdir dout)) <= k)%nat ->
      pourpoint_network k (do_flowdir dout) (bo_labeled out) (pps_of out) (Some 0) = Ok plain) /\
    good_network plain (pps_of out) /\
    exists n0, In n0 plain /\ g_id n0 = 0 /\ g_dstr n0 = None /\ on_edge (nrows dem) (ncols dem) (g_pix n0) /\
      flows_off (do_flowdir dout) (g_pix n0).
Proof.
  intros fuel fuel' t1 t5 dem dout t f accum out S H32 HF Big H HA HB.
  destruct (chain_points fuel fuel' t1 t5 dem dout t f accum out S H32 HF Big H HA HB)
    as (Sl & D & Hr & Hc & _ & PP & Ne & Ed & h & Po & LP).
  destruct (network_acyclic _ _ h _ Sl D Po LP Hr Hc) as (plain & P1 & P2 & P3 & P4 & P5).
  exists plain. split; auto. split; [repeat (split; [auto; fail|]); auto|].
  destruct (network_shape _ _ Sl D _ Ne PP) as (N & A & B & C & X).
  set (k := (length (rcells (do_flowdir dout)) + length (pps_of out))%nat).
  destruct (X k) as (o & b & Q1 & _); [unfold ncell, k; lia|unfold k; lia|].
  rewrite P1 in Q1 by (unfold k; lia). injection Q1 as ->.
  destruct (pps_of out) as [|c0 rest] eqn:Ep; [congruence|].
  destruct (at_node N (c0 :: rest) 0 A B 0 c0 eq_refl) as (n & Hn & E1 & E2). cbn in E2.
  destruct (off_single _ _ n (C n Hn) E2) as [_ Dn].
  destruct (C n Hn) as (_ & _ & Pk & Of). rewrite E2 in Pk. destruct (background_pour _ _ _ Sl D Ed Pk) as [G1 G2].
  exists (strip n). split; [apply in_map; auto|]. cbn [strip g_id g_dstr g_pix]. split; auto. split; auto.
  destruct (dem_flow sp fuel t1 t5 dem dout S H32 HF H) as ([Sf1 Sf2] & _). destruct Sl as [Sl1 Sl2].
  rewrite Sf1, Sf2, Sl1, Sl2. auto.
Qed.
End Chain.

(** ** Examples: a decidable check of the hypotheses *)
Definition check_pour (f lab : raster Z) (k : nat) (c : cell) : bool :=
  cell_in_raster (nrows lab) (ncols lab) c && (at_ lab c =? Z.of_nat k) &&
  match trace_downstream (length (rcells f)) f c with
  | Ok tr => forallb (fun d => negb (at_ lab d =? Z.of_nat k) || cell_eqb d c) tr
  | _ => false
  end && match k with O => offb f c | _ => true end.

Fixpoint check_pours (f lab : raster Z) (k : nat) (l : list cell) : bool :=
  match l with [] => true | c :: t => check_pour f lab k c && check_pours f lab (S k) t end.

Definition check_pps (f lab : raster Z) (pps : list cell) : bool :=
  forallb (fun c => (0 <=? at_ lab c) && (at_ lab c <=? Z.of_nat (length pps) - 1)) (rcells lab) && check_pours f lab 0 pps.

Lemma check_pps_ok : forall f lab pps, same_shape f lab -> fully_draining f -> check_pps f lab pps = true -> pourpoints_ok f lab pps.
Proof.
  intros f lab pps [E1 E2] Dr H. unfold check_pps in H. apply andb_prop in H. destruct H as [H1 H2]. split.
  - intros c I. rewrite forallb_forall in H1. specialize (H1 c (proj2 (in_cells_of _ _ _) I)). lia.
  - assert (G : forall l j, check_pours f lab j l = true -> forall k c, nth_error l k = Some c -> check_pour f lab (j + k) c = true).
    { induction l as [|x l IH]; intros j H k c Hk; [destruct k; discriminate|]. cbn [check_pours] in H. apply andb_prop in H.
      destruct H as [Ha Hb]. destruct k as [|k]; cbn in Hk.
      - injection Hk as <-. rewrite Nat.add_0_r. auto.
      - rewrite Nat.add_succ_r. apply (IH (S j) Hb k c Hk). }
    intros k c Hk. specialize (G pps 0%nat H2 k c Hk). cbn [Nat.add] in G. unfold check_pour in G.
    apply andb_prop in G. destruct G as [G G3]. apply andb_prop in G. destruct G as [G G2]. apply andb_prop in G. destruct G as [G0 G1].
    destruct (cell_in_raster_spec (nrows lab) (ncols lab) c) as [I|]; [|discriminate]. apply Z.eqb_eq in G1.
    assert (I' := I). rewrite <- E1, <- E2 in I'. destruct (trace_drains f c Dr I') as (path & ND & M & _ & T).
    rewrite T in G2.
    2:{ apply NoDup_incl_length; auto. intros x Hx. apply in_cells_of. apply M in Hx. apply passes_inside_r in Hx. exact Hx. }
    rewrite forallb_forall in G2. split.
    + split; [split; auto|]. intros d Pd Ld. apply M in Pd. specialize (G2 d Pd). rewrite Ld, Z.eqb_refl in G2. cbn [negb orb] in G2.
      unfold cell_eqb in G2. destruct d, c. cbn [fst snd] in G2. f_equal; lia.
    + intros ->. apply offb_spec; auto.
Qed.

(** Two bluespots whose streams meet on the way to a third, which runs off. *)
Definition net_flow : raster Z := of_rows 0
  [[7; 0; 0; 0; 1]; [6; 3; 4; 5; 2]; [6; 4; 4; 4; 2]; [6; 4; 4; 4; 2]; [6; 4; 4; 4; 2]; [5; 4; 4; 4; 3]].
Definition net_lab : raster Z := of_rows 0
  [[0; 0; 0; 0; 0]; [0; 1; 0; 2; 0]; [0; 0; 0; 0; 0]; [0; 0; 0; 0; 0]; [0; 0; 3; 0; 0]; [0; 0; 0; 0; 0]].
Definition net_pps : list cell := [(5, 0); (1, 1); (1, 3); (4, 2)].

Lemma net_ok : same_shape net_flow net_lab /\ fully_draining net_flow /\ net_pps <> [] /\ pourpoints_ok net_flow net_lab net_pps.
Proof.
  assert (Dr : fully_draining net_flow) by (apply check_draining_ok; vm_compute; reflexivity).
  assert (Sh : same_shape net_flow net_lab) by (split; reflexivity).
  split; [exact Sh|]. split; [exact Dr|]. split; [discriminate|]. apply (check_pps_ok _ _ _ Sh Dr). vm_compute. reflexivity.
Qed.

Lemma net_plain : pourpoint_network 30 net_flow net_lab net_pps (Some 0) = Ok
  [mkG 0 None false (5, 0) []; mkG 1 (Some 3) false (1, 1) []; mkG 2 (Some 3) false (1, 3) []; mkG 3 None false (4, 2) []].
Proof. vm_compute. reflexivity. Qed.

Lemma net_geo : geometric_pourpoint_network 30 net_flow net_lab net_pps (Some 0) = Ok
  [mkG 0 None false (5, 0) [(5, 0)]; mkG 3 None false (4, 2) [(4, 2); (5, 2)];
   mkG 4 (Some 3) true (2, 2) [(2, 2); (3, 2); (4, 2)];
   mkG 1 (Some 4) false (1, 1) [(1, 1); (2, 2)]; mkG 2 (Some 4) false (1, 3) [(1, 3); (2, 2)]].
Proof. vm_compute. reflexivity. Qed.

(** The background pour point must flow directly off: here it lies on the stream of a
    bluespot, and its whole geometry is pruned away. *)
Lemma net_inland : exists f lab pps, same_shape f lab /\ fully_draining f /\
  (forall k c, nth_error pps k = Some c -> has_label lab (Z.of_nat k) c) /\
  geometric_pourpoint_network 30 f lab pps (Some 0) = Exc IndexError.
Proof.
  exists net_flow, (of_rows 0 [[0; 0; 0; 0; 0]; [0; 1; 0; 0; 0]; [0; 0; 0; 0; 0]; [0; 0; 0; 0; 0]; [0; 0; 0; 0; 0]; [0; 0; 0; 0; 0]]),
    [(3, 2); (1, 1)].
  split; [split; reflexivity|]. split; [apply check_draining_ok; vm_compute; reflexivity|]. split; [|vm_compute; reflexivity].
  intros [|[|k]] c H; cbn in H; [| |destruct k; discriminate]; injection H as <-; (split; [unfold inside; cbn; lia|reflexivity]).
Qed.

Definition net_run (net : res (list gnode)) : res (list (@event Q)) :=
  ns <- net ;;
  rain_event QOps 9 (add_nodes empty_network
    (as_network 0%Q (fun i => inject_Z (if i =? 1 then 7 else if i =? 2 then 9 else 0)) (fun _ => inject_Z 5) ns)).
