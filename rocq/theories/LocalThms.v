(** * Proofs for C102 *)

From Coq Require Import QArith Qabs Lqa Lia Permutation.
From Verif Require Import Base Num Dict NetworkModel NetworkSpec NetworkProofs NetworkThms LocalSpec.
Local Open Scope Z_scope.

(** ** Depth *)
Inductive depth {T} (ns : list (@node T)) : nat -> Z -> Prop :=
| dp_root : forall n, In n ns -> n_dstr n = None -> depth ns 0 (n_id n)
| dp_step : forall n d k, In n ns -> n_dstr n = Some d -> depth ns k d -> depth ns (S k) (n_id n).

Lemma root_depth : forall {T} (ns : list (@node T)) a r, root_of ns a r -> exists k, depth ns k a.
Proof.
  intros T ns a r H. induction H as [n Hn D|n d r Hn D _ (k & IH)].
  - exists 0%nat. apply dp_root; auto.
  - exists (S k). eapply dp_step; eauto.
Qed.

Lemma depth_step : forall {T} (ns : list (@node T)) k n d, unique_ids ns -> In n ns -> n_dstr n = Some d ->
  depth ns k (n_id n) -> exists j, k = S j /\ depth ns j d.
Proof.
  intros T ns k n d U Hn D H. inversion H as [m Hm Dm E|m d' j Hm Dm Hd E]; subst.
  - assert (m = n) by (eapply NoDup_map_inj; eauto). subst m. congruence.
  - assert (m = n) by (eapply NoDup_map_inj; eauto). subst m.
    assert (d' = d) by congruence. subst d'. eauto.
Qed.

Lemma drains_depth : forall {T} (ns : list (@node T)) a b, unique_ids ns -> drains_to ns a b ->
  forall k, depth ns k a -> exists j, (j <= k)%nat /\ depth ns j b.
Proof.
  intros T ns a b U H. induction H as [a|n d b Hn D _ IH]; intros k K; [eauto|].
  destruct (depth_step ns k n d U Hn D K) as (j & -> & J).
  destruct (IH j J) as (i & L & I). exists i. split; [lia|auto].
Qed.

Lemma depth_det : forall {T} (ns : list (@node T)) k a, unique_ids ns -> depth ns k a -> forall j, depth ns j a -> j = k.
Proof.
  intros T ns k a U H. induction H as [n Hn D|n d k Hn D _ IH]; intros j J.
  - inversion J as [m Hm Dm E|m d' i Hm Dm Hd E]; subst; auto.
    assert (m = n) by (eapply NoDup_map_inj; eauto). congruence.
  - destruct (depth_step ns j n d U Hn D J) as (i & -> & I). f_equal. auto.
Qed.

Lemma no_cycle : forall {T} (ns : list (@node T)) n d r, unique_ids ns -> In n ns -> n_dstr n = Some d ->
  root_of ns (n_id n) r -> ~ drains_to ns d (n_id n).
Proof.
  intros T ns n d r U Hn D R H. destruct (root_depth _ _ _ R) as (k & K).
  destruct (depth_step ns k n d U Hn D K) as (j & -> & J).
  destruct (drains_depth _ _ _ U H j J) as (i & L & I).
  pose proof (depth_det _ _ _ U K i I). lia.
Qed.

Lemma drains_dec : forall {T} (ns : list (@node T)) a r b, unique_ids ns -> root_of ns a r ->
  drains_to ns a b \/ ~ drains_to ns a b.
Proof.
  intros T ns a r b U H. induction H as [n Hn D|n d r Hn D _ IH].
  - destruct (Z.eq_dec (n_id n) b) as [<-|N]; [left; constructor|]. right. intros X.
    inversion X as [a E|m d' b' Hm Dm Hd E]; subst; [congruence|].
    assert (m = n) by (eapply NoDup_map_inj; eauto). congruence.
  - destruct (Z.eq_dec (n_id n) b) as [<-|N]; [left; constructor|].
    destruct IH as [IH|IH]; [left; eapply dt_step; eauto|]. right. intros X.
    inversion X as [a E|m d' b' Hm Dm Hd E]; subst; [congruence|].
    assert (m = n) by (eapply NoDup_map_inj; eauto). congruence.
Qed.

(** The upstream nodes can be marked. *)
Lemma marked : forall {T} (ns : list (@node T)) id, unique_ids ns -> acyclic_closed ns ->
  exists up, forall n, In n ns -> (up (n_id n) = true <-> drains_to ns (n_id n) id).
Proof.
  intros T ns id U AC.
  assert (X : forall l : list (@node T), incl l ns -> exists up, forall n, In n l -> (up (n_id n) = true <-> drains_to ns (n_id n) id)).
  { induction l as [|n l IH]; intros I; [exists (fun _ => true); intros n []|].
    destruct IH as (up & P); [intros m Hm; apply I; right; auto|].
    assert (Hn : In n ns) by (apply I; left; auto). destruct (AC n Hn) as (r & R).
    destruct (drains_dec ns (n_id n) r id U R) as [D|D].
    all: try (exists (fun i => if i =? n_id n then true else up i); intros m [<-|Hm]; [rewrite Z.eqb_refl; tauto|];
      destruct (Z.eqb_spec (n_id m) (n_id n)) as [E|E]; [rewrite E; tauto|apply P; auto]; fail).
    all: exists (fun i => if i =? n_id n then false else up i); intros m [<-|Hm]; [rewrite Z.eqb_refl; split; [discriminate|contradiction]|];
      destruct (Z.eqb_spec (n_id m) (n_id n)) as [E|E]; [rewrite E; split; [discriminate|contradiction]|apply P; auto]. }
  apply X. apply incl_refl.
Qed.

(** ** One node *)
Lemma node_change : forall c t c' t' v s v' s' : Q,
  (v == if Qlt_le_dec c t then c else t)%Q -> (s == if Qlt_le_dec c t then t - c else 0)%Q ->
  (v' == if Qlt_le_dec c' t' then c' else t')%Q -> (s' == if Qlt_le_dec c' t' then t' - c' else 0)%Q ->
  (Qabs (v' - v) + Qabs (s' - s) <= Qabs (t' - t) + 2 * Qabs (c' - c))%Q.
Proof.
  intros c t c' t' v s v' s' V S V' S'.
  destruct (Qlt_le_dec c t), (Qlt_le_dec c' t'); rewrite V, S, V', S'; repeat apply Qabs_case; intros; lra.
Qed.

Lemma Qsum_abs : forall {A} (f g : A -> Q) l,
  (Qabs (Qsum (map f l) - Qsum (map g l)) <= Qsum (map (fun x => Qabs (f x - g x)) l))%Q.
Proof.
  intros A f g. induction l as [|x l IH]; cbn [map Qsum].
  - vm_compute. discriminate.
  - eapply Qle_trans; [|apply Qplus_le_r; exact IH].
    eapply Qle_trans; [|apply Qabs_triangle].
    apply Qle_lteq. right. apply Qabs_wd. ring.
Qed.

(** ** The balance of two networks with the same edges *)
Section Two.
Variables ns ns' : list (@node Q).
Hypothesis U : unique_ids ns.
Hypothesis AC : acyclic_closed ns.
Hypothesis F : Forall2 same_edges ns ns'.
Variables v s v' s' : Z -> Q.
Hypothesis B : balance ns v s.
Hypothesis B' : balance ns' v' s'.

Lemma place_root : forall a r, root_of ns a r -> root_of ns' a r.
Proof.
  intros a r H.
  assert (X : forall n, In n ns -> exists m, In m ns' /\ same_edges n m).
  { clear - F. induction F; intros n []; [subst; exists y; split; [left|]; auto|].
    destruct (IHf f n H0) as (m & P & Q). exists m. split; [right|]; auto. }
  induction H as [n Hn D|n d r Hn D _ IH]; destruct (X n Hn) as (m & Hm & E & D'); rewrite E.
  - apply ro_root; auto. congruence.
  - eapply ro_step; eauto. congruence.
Qed.

Lemma place_direct : forall id, map n_id (direct_upstream ns id) = map n_id (direct_upstream ns' id).
Proof.
  intros id. clear - F. unfold direct_upstream. induction F as [|x y l l' (E & D) G IH]; cbn; auto.
  assert (X : is_dstr id x = is_dstr id y) by (unfold is_dstr; rewrite D; reflexivity).
  rewrite X. destruct (is_dstr id y); cbn; auto. f_equal; auto.
Qed.

Definition dv (i : Z) : Q := Qabs (v' i - v i).
Definition ds (i : Z) : Q := Qabs (s' i - s i).

Lemma combine_place : forall p, In p (combine ns ns') -> In (fst p) ns /\ In (snd p) ns' /\ same_edges (fst p) (snd p).
Proof.
  intros p. clear - F. induction F as [|x y l l' S G IH]; cbn; [tauto|].
  intros [<-|H]; cbn; [auto|]. destruct (IH G H) as (P & Q & R). auto.
Qed.

Lemma local_change : forall p, In p (combine ns ns') ->
  (dv (n_id (fst p)) + ds (n_id (fst p)) <=
   input_change p + Qsum (map (fun u => ds (n_id u)) (direct_upstream ns (n_id (fst p)))))%Q.
Proof.
  intros (n & m) Hp. destruct (combine_place _ Hp) as (Hn & Hm & E & D). cbn [fst snd] in *.
  destruct (AC n Hn) as (r & R). destruct (B n Hn (ex_intro _ r R)) as [V S].
  assert (R' : exists r, root_of ns' (n_id m) r) by (exists r; rewrite <- E; apply place_root; auto).
  destruct (B' m Hm R') as [V' S']. rewrite <- E in V', S'. cbv zeta in V, S, V', S'.
  pose proof (node_change _ _ _ _ _ _ _ _ V S V' S') as N. unfold dv, ds.
  eapply Qle_trans; [exact N|]. unfold input_change. cbn [fst snd].
  rewrite <- (map_map n_id s'), <- place_direct, map_map.
  pose proof (Qsum_abs (fun u => s' (n_id u)) (fun u => s (n_id u)) (direct_upstream ns (n_id n))) as A.
  cbv beta in A.
  set (x := Qsum (map (fun u => s' (n_id u)) (direct_upstream ns (n_id n)))) in *.
  set (y := Qsum (map (fun u => s (n_id u)) (direct_upstream ns (n_id n)))) in *.
  assert (T : (Qabs (n_water m + x - (n_water n + y)) <= Qabs (n_water m - n_water n) + Qabs (x - y))%Q).
  { eapply Qle_trans; [|apply Qabs_triangle]. apply Qle_lteq. right. apply Qabs_wd. ring. }
  lra.
Qed.

Lemma combine_filter : forall (f : @node Q -> Q) (q : @node Q -> bool),
  Qsum (map (fun p => f (fst p)) (filter (fun p => q (fst p)) (combine ns ns'))) = Qsum (map f (filter q ns)).
Proof.
  intros f q. clear - F. induction F as [|x y l l' S G IH]; cbn; auto.
  destruct (q x); cbn; rewrite (IH G); reflexivity.
Qed.

Lemma ds_nonneg : forall l : list (@node Q), (0 <= Qsum (map (fun u => ds (n_id u)) l))%Q.
Proof. intros l. apply Qsum_nonneg. intros x Hx. apply in_map_iff in Hx. destruct Hx as (u & <- & _). apply Qabs_nonneg. Qed.

(** Sums over a set of nodes that holds all nodes upstream of its nodes; [out] are those of them that
    may spill out of the set. *)
Lemma set_change : forall (q o : @node Q -> bool),
  (forall n u, In n ns -> q n = true -> In u ns -> n_dstr u = Some (n_id n) -> q u = true /\ o u = false) ->
  (forall u, In u ns -> o u = true -> q u = true) ->
  (forall u d, In u ns -> q u = true -> o u = false -> n_dstr u = Some d -> exists n, In n ns /\ n_id n = d /\ q n = true) ->
  (Qsum (map (fun n => dv (n_id n)) (filter q ns)) + Qsum (map (fun n => ds (n_id n)) (filter o ns)) <=
   Qsum (map input_change (filter (fun p => q (fst p)) (combine ns ns'))))%Q.
Proof.
  intros q o CL OQ IN.
  pose proof (Qsum_le (fun p => (dv (n_id (fst p)) + ds (n_id (fst p)))%Q)
    (fun p => (input_change p + Qsum (map (fun u => ds (n_id u)) (direct_upstream ns (n_id (fst p)))))%Q)
    (filter (fun p => q (fst p)) (combine ns ns'))) as L.
  assert (L' := L (fun p Hp => local_change p (proj1 (proj1 (filter_In _ _ _) Hp)))). clear L.
  rewrite !Qsum_plus in L'.
  rewrite (combine_filter (fun n => dv (n_id n)) q) in L'.
  rewrite (combine_filter (fun n => ds (n_id n)) q) in L'.
  rewrite (combine_filter (fun n => Qsum (map (fun u => ds (n_id u)) (direct_upstream ns (n_id n)))) q) in L'.
  set (l := filter (fun u => q u && negb (o u)) ns).
  assert (D : (Qsum (map (fun n => Qsum (map (fun u => ds (n_id u)) (direct_upstream ns (n_id n)))) (filter q ns)) ==
     Qsum (map (fun n => Qsum (map (fun u => ds (n_id u)) (filter (is_dstr (n_id n)) l))) (filter q ns)))%Q).
  { apply Qsum_ext. intros n Hn. apply filter_In in Hn. destruct Hn as [Hn Qn].
    assert (E : direct_upstream ns (n_id n) = filter (is_dstr (n_id n)) l); [|rewrite E; reflexivity].
    unfold direct_upstream, l.
    assert (G : forall k, incl k ns -> filter (is_dstr (n_id n)) k = filter (is_dstr (n_id n)) (filter (fun u => q u && negb (o u)) k)).
    { induction k as [|u k IH]; intros I; [reflexivity|].
      assert (Hu : In u ns) by (apply I; left; auto).
      assert (Ik : incl k ns) by (intros x Hx; apply I; right; auto).
      cbn [filter]. destruct (is_dstr (n_id n) u) eqn:S.
      - unfold is_dstr in S. destruct (n_dstr u) as [d|] eqn:Du; [|discriminate S]. apply Z.eqb_eq in S. subst d.
        destruct (CL n u Hn Qn Hu Du) as [-> ->]. cbn [andb negb filter].
        unfold is_dstr at 2. rewrite Du, Z.eqb_refl. f_equal. apply IH; auto.
      - destruct (q u && negb (o u)); cbn [filter]; [rewrite S|]; apply IH; auto. }
    apply G. apply incl_refl. }
  assert (NDq : NoDup (map n_id (filter q ns))) by (apply NoDup_map_filter; exact U).
  rewrite D in L'. rewrite double_count in L'; auto.
  2:{ intros u d Hu Du. unfold l in Hu. apply filter_In in Hu. destruct Hu as [Hu Q2]. apply andb_prop in Q2.
      destruct Q2 as [Q1 Q2]. apply negb_true_iff in Q2. destruct (IN u d Hu Q1 Q2 Du) as (n & Hn & <- & Qn).
      apply in_map. apply filter_In. auto. }
  assert (M : (Qsum (map (fun u => ds (n_id u)) (filter (fun u => negb (is_root u)) l)) <= Qsum (map (fun u => ds (n_id u)) l))%Q).
  { rewrite sum_filter_indicator. apply Qsum_le. intros u _. destruct (negb (is_root u)); [apply Qle_refl|apply Qabs_nonneg]. }
  assert (SP : (Qsum (map (fun n => ds (n_id n)) (filter q ns)) ==
     Qsum (map (fun n => ds (n_id n)) l) + Qsum (map (fun n => ds (n_id n)) (filter o ns)))%Q).
  { unfold l. rewrite !sum_filter_indicator, <- Qsum_plus. apply Qsum_ext. intros u Hu.
    destruct (o u) eqn:O; [rewrite (OQ u Hu O); cbn; ring|]. destruct (q u); cbn; ring. }
  rewrite SP in L'. lra.
Qed.

Lemma upstream_change : forall n up, In n ns ->
  (forall m, In m ns -> (up (n_id m) = true <-> drains_to ns (n_id m) (n_id n))) ->
  (Qsum (map (fun m => dv (n_id m)) (filter (fun m => up (n_id m)) ns)) + ds (n_id n) <=
   Qsum (map input_change (filter (fun p => up (n_id (fst p))) (combine ns ns'))))%Q.
Proof.
  intros n up Hn UP.
  pose proof (set_change (fun m => up (n_id m)) (fun m => n_id n =? n_id m)) as C.
  assert (one : (Qsum (map (fun m => ds (n_id m)) (filter (fun m => (n_id n =? n_id m)%Z) ns)) == ds (n_id n))%Q).
  { rewrite sum_filter_indicator.
    rewrite (Qsum_ext _ (fun m => if (n_id n =? n_id m)%Z then ds (n_id n) else 0%Q)).
    - apply one_downstream; auto. apply in_map; auto.
    - intros m _. destruct (Z.eqb_spec (n_id n) (n_id m)) as [<-|N]; reflexivity. }
  rewrite one in C. apply C.
  - intros m u Hm Qm Hu Du. apply UP in Qm; auto. split.
    + apply UP; auto. eapply dt_step; eauto.
    + apply Z.eqb_neq. intros E. assert (u = n) by (eapply NoDup_map_inj; eauto). subst u.
      destruct (AC n Hn) as (r & R). apply (no_cycle ns n (n_id m) r U Hn Du R Qm).
  - intros u Hu E. apply Z.eqb_eq in E. apply UP; auto. rewrite E. constructor.
  - intros u d Hu Qu Ou Du. apply UP in Qu; auto. apply Z.eqb_neq in Ou.
    inversion Qu as [a E|m d' b Hm Dm Hd E]; subst; [congruence|].
    assert (m = u) by (eapply NoDup_map_inj; eauto). subst m. assert (d' = d) by congruence. subst d'.
    assert (X : exists k, In k ns /\ n_id k = d).
    { inversion Hd as [a E1 E2|k d'' b Hk Dk Hb E1 E2]; subst; eauto. }
    destruct X as (k & Hk & <-). exists k. split; [auto|]. split; [auto|]. apply UP; auto.
Qed.

Lemma total_change :
  (Qsum (map (fun m => dv (n_id m)) ns) + Qsum (map (fun m => ds (n_id m)) (filter is_root ns)) <=
   Qsum (map input_change (combine ns ns')))%Q.
Proof.
  pose proof (set_change (fun _ => true) is_root) as C.
  assert (T : forall {A} (l : list A), filter (fun _ => true) l = l) by (intros A l; induction l; cbn; congruence).
  rewrite !T in C. apply C.
  - intros n u Hn _ Hu Du. split; auto. unfold is_root. rewrite Du. reflexivity.
  - auto.
  - intros u d Hu _ _ Du. destruct (AC u Hu) as (r & R).
    inversion R as [m Hm Dm E|m d' r0 Hm Dm Hr E]; subst.
    + assert (m = u) by (eapply NoDup_map_inj; eauto). congruence.
    + assert (m = u) by (eapply NoDup_map_inj; eauto). subst m. assert (d' = d) by congruence. subst d'.
      destruct (root_of_node _ _ _ Hr) as (k & Hk & Ek). eauto.
Qed.
End Two.

(** ** On the results of process *)
Lemma process_balance : forall (fs : list (@node Q)) fuel out, unique_ids fs -> acyclic_closed fs ->
  process QOps fuel fs = Ok out ->
  map fst out = fs /\ exists v s, balance fs v s /\
  forall p, In p out -> out_vol p = v (n_id (fst p)) /\ out_spill p = s (n_id (fst p)).
Proof.
  intros fs fuel out UI AC H. destruct (process_spec _ _ _ _ H) as (M & evs & E & A & B).
  destruct (all_written _ _ _ _ UI AC H) as [M' W].
  rewrite index_unique in E by exact UI. split; [exact M'|].
  exists (lookup evs e_vol), (lookup evs e_spill). split; [exact (run_balance fs UI _ _ E)|].
  destruct (run_facts fs UI _ _ E) as (rv & _ & _ & _ & _ & ND).
  intros [n o] Hp. destruct (W n o Hp) as (e & -> & Ei). cbn. rewrite <- Ei.
  rewrite !lookup_in; auto; apply (A n e Hp).
Qed.

Lemma place_acyclic : forall ns ns', Forall2 same_edges ns ns' -> acyclic_closed ns -> acyclic_closed ns'.
Proof.
  intros ns ns' F AC m Hm.
  assert (X : exists n, In n ns /\ same_edges n m).
  { clear - F Hm. induction F; destruct Hm; subst.
    - exists x. split; [left|]; auto.
    - destruct (IHF H0) as (n & P & Q). exists n. split; [right|]; auto. }
  destruct X as (n & Hn & E & _). destruct (AC n Hn) as (r & R). exists r. rewrite <- E. eapply place_root; eauto.
Qed.

Lemma place_ids : forall ns ns', Forall2 same_edges ns ns' -> map n_id ns = map n_id ns'.
Proof. intros ns ns' F. induction F as [|x y l l' (E & _) G IH]; cbn; congruence. Qed.

Lemma out_filter : forall (out out' : list (@node Q * option (@event Q))) (v s v' s' : Z -> Q) (q : @node Q -> bool),
  Forall2 same_edges (map fst out) (map fst out') ->
  (forall p, In p out -> out_vol p = v (n_id (fst p)) /\ out_spill p = s (n_id (fst p))) ->
  (forall p, In p out' -> out_vol p = v' (n_id (fst p)) /\ out_spill p = s' (n_id (fst p))) ->
  Qsum (map vol_change (filter (fun p => q (fst (fst p))) (combine out out'))) =
    Qsum (map (fun m => dv v v' (n_id m)) (filter q (map fst out))) /\
  Qsum (map spill_change (filter (fun p => q (fst (fst p))) (combine out out'))) =
    Qsum (map (fun m => ds s s' (n_id m)) (filter q (map fst out))).
Proof.
  induction out as [|p out IH]; intros [|p' out'] v s v' s' q F V V'; try (inversion F; fail); [auto|].
  cbn [map] in F. inversion F as [|a b l l' (E & D) G]; subst.
  destruct (IH out' v s v' s' q G) as [I J]; [intros; apply V; right; auto|intros; apply V'; right; auto|].
  destruct (V p (or_introl eq_refl)) as [A1 A2]. destruct (V' p' (or_introl eq_refl)) as [A1' A2'].
  cbn [combine filter map fst]. destruct (q (fst p)); cbn [map Qsum]; [|auto].
  rewrite I, J. unfold vol_change at 1, spill_change at 1, dv at 1, ds at 2. cbn [fst snd].
  rewrite A1, A1', A2, A2', E. auto.
Qed.

Lemma process_upstream_change : forall (fs fs' : list (@node Q)) fuel fuel' out out',
  unique_ids fs -> acyclic_closed fs -> Forall2 same_edges fs fs' ->
  process QOps fuel fs = Ok out -> process QOps fuel' fs' = Ok out' ->
  forall p, In p (combine out out') ->
  forall up, (forall m, In m fs -> (up (n_id m) = true <-> drains_to fs (n_id m) (n_id (fst (fst p))))) ->
  (Qsum (map vol_change (filter (fun p => up (n_id (fst (fst p)))) (combine out out'))) + spill_change p <=
   Qsum (map input_change (filter (fun p => up (n_id (fst p))) (combine fs fs'))))%Q.
Proof.
  intros fs fs' fuel fuel' out out' U AC F H H' p Hp up UP.
  destruct (process_balance _ _ _ U AC H) as (M & v & s & B & V).
  assert (U' : unique_ids fs') by (unfold unique_ids; rewrite <- (place_ids _ _ F); exact U).
  destruct (process_balance _ _ _ U' (place_acyclic _ _ F AC) H') as (M' & v' & s' & B' & V').
  assert (FO : Forall2 same_edges (map fst out) (map fst out')) by (rewrite M, M'; exact F).
  destruct (out_filter out out' v s v' s' (fun m => up (n_id m)) FO V V') as [-> _]. rewrite M.
  destruct p as [p p']. cbn [fst] in UP.
  assert (Hn : In (fst p) fs) by (rewrite <- M; apply in_map; eapply in_combine_l; eauto).
  pose proof (upstream_change fs fs' U AC F v s v' s' B B' (fst p) up Hn UP) as C.
  assert (E : n_id (fst p') = n_id (fst p)).
  { clear - FO Hp. revert out' FO Hp. induction out as [|a out IH]; intros [|b out'] FO Hp; cbn in Hp; try tauto.
    inversion FO as [|x y l l' (E & _) G]; subst. destruct Hp as [Hp|Hp]; [inversion Hp; subst; auto|]. eapply IH; eauto. }
  unfold spill_change. cbn [fst snd].
  rewrite (proj2 (V p (in_combine_l _ _ _ _ Hp))), (proj2 (V' p' (in_combine_r _ _ _ _ Hp))), E. exact C.
Qed.

Lemma process_total_change : forall (fs fs' : list (@node Q)) fuel fuel' out out',
  unique_ids fs -> acyclic_closed fs -> Forall2 same_edges fs fs' ->
  process QOps fuel fs = Ok out -> process QOps fuel' fs' = Ok out' ->
  (Qsum (map vol_change (combine out out')) +
   Qsum (map spill_change (filter (fun p => is_root (fst (fst p))) (combine out out'))) <=
   Qsum (map input_change (combine fs fs')))%Q.
Proof.
  intros fs fs' fuel fuel' out out' U AC F H H'.
  destruct (process_balance _ _ _ U AC H) as (M & v & s & B & V).
  assert (U' : unique_ids fs') by (unfold unique_ids; rewrite <- (place_ids _ _ F); exact U).
  destruct (process_balance _ _ _ U' (place_acyclic _ _ F AC) H') as (M' & v' & s' & B' & V').
  assert (FO : Forall2 same_edges (map fst out) (map fst out')) by (rewrite M, M'; exact F).
  destruct (out_filter out out' v s v' s' (fun _ => true) FO V V') as [E _].
  destruct (out_filter out out' v s v' s' is_root FO V V') as [_ E'].
  assert (T : forall {A} (l : list A), filter (fun _ => true) l = l) by (intros A l; induction l; cbn; congruence).
  rewrite !T in E. rewrite E, E', M. apply (total_change fs fs' U AC F v s v' s' B B').
Qed.

Lemma process_elsewhere : forall (fs fs' : list (@node Q)) fuel fuel' out out',
  unique_ids fs -> acyclic_closed fs -> Forall2 same_edges fs fs' ->
  process QOps fuel fs = Ok out -> process QOps fuel' fs' = Ok out' ->
  forall p p', In (p, p') (combine out out') ->
  (forall m m', In (m, m') (combine fs fs') -> drains_to fs (n_id m) (n_id (fst p)) ->
     n_water m == n_water m' /\ n_cap m == n_cap m')%Q ->
  (out_vol p == out_vol p' /\ out_spill p == out_spill p')%Q.
Proof.
  intros fs fs' fuel fuel' out out' U AC F H H' p p' Hp S.
  destruct (marked fs (n_id (fst p)) U AC) as (up & UP).
  pose proof (process_upstream_change fs fs' fuel fuel' out out' U AC F H H' (p, p') Hp up UP) as C.
  assert (Z0 : (Qsum (map input_change (filter (fun p => up (n_id (fst p))) (combine fs fs'))) == 0)%Q).
  { rewrite (Qsum_ext _ (fun _ => 0%Q)); [apply Qsum_zero|]. intros [m m'] Hm. apply filter_In in Hm.
    destruct Hm as [Hm Um]. cbn [fst] in Um. apply UP in Um; [|eapply in_combine_l; eauto].
    destruct (S m m' Hm Um) as [E1 E2]. unfold input_change. cbn [fst snd]. rewrite E1, E2.
    repeat apply Qabs_case; intros; lra. }
  rewrite Z0 in C.
  assert (Hup : up (n_id (fst p)) = true).
  { destruct (process_balance _ _ _ U AC H) as (M & _). apply UP; [|constructor].
    rewrite <- M. apply in_map. eapply in_combine_l; eauto. }
  assert (VN : forall l : list ((@node Q * option (@event Q)) * (@node Q * option (@event Q))),
     In (p, p') l -> (vol_change (p, p') <= Qsum (map vol_change l))%Q).
  { induction l as [|a l IH]; intros [].
    - subst a. cbn [map Qsum].
      assert (0 <= Qsum (map vol_change l))%Q by (apply Qsum_nonneg; intros x Hx; apply in_map_iff in Hx; destruct Hx as (y & <- & _); apply Qabs_nonneg).
      lra.
    - cbn [map Qsum]. pose proof (Qabs_nonneg (out_vol (snd a) - out_vol (fst a))) as N. specialize (IH H0).
      unfold vol_change at 2. lra. }
  assert (X : (vol_change (p, p') <= Qsum (map vol_change (filter (fun p => up (n_id (fst (fst p)))) (combine out out'))))%Q).
  { apply VN. apply filter_In. split; auto. }
  set (z := Qsum (map vol_change (filter (fun p => up (n_id (fst (fst p)))) (combine out out')))) in *.
  change (vol_change (p, p')) with (Qabs (out_vol p' - out_vol p)) in X.
  change (spill_change (p, p')) with (Qabs (out_spill p' - out_spill p)) in C.
  pose proof (Qabs_nonneg (out_spill p' - out_spill p)) as N1. pose proof (Qabs_nonneg (out_vol p' - out_vol p)) as N2.
  assert (A1 : (Qabs (out_vol p' - out_vol p) <= 0)%Q) by lra.
  assert (A2 : (Qabs (out_spill p' - out_spill p) <= 0)%Q) by lra.
  apply Qabs_Qle_condition in A1. apply Qabs_Qle_condition in A2. split; lra.
Qed.
