(** * Proofs for C104 *)

From Coq Require Import QArith Qabs Lqa Lia.
From Verif Require Import Base Num Dict NetworkModel NetworkSpec NetworkProofs NetworkThms LocalSpec LocalThms CutSpec.
Local Open Scope Z_scope.

Lemma filter_twice : forall {A} (f : A -> Q) (a p : A -> bool) l,
  (Qsum (map f (filter a (filter p l))) == Qsum (map (fun x => if p x then if a x then f x else 0 else 0) l))%Q.
Proof.
  intros A f a p l. rewrite sum_filter_indicator.
  rewrite (sum_filter_indicator p). reflexivity.
Qed.

Section One.
Variable ns : list (@node Q).
Hypothesis U : unique_ids ns.
Hypothesis AC : acyclic_closed ns.
Variables v s : Z -> Q.
Hypothesis B : balance ns v s.

Lemma spill_ge : forall n, In n ns ->
  (0 <= s (n_id n))%Q /\
  (n_water n + Qsum (map (fun u => s (n_id u)) (direct_upstream ns (n_id n))) - n_cap n <= s (n_id n))%Q /\
  ((0 < s (n_id n))%Q -> (s (n_id n) == n_water n + Qsum (map (fun u => s (n_id u)) (direct_upstream ns (n_id n))) - n_cap n)%Q).
Proof.
  intros n Hn. destruct (B n Hn (AC n Hn)) as [_ S]. cbv zeta in S.
  destruct (Qlt_le_dec _ _) as [L|L]; rewrite S; split; try split; intros; lra.
Qed.

(** The sums over a part, split into node id and the others. *)
Lemma part_split : forall n q, In n ns ->
  (Qsum (map (fun m => s (n_id m)) (filter (fun m => q (n_id m)) ns)) ==
   Qsum (map (fun m => s (n_id m)) (filter (fun m => q (n_id m) && negb (n_id n =? n_id m)) ns)) + (if q (n_id n) then s (n_id n) else 0))%Q.
Proof.
  intros n q Hn. rewrite !sum_filter_indicator.
  rewrite <- (one_downstream ns (n_id n) (if q (n_id n) then s (n_id n) else 0%Q) U) by (apply in_map; auto).
  rewrite <- Qsum_plus. apply Qsum_ext. intros m _.
  destruct (Z.eqb_spec (n_id n) (n_id m)) as [<-|N]; destruct (q _); cbn; ring.
Qed.

Lemma inner_count : forall n q, In n ns -> part_above ns (n_id n) q ->
  (Qsum (map (fun m => Qsum (map (fun u => s (n_id u)) (filter (is_dstr (n_id m)) (filter (fun m => q (n_id m) && negb (n_id n =? n_id m)) ns))))
     (filter (fun m => q (n_id m)) ns)) ==
   Qsum (map (fun m => s (n_id m)) (filter (fun m => q (n_id m) && negb (n_id n =? n_id m)) ns)))%Q.
Proof.
  intros n q Hn P.
  assert (X : forall u, In u (filter (fun m => q (n_id m) && negb (n_id n =? n_id m)) ns) -> exists d, n_dstr u = Some d /\ q d = true /\ In u ns).
  { intros u Hu. apply filter_In in Hu. destruct Hu as [Hu Q1]. apply andb_prop in Q1. destruct Q1 as [Q1 Q2].
    apply negb_true_iff, Z.eqb_neq in Q2. destruct (P u Hu Q1) as [E|(d & D & Qd)]; [congruence|]. exists d. auto. }
  rewrite double_count.
  - assert (E : filter (fun u => negb (is_root u)) (filter (fun m => q (n_id m) && negb (n_id n =? n_id m)) ns) =
      filter (fun m => q (n_id m) && negb (n_id n =? n_id m)) ns); [|rewrite E; reflexivity].
    revert X. generalize (filter (fun m => q (n_id m) && negb (n_id n =? n_id m)) ns). intros l X.
    induction l as [|u l IH]; [reflexivity|]. cbn [filter]. destruct (X u (or_introl eq_refl)) as (d & D & _).
    unfold is_root at 1. rewrite D. cbn [negb]. f_equal. apply IH. intros w Hw. apply X. right. auto.
  - apply NoDup_map_filter. exact U.
  - intros u d Hu D. destruct (X u Hu) as (d' & D' & Qd & Hu'). assert (d' = d) by congruence. subst d'.
    destruct (AC u Hu') as (r & R). inversion R as [m Hm Dm E|m d' r0 Hm Dm Hr E]; subst.
    + assert (m = u) by (eapply NoDup_map_inj; eauto). congruence.
    + assert (m = u) by (eapply NoDup_map_inj; eauto). subst m. assert (d' = d) by congruence. subst d'.
      destruct (root_of_node _ _ _ Hr) as (k & Hk & <-). apply in_map. apply filter_In. auto.
Qed.

Lemma surplus_spilled : forall n q, In n ns -> part_above ns (n_id n) q -> (surplus ns q <= s (n_id n))%Q.
Proof.
  intros n q Hn P. pose proof (inner_count n q Hn P) as I. pose proof (part_split n q Hn) as S. unfold surplus.
  pose proof (Qsum_le (fun m => ((n_water m - n_cap m) +
      Qsum (map (fun u => s (n_id u)) (filter (is_dstr (n_id m)) (filter (fun m => q (n_id m) && negb (n_id n =? n_id m)) ns))))%Q)
    (fun m => s (n_id m)) (filter (fun m => q (n_id m)) ns)) as L.
  assert (L' : (Qsum (map (fun m => ((n_water m - n_cap m) +
      Qsum (map (fun u => s (n_id u)) (filter (is_dstr (n_id m)) (filter (fun m => q (n_id m) && negb (n_id n =? n_id m)) ns))))%Q)
      (filter (fun m => q (n_id m)) ns)) <= Qsum (map (fun m => s (n_id m)) (filter (fun m => q (n_id m)) ns)))%Q).
  { apply L. intros m Hm. apply filter_In in Hm. destruct Hm as [Hm _]. destruct (spill_ge m Hm) as (_ & G & _).
    assert (X : (Qsum (map (fun u => s (n_id u)) (filter (is_dstr (n_id m)) (filter (fun m => q (n_id m) && negb (n_id n =? n_id m)%Z) ns))) <=
      Qsum (map (fun u => s (n_id u)) (direct_upstream ns (n_id m))))%Q).
    { unfold direct_upstream. rewrite filter_twice, sum_filter_indicator. apply Qsum_le. intros u Hu.
      destruct (q (n_id u) && negb (n_id n =? n_id u)); [apply Qle_refl|].
      destruct (is_dstr (n_id m) u); [apply (spill_ge u Hu)|apply Qle_refl]. }
    lra. }
  rewrite Qsum_plus, I, S in L'.
  destruct (spill_ge n Hn) as (N & _). destruct (q (n_id n)); lra.
Qed.

(** ** The part that overflows *)
Inductive wet (id : Z) : Z -> Prop :=
| wet_here : (0 < s id)%Q -> wet id id
| wet_step : forall n d, In n ns -> n_dstr n = Some d -> (0 < s (n_id n))%Q -> wet id d -> wet id (n_id n).

Lemma wet_dec : forall id a r, root_of ns a r -> wet id a \/ ~ wet id a.
Proof.
  intros id a r H. induction H as [n Hn D|n d r Hn D _ IH].
  - destruct (Qlt_le_dec 0 (s (n_id n))) as [L|L].
    + destruct (Z.eq_dec (n_id n) id) as [<-|N]; [left; constructor; auto|]. right. intros X.
      inversion X as [P E|m d' Hm Dm P Hd E]; subst; [congruence|].
      assert (m = n) by (eapply NoDup_map_inj; eauto). congruence.
    + right. intros X. inversion X as [P E|m d' Hm Dm P Hd E]; subst; lra || (rewrite E in P; lra).
  - destruct (Qlt_le_dec 0 (s (n_id n))) as [L|L].
    + destruct (Z.eq_dec (n_id n) id) as [<-|N]; [left; constructor; auto|].
      destruct IH as [IH|IH]; [left; eapply wet_step; eauto|]. right. intros X.
      inversion X as [P E|m d' Hm Dm P Hd E]; subst; [congruence|].
      assert (m = n) by (eapply NoDup_map_inj; eauto). subst m. assert (d' = d) by congruence. subst d'. auto.
    + right. intros X. inversion X as [P E|m d' Hm Dm P Hd E]; subst; lra || (rewrite E in P; lra).
Qed.

Lemma mark : forall (P : Z -> Prop), (forall n, In n ns -> P (n_id n) \/ ~ P (n_id n)) ->
  exists up, forall n, In n ns -> (up (n_id n) = true <-> P (n_id n)).
Proof.
  intros P D.
  assert (X : forall l : list (@node Q), incl l ns -> exists up, forall n, In n l -> (up (n_id n) = true <-> P (n_id n))).
  { induction l as [|n l IH]; intros I; [exists (fun _ => true); intros n []|].
    destruct IH as (up & K); [intros m Hm; apply I; right; auto|].
    assert (Hn : In n ns) by (apply I; left; auto).
    destruct (D n Hn) as [Y|Y].
    - exists (fun i => if i =? n_id n then true else up i). intros m [<-|Hm]; [rewrite Z.eqb_refl; tauto|].
      destruct (Z.eqb_spec (n_id m) (n_id n)) as [E|E]; [rewrite E; tauto|apply K; auto].
    - exists (fun i => if i =? n_id n then false else up i). intros m [<-|Hm]; [rewrite Z.eqb_refl; split; [discriminate|contradiction]|].
      destruct (Z.eqb_spec (n_id m) (n_id n)) as [E|E]; [rewrite E; split; [discriminate|contradiction]|apply K; auto]. }
  apply X. apply incl_refl.
Qed.

Lemma wet_drains : forall id a, wet id a -> drains_to ns a id.
Proof. intros id a H. induction H; [constructor|eapply dt_step; eauto]. Qed.
Lemma wet_pos : forall id a, wet id a -> (0 < s a)%Q.
Proof. intros id a H. destruct H; auto. Qed.

Lemma surplus_reached : forall n, In n ns -> (0 < s (n_id n))%Q ->
  exists q, part_above ns (n_id n) q /\ q (n_id n) = true /\ (s (n_id n) == surplus ns q)%Q.
Proof.
  intros n Hn L0.
  destruct (mark (wet (n_id n))) as (q & Q).
  { intros m Hm. destruct (AC m Hm) as (r & R). eapply wet_dec; eauto. }
  assert (P : part_above ns (n_id n) q).
  { intros m Hm Qm. apply Q in Qm; auto. inversion Qm as [X E|k d Hk D X W E]; subst; [left; congruence|].
    assert (k = m) by (eapply NoDup_map_inj; eauto). subst k. right. exists d. split; auto.
    assert (Y : exists k, In k ns /\ n_id k = d).
    { inversion W; subst; eauto. }
    destruct Y as (k & Hk' & <-). apply Q; auto. }
  assert (Qn : q (n_id n) = true) by (apply Q; auto; constructor; auto).
  exists q. split; [exact P|]. split; [exact Qn|].
  pose proof (inner_count n q Hn P) as I. pose proof (part_split n q Hn) as S. rewrite Qn in S. unfold surplus.
  assert (E : (Qsum (map (fun m => s (n_id m)) (filter (fun m => q (n_id m)) ns)) ==
    Qsum (map (fun m => ((n_water m - n_cap m) +
      Qsum (map (fun u => s (n_id u)) (filter (is_dstr (n_id m)) (filter (fun m => q (n_id m) && negb (n_id n =? n_id m)) ns))))%Q)
      (filter (fun m => q (n_id m)) ns)))%Q).
  { apply Qsum_ext. intros m Hm. apply filter_In in Hm. destruct Hm as [Hm Qm]. apply Q in Qm; auto.
    destruct (spill_ge m Hm) as (_ & _ & G). specialize (G (wet_pos _ _ Qm)).
    assert (X : (Qsum (map (fun u => s (n_id u)) (filter (is_dstr (n_id m)) (filter (fun m => q (n_id m) && negb (n_id n =? n_id m)%Z) ns))) ==
      Qsum (map (fun u => s (n_id u)) (direct_upstream ns (n_id m))))%Q).
    { unfold direct_upstream. rewrite filter_twice, sum_filter_indicator. apply Qsum_ext. intros u Hu.
      destruct (is_dstr (n_id m) u) eqn:D; [|destruct (q (n_id u) && negb (n_id n =? n_id u)); reflexivity].
      assert (Du : n_dstr u = Some (n_id m)).
      { unfold is_dstr in D. destruct (n_dstr u) as [d|]; [|discriminate D]. apply Z.eqb_eq in D. congruence. }
      assert (Nu : n_id n <> n_id u).
      { intros E. assert (n = u) by (eapply NoDup_map_inj; eauto). subst u. destruct (AC n Hn) as (r & R).
        apply (no_cycle ns n (n_id m) r U Hn Du R). apply wet_drains. exact Qm. }
      apply Z.eqb_neq in Nu. rewrite Nu. cbn [negb]. rewrite andb_true_r.
      destruct (q (n_id u)) eqn:Qu; [reflexivity|].
      destruct (spill_ge u Hu) as (Z0 & _). destruct (Qlt_le_dec 0 (s (n_id u))) as [L|L]; [|lra].
      assert (W : wet (n_id n) (n_id u)) by (eapply wet_step; eauto). apply Q in W; auto. congruence. }
    rewrite X. rewrite G at 1. ring. }
  rewrite Qsum_plus, I, S in E. lra.
Qed.
End One.

(** ** On the results of process *)
Lemma process_cut : forall (fs : list (@node Q)) fuel out, unique_ids fs -> acyclic_closed fs -> process QOps fuel fs = Ok out ->
  forall p, In p out ->
  (0 <= out_spill p)%Q /\
  (forall q, part_above fs (n_id (fst p)) q -> surplus fs q <= out_spill p)%Q /\
  ((0 < out_spill p)%Q -> exists q, part_above fs (n_id (fst p)) q /\ q (n_id (fst p)) = true /\ (out_spill p == surplus fs q)%Q).
Proof.
  intros fs fuel out U AC H p Hp. destruct (process_balance _ _ _ U AC H) as (M & v & s & B & V).
  destruct (V p Hp) as [_ ->]. assert (Hn : In (fst p) fs) by (rewrite <- M; apply in_map; auto).
  split; [apply (spill_ge fs AC v s B _ Hn)|]. split.
  - intros q P. eapply surplus_spilled; eauto.
  - intros L. eapply surplus_reached; eauto.
Qed.

(** ** Two and three networks *)
Lemma part_edges : forall ns ns' id q, Forall2 same_edges ns ns' -> part_above ns' id q -> part_above ns id q.
Proof.
  intros ns ns' id q F P m Hm Qm.
  assert (X : exists m', In m' ns' /\ same_edges m m').
  { clear - F Hm. induction F; destruct Hm; subst; [exists y; split; [left|]; auto|].
    destruct (IHF H0) as (n & A & C). exists n. split; [right|]; auto. }
  destruct X as (m' & Hm' & E & D). rewrite E in Qm |- *. rewrite D. apply P; auto.
Qed.

Lemma Forall2_sym_edges : forall ns ns', Forall2 same_edges ns ns' -> Forall2 same_edges ns' ns.
Proof. intros ns ns' F. induction F as [|x y l l' (E & D) F IH]; constructor; auto. split; auto. Qed.

Lemma worse_spill : forall (fs fs' : list (@node Q)) fuel fuel' out out', unique_ids fs -> acyclic_closed fs ->
  Forall2 (fun a b => n_id a = n_id b /\ n_dstr a = n_dstr b /\ (n_water a <= n_water b)%Q /\ (n_cap b <= n_cap a)%Q) fs fs' ->
  process QOps fuel fs = Ok out -> process QOps fuel' fs' = Ok out' ->
  forall p p', In p out -> In p' out' -> n_id (fst p) = n_id (fst p') -> (out_spill p <= out_spill p')%Q.
Proof.
  intros fs fs' fuel fuel' out out' U AC F H H' p p' Hp Hp' E.
  assert (FE : Forall2 same_edges fs fs') by (clear - F; induction F as [|x y l l' (A & D & _) F IH]; constructor; auto; split; auto).
  assert (U' : unique_ids fs') by (unfold unique_ids; rewrite <- (place_ids _ _ FE); exact U).
  destruct (process_cut _ _ _ U AC H p Hp) as (N & _ & W).
  destruct (process_cut _ _ _ U' (place_acyclic _ _ FE AC) H' p' Hp') as (N' & L' & _).
  destruct (Qlt_le_dec 0 (out_spill p)) as [P|P]; [|lra].
  destruct (W P) as (q & PA & _ & S). rewrite S. eapply Qle_trans; [|apply (L' q)].
  - clear - F. unfold surplus. induction F as [|x y l l' (A & _ & B & C) F IH]; cbn [filter map Qsum]; [apply Qle_refl|].
    rewrite A. destruct (q (n_id y)); cbn [map Qsum]; lra.
  - rewrite <- E. eapply part_edges; [|exact PA]. apply Forall2_sym_edges. exact FE.
Qed.

Lemma mix_edges : forall w fs fs', Forall2 same_edges fs fs' -> Forall2 same_edges fs (map (mix w) (combine fs fs')).
Proof. intros w fs fs' F. induction F as [|x y l l' E F IH]; cbn; constructor; auto. split; reflexivity. Qed.

Lemma mix_surplus : forall w fs fs' q, Forall2 same_edges fs fs' ->
  (surplus (map (mix w) (combine fs fs')) q == w * surplus fs q + (1 - w) * surplus fs' q)%Q.
Proof.
  intros w fs fs' q F. unfold surplus. induction F as [|x y l l' (E & D) F IH]; [cbn; ring|].
  cbn [combine map filter]. change (n_id (mix w (x, y))) with (n_id x). rewrite <- E.
  destruct (q (n_id x)); [|exact IH]. cbn [map Qsum]. rewrite IH. unfold mix. cbn [n_water n_cap fst snd]. ring.
Qed.

Lemma mixed_spill : forall (fs fs' : list (@node Q)) w fuel fuel' fuel2 out out' out2, unique_ids fs -> acyclic_closed fs ->
  Forall2 same_edges fs fs' -> (0 <= w)%Q -> (w <= 1)%Q ->
  process QOps fuel fs = Ok out -> process QOps fuel' fs' = Ok out' -> process QOps fuel2 (map (mix w) (combine fs fs')) = Ok out2 ->
  forall p p' p2, In p out -> In p' out' -> In p2 out2 -> n_id (fst p) = n_id (fst p2) -> n_id (fst p') = n_id (fst p2) ->
  (out_spill p2 <= w * out_spill p + (1 - w) * out_spill p')%Q.
Proof.
  intros fs fs' w fuel fuel' fuel2 out out' out2 U AC F W0 W1 H H' H2 p p' p2 Hp Hp' Hp2 E E'.
  pose proof (mix_edges w fs fs' F) as F2.
  assert (U' : unique_ids fs') by (unfold unique_ids; rewrite <- (place_ids _ _ F); exact U).
  assert (U2 : unique_ids (map (mix w) (combine fs fs'))) by (unfold unique_ids; rewrite <- (place_ids _ _ F2); exact U).
  destruct (process_cut _ _ _ U AC H p Hp) as (N & L & _).
  destruct (process_cut _ _ _ U' (place_acyclic _ _ F AC) H' p' Hp') as (N' & L' & _).
  destruct (process_cut _ _ _ U2 (place_acyclic _ _ F2 AC) H2 p2 Hp2) as (N2 & _ & R).
  assert (A : (0 <= w * out_spill p)%Q) by (apply Qmult_le_0_compat; auto).
  assert (A' : (0 <= (1 - w) * out_spill p')%Q) by (apply Qmult_le_0_compat; auto; lra).
  destruct (Qlt_le_dec 0 (out_spill p2)) as [P|P]; [|lra].
  destruct (R P) as (q & PA & _ & S). rewrite S, mix_surplus by exact F.
  assert (PA1 : part_above fs (n_id (fst p2)) q) by (eapply part_edges; [exact F2|exact PA]).
  specialize (L q). rewrite E in L. specialize (L PA1).
  specialize (L' q). rewrite E' in L'. specialize (L' (part_edges _ _ _ _ (Forall2_sym_edges _ _ F) PA1)).
  assert (X : (w * surplus fs q <= w * out_spill p)%Q) by (rewrite !(Qmult_comm w); apply Qmult_le_compat_r; auto).
  assert (X' : ((1 - w) * surplus fs' q <= (1 - w) * out_spill p')%Q) by (rewrite !(Qmult_comm (1 - w)); apply Qmult_le_compat_r; auto; lra).
  lra.
Qed.

(** The example network without rain. *)
Definition dry_net : list (@node Q) := map (fun n => mkNode (n_id n) (n_dstr n) 0%Q (n_cap n)) ex_net.
