(** * Lemmas behind P_Network *)

From Coq Require Import QArith Qminmax Permutation Lqa.
From Flocq Require Import IEEE754.BinarySingleNaN.
From Verif Require Import Base BaseProofs Num Float64 Float64Proofs Float64Arith FillSpec
  Dict DictProofs NetworkModel NetworkSpec NetworkProofs.
Local Open Scope Z_scope.

Local Arguments Qplus : simpl never.
Local Arguments Qminus : simpl never.
Local Arguments Qeq : simpl never.
Local Arguments Qle : simpl never.

(** ** Sums *)
Lemma Qsum_perm : forall a b, Permutation a b -> (Qsum a == Qsum b)%Q.
Proof.
  intros a b H. induction H; cbn.
  - reflexivity.
  - rewrite IHPermutation. reflexivity.
  - ring.
  - etransitivity; eauto.
Qed.

Lemma Qsum_app : forall a b, (Qsum (a ++ b) == Qsum a + Qsum b)%Q.
Proof. induction a; intros; cbn; [ring | rewrite IHa; ring]. Qed.

Lemma pysum_Q : forall l a, (fold_left Qplus l a == a + Qsum l)%Q.
Proof. induction l as [|x l IH]; intros a; cbn; [ring | rewrite IH; ring]. Qed.

Lemma Qsum_ext : forall {A} (f g : A -> Q) l, (forall x, In x l -> f x == g x)%Q ->
  (Qsum (map f l) == Qsum (map g l))%Q.
Proof. induction l; intros H; cbn; [reflexivity|]. rewrite IHl, H; cbn; auto; [reflexivity|]. intros; apply H; right; auto. Qed.

Lemma Qsum_le : forall {A} (f g : A -> Q) l, (forall x, In x l -> f x <= g x)%Q ->
  (Qsum (map f l) <= Qsum (map g l))%Q.
Proof.
  induction l; intros H; cbn; [lra|].
  assert (f a <= g a)%Q by (apply H; left; auto).
  assert (Qsum (map f l) <= Qsum (map g l))%Q by (apply IHl; intros; apply H; right; auto). lra.
Qed.

Lemma Qsum_plus : forall {A} (f g : A -> Q) l,
  (Qsum (map (fun x => f x + g x) l) == Qsum (map f l) + Qsum (map g l))%Q.
Proof. induction l; cbn; [ring | rewrite IHl; ring]. Qed.

Lemma Qsum_nonneg : forall l, (forall x, In x l -> 0 <= x)%Q -> (0 <= Qsum l)%Q.
Proof.
  induction l; intros H; cbn; [lra|].
  assert (0 <= a)%Q by (apply H; left; auto).
  assert (0 <= Qsum l)%Q by (apply IHl; intros; apply H; right; auto). lra.
Qed.

(** ** From a run to the balance *)
Section Run.
Variable ns : list (@node Q).
Hypothesis UI : unique_ids ns.

Definition lookup (evs : list (@event Q)) (f : @event Q -> Q) (id : Z) : Q :=
  match find (fun e => e_id e =? id) evs with Some e => f e | None => 0%Q end.

Lemma lookup_in : forall evs f e, NoDup (map e_id evs) -> In e evs -> lookup evs f (e_id e) = f e.
Proof.
  intros evs f e ND H. unfold lookup.
  destruct (find (fun e0 => e_id e0 =? e_id e) evs) as [e'|] eqn:F.
  - apply find_some in F. destruct F as [F1 F2]. apply Z.eqb_eq in F2.
    f_equal. eapply NoDup_map_inj; eauto.
  - exfalso. pose proof (find_none _ _ F e H) as X. cbn in X. rewrite Z.eqb_refl in X. discriminate.
Qed.

Lemma run_facts : forall fuel evs,
  rain_event QOps fuel (add_nodes empty_network ns) = Ok evs ->
  exists rv, evs = map snd rv /\ good QOps ns rv /\
    (forall x, In x (map fst rv) <-> exists r, root_of ns x r) /\
    map e_id evs = map fst rv /\ NoDup (map e_id evs).
Proof.
  intros fuel evs H. destruct (rain_event_inv QOps ns UI fuel evs H) as (rv & E & G & K).
  exists rv. split; [auto|]. split; [auto|]. split; [auto|].
  assert (X : map e_id evs = map fst rv) by (rewrite E; eapply good_ids; eauto).
  split; [auto|]. rewrite X. eapply good_nodup; eauto.
Qed.

Lemma run_balance : forall fuel evs,
  rain_event QOps fuel (add_nodes empty_network ns) = Ok evs ->
  balance ns (lookup evs e_vol) (lookup evs e_spill).
Proof.
  intros fuel evs H. destruct (run_facts _ _ H) as (rv & E & G & K & I & ND).
  intros n Hn S. apply K in S. apply in_map_iff in S. destruct S as ((k & e) & Ek & He).
  cbn in Ek. subst k.
  assert (Ee : In e evs) by (subst evs; apply in_map_iff; exists (n_id n, e); auto).
  pose proof (good_id _ _ _ G _ _ He) as Eid.
  destruct (good_entry _ _ _ G _ _ He) as (n' & ue & Hn' & En' & F & Es).
  assert (n' = n) by (eapply node_inj; eauto). subst n'. rewrite <- Eid.
  rewrite !lookup_in by auto. cbv zeta. rewrite Eid.
  assert (X : (pysum QOps (map e_spill ue) ==
               Qsum (map (fun u => lookup evs e_spill (n_id u)) (direct_upstream ns (n_id n))))%Q).
  { unfold pysum. cbn -[Qplus]. change (nadd QOps) with Qplus. rewrite pysum_Q.
    change (inject_Z 0) with 0%Q. rewrite Qplus_0_l.
    clear Es. induction F as [|u e' us es P F IH]; cbn; [reflexivity|].
    rewrite IH. apply Qplus_comp; [|reflexivity].
    assert (In e' evs) by (subst evs; apply in_map_iff; exists (n_id u, e'); auto).
    rewrite <- (good_id _ _ _ G _ _ P). rewrite lookup_in by auto. reflexivity. }
  rewrite Es. cbn [settle e_vol e_spill]. unfold pymin, pymax, settle.
  cbn [nltb nadd nsub nofZ QOps e_vol e_spill]. unfold Qltb.
  set (u := pysum QOps (map e_spill ue)) in *.
  set (s := Qsum (map (fun u0 : node => lookup evs e_spill (n_id u0)) (direct_upstream ns (n_id n)))) in *.
  change (inject_Z 0) with 0%Q.
  destruct (Qlt_le_dec (n_cap n) (n_water n + s)) as [L|L].
  - replace (Qle_bool (n_water n + u) (n_cap n)) with false.
    2:{ symmetry. apply Bool.not_true_is_false. rewrite Qle_bool_iff. rewrite X. lra. }
    replace (Qle_bool (n_water n + u - n_cap n) 0) with false.
    2:{ symmetry. apply Bool.not_true_is_false. rewrite Qle_bool_iff. rewrite X. lra. }
    cbn. rewrite X. split; reflexivity.
  - replace (Qle_bool (n_water n + u) (n_cap n)) with true.
    2:{ symmetry. rewrite Qle_bool_iff. rewrite X. lra. }
    replace (Qle_bool (n_water n + u - n_cap n) 0) with true.
    2:{ symmetry. rewrite Qle_bool_iff. rewrite X. lra. }
    cbn. rewrite X. split; reflexivity.
Qed.
End Run.

(** ** Two balanced assignments *)
Definition same_site (a b : @node Q) : Prop :=
  n_id a = n_id b /\ n_dstr a = n_dstr b /\ (n_cap a == n_cap b)%Q.

Lemma forall2_root_of : forall (ns ns' : list (@node Q)),
  Forall2 same_site ns ns' -> forall a r, root_of ns a r -> root_of ns' a r.
Proof.
  intros ns ns' F a r H.
  assert (X : forall n, In n ns -> exists m, In m ns' /\ same_site n m).
  { clear - F. induction F; intros n [].
    - subst. exists y. split; [left|]; auto.
    - destruct (IHF n H0) as (m & A & B). exists m. split; [right|]; auto. }
  induction H.
  - destruct (X n H) as (m & Hm & A & B & _). rewrite A. apply ro_root; auto. congruence.
  - destruct (X n H) as (m & Hm & A & B & _). rewrite A. eapply ro_step; eauto. congruence.
Qed.

Lemma forall2_ids : forall (ns ns' : list (@node Q)), Forall2 same_site ns ns' ->
  map n_id ns = map n_id ns'.
Proof. intros ns ns' F. induction F; cbn; auto. destruct H. f_equal; auto. Qed.

Lemma forall2_direct : forall (ns ns' : list (@node Q)) id, Forall2 same_site ns ns' ->
  map n_id (direct_upstream ns id) = map n_id (direct_upstream ns' id).
Proof.
  intros ns ns' id F. unfold direct_upstream. induction F as [|x y l l' S F IH]; cbn; auto.
  destruct S as (A & B & _).
  assert (X : is_dstr id x = is_dstr id y) by (unfold is_dstr; rewrite B; reflexivity).
  rewrite X. destruct (is_dstr id y); cbn; auto. f_equal; auto.
Qed.

Lemma balance_mono : forall ns ns' v s v' s', unique_ids ns ->
  Forall2 (fun a b => same_site a b /\ n_water a <= n_water b)%Q ns ns' ->
  balance ns v s -> balance ns' v' s' ->
  forall id r, root_of ns id r -> (v id <= v' id /\ s id <= s' id)%Q.
Proof.
  intros ns ns' v s v' s' UI F B B' id r R.
  assert (F0 : Forall2 same_site ns ns') by (clear - F; induction F; constructor; tauto).
  destruct (rain_ok QOps ns UI (length ns) (le_n _)) as (rv & _ & G & K).
  assert (Hid : In id (map fst rv)) by (apply K; eauto).
  assert (KK : forall x, In x (map fst rv) -> exists r, root_of ns x r) by (intros; apply K; auto).
  clear R r K. revert id Hid. induction G as [|rv k e G IH FR EN]; intros id Hid; [destruct Hid|].
  rewrite map_app, in_app_iff in Hid.
  assert (IH' : forall id, In id (map fst rv) -> (v id <= v' id /\ s id <= s' id)%Q).
  { apply IH. intros. apply KK. rewrite map_app, in_app_iff. auto. }
  destruct Hid as [Hid|[<-|[]]]; [apply IH'; auto|]. cbn [fst].
  destruct EN as (n & ue & Hn & En & Fu & _).
  destruct (KK k) as (r & Rk); [rewrite map_app, in_app_iff; cbn; auto|].
  assert (X : exists m, In m ns' /\ same_site n m /\ (n_water n <= n_water m)%Q).
  { clear - F Hn. induction F; destruct Hn; subst.
    - exists y. split; [left|]; tauto.
    - destruct IHF as (m & A & C); auto. exists m. split; [right|]; auto. }
  destruct X as (m & Hm & (Em & _ & Ec) & Ew).
  pose proof (B n Hn) as Bn. rewrite En in Bn. specialize (Bn (ex_intro _ r Rk)).
  pose proof (B' m Hm) as Bm. rewrite <- Em, En in Bm.
  specialize (Bm (ex_intro _ r (forall2_root_of _ _ F0 _ _ Rk))). cbv zeta in Bn, Bm.
  assert (LE : (Qsum (map (fun u => s (n_id u)) (direct_upstream ns k)) <=
                Qsum (map (fun u => s' (n_id u)) (direct_upstream ns' k)))%Q).
  { rewrite <- (map_map n_id s), <- (map_map n_id s'), <- (forall2_direct _ _ k F0), !map_map.
    apply Qsum_le. intros u Hu. apply IH'.
    clear - Fu Hu. induction Fu; destruct Hu; subst; auto.
    apply in_map_iff. exists (n_id u, y). auto. }
  destruct Bn as [V1 S1], Bm as [V2 S2].
  set (q1 := Qsum (map (fun u => s (n_id u)) (direct_upstream ns k))) in *.
  set (q2 := Qsum (map (fun u => s' (n_id u)) (direct_upstream ns' k))) in *.
  rewrite V1, V2, S1, S2. clear V1 V2 S1 S2.
  destruct (Qlt_le_dec (n_cap n) (n_water n + q1)), (Qlt_le_dec (n_cap m) (n_water m + q2)); split; lra.
Qed.

Lemma same_site_refl : forall ns : list (@node Q),
  Forall2 (fun a b => same_site a b /\ n_water a <= n_water b)%Q ns ns.
Proof.
  induction ns; constructor; auto. split; [|lra]. split; [auto|]. split; [auto|]. reflexivity.
Qed.

Lemma balance_unique : forall ns v s v' s', unique_ids ns ->
  balance ns v s -> balance ns v' s' ->
  forall id r, root_of ns id r -> (v id == v' id /\ s id == s' id)%Q.
Proof.
  intros ns v s v' s' UI B B' id r R.
  destruct (balance_mono ns ns v s v' s' UI (same_site_refl ns) B B' id r R).
  destruct (balance_mono ns ns v' s' v s UI (same_site_refl ns) B' B id r R). split; lra.
Qed.

Lemma root_of_perm : forall (ns ns' : list (@node Q)), Permutation ns ns' ->
  forall a r, root_of ns a r -> root_of ns' a r.
Proof.
  intros ns ns' P a r H. induction H.
  - apply ro_root; auto. eapply Permutation_in; eauto.
  - eapply ro_step; eauto. eapply Permutation_in; eauto.
Qed.

Lemma filter_perm : forall {A} (p : A -> bool) l l', Permutation l l' -> Permutation (filter p l) (filter p l').
Proof.
  intros A p l l' H. induction H; cbn; auto.
  - destruct (p x); auto.
  - destruct (p x), (p y); auto. constructor.
  - etransitivity; eauto.
Qed.

Lemma balance_perm : forall ns ns' v s, Permutation ns ns' -> balance ns v s -> balance ns' v s.
Proof.
  intros ns ns' v s P B n Hn (r & R).
  specialize (B n (Permutation_in _ (Permutation_sym P) Hn)
                (ex_intro _ r (root_of_perm _ _ (Permutation_sym P) _ _ R))).
  cbv zeta in *.
  assert (E : (Qsum (map (fun u => s (n_id u)) (direct_upstream ns (n_id n))) ==
               Qsum (map (fun u => s (n_id u)) (direct_upstream ns' (n_id n))))%Q).
  { apply Qsum_perm. apply Permutation_map. apply filter_perm; auto. }
  destruct B as [V S].
  destruct (Qlt_le_dec (n_cap n) _) as [L|L] in V; destruct (Qlt_le_dec (n_cap n) _) as [L'|L'] in S;
    try lra; destruct (Qlt_le_dec (n_cap n) _) as [M|M]; rewrite <- E in M; try lra; rewrite V, S; split; lra.
Qed.

(** ** C35 *)
Lemma network_total : forall ns : list (@node Q), unique_ids ns ->
  forall fuel, (length ns <= fuel)%nat ->
  exists evs, rain_event QOps fuel (add_nodes empty_network ns) = Ok evs.
Proof. intros. apply rain_event_total; auto. Qed.

Lemma settled_by_balance : forall (ns : list (@node Q)) fuel evs, unique_ids ns -> acyclic_closed ns ->
  rain_event QOps fuel (add_nodes empty_network ns) = Ok evs ->
  Permutation (map e_id evs) (map n_id ns) /\
  (forall n e, In n ns -> In e evs -> e_id e = n_id n -> e_water e = n_water n) /\
  exists vol spill, balance ns vol spill /\
    forall e, In e evs -> e_vol e = vol (e_id e) /\ e_spill e = spill (e_id e).
Proof.
  intros ns fuel evs UI AC H.
  destruct (run_facts ns UI _ _ H) as (rv & E & G & K & I & ND).
  split; [|split].
  - apply NoDup_Permutation; auto. intros x. rewrite I, K. split.
    + intros (r & R). destruct (root_of_node _ _ _ R) as (n & Hn & <-). apply in_map; auto.
    + intros X. apply in_map_iff in X. destruct X as (n & <- & Hn). auto.
  - intros n e Hn He Ei. rewrite E in He. apply in_map_iff in He. destruct He as ((k & e') & Ee & He).
    cbn in Ee. subst e'. destruct (good_entry _ _ _ G _ _ He) as (n' & ue & Hn' & En' & _ & ->).
    cbn in Ei. assert (n' = n) by (eapply node_inj; eauto). subst. reflexivity.
  - exists (lookup evs e_vol), (lookup evs e_spill). split; [eapply run_balance; eauto|].
    intros e He. rewrite !lookup_in by auto. auto.
Qed.

Lemma order_irrelevant : forall (ns ns' : list (@node Q)) fuel fuel' evs evs',
  unique_ids ns -> Permutation ns ns' ->
  rain_event QOps fuel (add_nodes empty_network ns) = Ok evs ->
  rain_event QOps fuel' (add_nodes empty_network ns') = Ok evs' ->
  forall e, In e evs -> exists e', In e' evs' /\ e_id e' = e_id e /\
    (e_vol e' == e_vol e)%Q /\ (e_spill e' == e_spill e)%Q.
Proof.
  intros ns ns' fuel fuel' evs evs' UI P H H' e He.
  assert (UI' : unique_ids ns') by (eapply Permutation_NoDup; [apply Permutation_map; eauto | auto]).
  destruct (run_facts ns UI _ _ H) as (rv & E & G & K & I & ND).
  destruct (run_facts ns' UI' _ _ H') as (rv' & E' & G' & K' & I' & ND').
  assert (Hk : In (e_id e) (map fst rv)) by (rewrite <- I; apply in_map; auto).
  apply K in Hk. destruct Hk as (r & R).
  assert (X : In (e_id e) (map e_id evs')) by (rewrite I'; apply K'; exists r; eapply root_of_perm; eauto).
  apply in_map_iff in X. destruct X as (e' & Ee & He'). exists e'. split; [auto|]. split; [auto|].
  pose proof (balance_perm _ _ _ _ P (run_balance ns UI _ _ H)) as B.
  pose proof (run_balance ns' UI' _ _ H') as B'.
  destruct (balance_unique ns' _ _ _ _ UI' B' B (e_id e) r) as [V S]; [eapply root_of_perm; eauto|].
  rewrite (lookup_in evs e_vol e ND He) in V. rewrite (lookup_in evs e_spill e ND He) in S.
  rewrite <- Ee in V, S. rewrite lookup_in in V by auto. rewrite lookup_in in S by auto. auto.
Qed.

(** ** C37 *)
Lemma more_rain : forall (ns ns' : list (@node Q)) fuel fuel' evs evs',
  unique_ids ns ->
  Forall2 (fun a b => n_id a = n_id b /\ n_dstr a = n_dstr b /\ (n_cap a == n_cap b)%Q /\
                      (n_water a <= n_water b)%Q) ns ns' ->
  rain_event QOps fuel (add_nodes empty_network ns) = Ok evs ->
  rain_event QOps fuel' (add_nodes empty_network ns') = Ok evs' ->
  forall e e', In e evs -> In e' evs' -> e_id e = e_id e' ->
  (e_vol e <= e_vol e' /\ e_spill e <= e_spill e')%Q.
Proof.
  intros ns ns' fuel fuel' evs evs' UI F H H' e e' He He' Ee.
  assert (F0 : Forall2 (fun a b => same_site a b /\ n_water a <= n_water b)%Q ns ns').
  { clear - F. induction F; constructor; auto. destruct H as (A & B & C & D). repeat split; auto. }
  assert (F1 : Forall2 same_site ns ns') by (clear - F0; induction F0; constructor; tauto).
  assert (UI' : unique_ids ns') by (unfold unique_ids; rewrite <- (forall2_ids _ _ F1); auto).
  destruct (run_facts ns UI _ _ H) as (rv & E & G & K & I & ND).
  destruct (run_facts ns' UI' _ _ H') as (rv' & E' & G' & K' & I' & ND').
  assert (Hk : In (e_id e) (map fst rv)) by (rewrite <- I; apply in_map; auto).
  apply K in Hk. destruct Hk as (r & R).
  destruct (balance_mono ns ns' _ _ _ _ UI F0 (run_balance ns UI _ _ H) (run_balance ns' UI' _ _ H') _ _ R)
    as [V S].
  rewrite (lookup_in evs e_vol e ND He) in V. rewrite (lookup_in evs e_spill e ND He) in S.
  rewrite Ee in V, S. rewrite lookup_in in V by auto. rewrite lookup_in in S by auto. auto.
Qed.

(** ** C34 *)
Lemma sum_filter_indicator : forall {A} (p : A -> bool) (f : A -> Q) l,
  (Qsum (map f (filter p l)) == Qsum (map (fun x => if p x then f x else 0) l))%Q.
Proof. induction l; cbn; [reflexivity|]. destruct (p a); cbn; rewrite IHl; [reflexivity | ring]. Qed.

Lemma Qsum_zero : forall {A} (l : list A), (Qsum (map (fun _ => 0) l) == 0)%Q.
Proof. induction l; cbn; [reflexivity | rewrite IHl; ring]. Qed.

Lemma one_downstream : forall {T} (ns : list (@node T)) d x, NoDup (map n_id ns) -> In d (map n_id ns) ->
  (Qsum (map (fun n => if Z.eqb d (n_id n) then x else 0) ns) == x)%Q.
Proof.
  intros T. induction ns as [|n ns IH]; intros d x ND H; [destruct H|]. inversion ND; subst. cbn.
  destruct (Z.eqb_spec d (n_id n)) as [->|N].
  - rewrite (Qsum_ext _ (fun _ => 0%Q)); [rewrite Qsum_zero; ring|].
    intros m Hm. destruct (Z.eqb_spec (n_id n) (n_id m)) as [E|E]; [|reflexivity].
    exfalso. apply H2. rewrite E. apply in_map; auto.
  - destruct H as [H|H]; [congruence|]. rewrite IH by auto. ring.
Qed.

Lemma double_count : forall {T} (ns : list (@node T)) (s : Z -> Q), NoDup (map n_id ns) ->
  forall l : list (@node T), (forall u d, In u l -> n_dstr u = Some d -> In d (map n_id ns)) ->
  (Qsum (map (fun n => Qsum (map (fun u => s (n_id u)) (filter (is_dstr (n_id n)) l))) ns)
   == Qsum (map (fun u => s (n_id u)) (filter (fun u => negb (is_root u)) l)))%Q.
Proof.
  intros T ns s ND. induction l as [|u l IH]; intros H.
  - cbn. apply Qsum_zero.
  - cbn [filter].
    rewrite (Qsum_ext _ (fun n => (if is_dstr (n_id n) u then s (n_id u) else 0) +
        Qsum (map (fun u0 => s (n_id u0)) (filter (is_dstr (n_id n)) l)))%Q).
    2:{ intros n Hn. destruct (is_dstr (n_id n) u); cbn; [reflexivity | ring]. }
    rewrite Qsum_plus, IH by (intros; eapply H; eauto; right; auto).
    unfold is_dstr at 1, is_root at 2. destruct (n_dstr u) as [d|] eqn:D.
    + rewrite one_downstream; auto; [reflexivity|]. eapply H; eauto. left; auto.
    + rewrite Qsum_zero. cbn. ring.
Qed.

Lemma balance_conserves : forall ns v s, unique_ids ns -> acyclic_closed ns -> balance ns v s ->
  (Qsum (map n_water ns) == Qsum (map (fun n => v (n_id n)) ns) +
     Qsum (map (fun n => s (n_id n)) (filter is_root ns)))%Q.
Proof.
  intros ns v s UI AC B.
  assert (L : forall n, In n ns -> (v (n_id n) + s (n_id n) ==
     n_water n + Qsum (map (fun u => s (n_id u)) (direct_upstream ns (n_id n))))%Q).
  { intros n Hn. destruct (B n Hn (AC n Hn)) as [V S]. cbv zeta in V, S. rewrite V, S.
    destruct (Qlt_le_dec _ _); ring. }
  pose proof (Qsum_ext _ _ ns L) as S. rewrite !Qsum_plus in S.
  unfold direct_upstream in S. rewrite double_count in S; auto.
  2:{ intros u d Hu Hd. destruct (AC u Hu) as (r & R).
      inversion R as [n' ? ? E|n' d' r0 Hn' Hd' Hr' E]; subst.
      - assert (n' = u) by (eapply NoDup_map_inj; eauto). congruence.
      - assert (n' = u) by (eapply NoDup_map_inj; eauto). subst n'.
        assert (d' = d) by congruence. subst. destruct (root_of_node _ _ _ Hr') as (m & Hm & <-).
        apply in_map; auto. }
  rewrite !sum_filter_indicator in *.
  assert (X : (Qsum (map (fun n => s (n_id n)) ns) ==
     Qsum (map (fun x => if negb (is_root x) then s (n_id x) else 0) ns) +
     Qsum (map (fun x => if is_root x then s (n_id x) else 0) ns))%Q).
  { rewrite <- Qsum_plus. apply Qsum_ext. intros n _. destruct (is_root n); cbn; ring. }
  rewrite X in S. lra.
Qed.

Definition leaves (ns : list (@node Q)) (e : @event Q) : bool :=
  existsb (fun n => is_root n && (n_id n =? e_id e)) ns.

Lemma conserved : forall (ns : list (@node Q)) fuel evs, unique_ids ns -> acyclic_closed ns ->
  rain_event QOps fuel (add_nodes empty_network ns) = Ok evs ->
  (Qsum (map n_water ns) == Qsum (map e_vol evs) + Qsum (map e_spill (filter (leaves ns) evs)))%Q.
Proof.
  intros ns fuel evs UI AC H.
  destruct (settled_by_balance ns fuel evs UI AC H) as (P & _ & v & s & B & EV).
  rewrite (balance_conserves ns v s UI AC B).
  rewrite (Qsum_ext e_vol (fun e => v (e_id e)) evs)
    by (intros e He; rewrite (proj1 (EV e He)); reflexivity).
  rewrite <- (map_map n_id v), <- (map_map e_id v).
  rewrite (Qsum_perm _ _ (Permutation_map v (Permutation_sym P))).
  apply Qplus_comp; [reflexivity|]. rewrite !sum_filter_indicator.
  rewrite (Qsum_ext (fun e => if leaves ns e then e_spill e else 0%Q)
      (fun e => if existsb (fun n => is_root n && (n_id n =? e_id e)) ns then s (e_id e) else 0%Q) evs).
  2:{ intros e He. rewrite (proj2 (EV e He)). reflexivity. }
  rewrite <- (map_map e_id (fun i => if existsb (fun n => is_root n && (n_id n =? i)) ns then s i else 0%Q)).
  rewrite (Qsum_perm _ _ (Permutation_map _ P)). rewrite map_map.
  apply Qsum_ext. intros n Hn.
  destruct (is_root n) eqn:R.
  - replace (existsb _ ns) with true; [reflexivity|]. symmetry. apply existsb_exists.
    exists n. rewrite R, Z.eqb_refl. auto.
  - replace (existsb _ ns) with false; [reflexivity|]. symmetry. apply Bool.not_true_is_false.
    intros X. apply existsb_exists in X. destruct X as (m & Hm & X).
    apply andb_prop in X. destruct X as [X1 X2]. apply Z.eqb_eq in X2.
    assert (m = n) by (eapply NoDup_map_inj; eauto). congruence.
Qed.

(** ** C36 *)
Lemma settled_event : forall {T} (ops : NumOps T) (ns : list (@node T)) fuel evs, unique_ids ns ->
  rain_event ops fuel (add_nodes empty_network ns) = Ok evs ->
  forall e, In e evs -> exists n ue, In n ns /\ n_id n = e_id e /\
    (forall e', In e' ue -> In e' evs) /\
    map e_id ue = map n_id (direct_upstream ns (n_id n)) /\
    e = settle ops n (pysum ops (map e_spill ue)).
Proof.
  intros T ops ns fuel evs UI H e He.
  destruct (rain_event_inv ops ns UI fuel evs H) as (rv & E & G & K).
  subst evs. apply in_map_iff in He. destruct He as ((k & e') & Ee & He). cbn in Ee. subst e'.
  destruct (good_entry _ _ _ G _ _ He) as (n & ue & Hn & En & F & Es).
  exists n, ue. split; [auto|].
  split; [rewrite En; symmetry; eapply good_id; eauto|]. rewrite En.
  split; [|split]; [| |auto].
  - clear Es. induction F; intros e' []; subst; auto. apply in_map_iff. exists (n_id x, e'). auto.
  - clear Es. induction F; cbn; auto. f_equal; auto. eapply good_id; eauto.
Qed.

Lemma no_overfill : forall (ns : list (@node Q)) fuel evs, unique_ids ns ->
  (forall n, In n ns -> 0 <= n_water n /\ 0 <= n_cap n)%Q ->
  rain_event QOps fuel (add_nodes empty_network ns) = Ok evs ->
  forall n e, In n ns -> In e evs -> e_id e = n_id n ->
  (0 <= e_vol e <= n_cap n)%Q /\ (0 <= e_spill e)%Q /\
  (0 < e_spill e -> e_vol e == n_cap n)%Q /\
  (e_pct e = None <-> n_cap n == 0)%Q /\
  (forall p, e_pct e = Some p -> 0 <= p <= 100 /\ p * n_cap n == 100 * e_vol e)%Q.
Proof.
  intros ns fuel evs UI POS H n e Hn He Ei.
  destruct (settled_event QOps ns fuel evs UI H e He) as (n' & ue & Hn' & En & Hue & _ & ->).
  assert (n' = n) by (eapply NoDup_map_inj; eauto; congruence). subst n'.
  assert (U : (0 <= pysum QOps (map e_spill ue))%Q).
  { unfold pysum. change (nadd QOps) with Qplus. rewrite pysum_Q. cbn [nofZ QOps].
    change (inject_Z 0) with 0%Q.
    assert (0 <= Qsum (map e_spill ue))%Q; [|lra].
    apply Qsum_nonneg. intros x Hx. apply in_map_iff in Hx. destruct Hx as (e' & <- & He').
    destruct (settled_event QOps ns fuel evs UI H e' (Hue _ He')) as (m & ue' & _ & _ & _ & _ & ->).
    cbn. unfold pymax. cbn. unfold Qltb.
    destruct (Qle_bool _ _) eqn:B; cbn; [change (inject_Z 0) with 0%Q; lra|].
    apply Qlt_le_weak. rewrite Qlt_alt. apply Bool.not_true_iff_false in B.
    rewrite Qle_bool_iff in B. apply Qnot_le_lt in B. rewrite <- Qlt_alt. exact B. }
  destruct (POS n Hn) as [PW PC].
  set (u := pysum QOps (map e_spill ue)) in *. clearbody u.
  unfold settle. cbn [e_vol e_spill e_pct]. unfold pymin, pymax.
  cbn [nltb nadd nsub nmul ndiv neqb nofZ QOps]. unfold Qltb.
  change (inject_Z 0) with 0%Q. change (inject_Z 100) with 100%Q.
  set (v := if negb (Qle_bool (n_water n + u) (n_cap n)) then n_cap n else (n_water n + u)%Q).
  set (s := if negb (Qle_bool (n_water n + u - n_cap n) 0) then (n_water n + u - n_cap n)%Q else 0%Q).
  assert (F : (0 <= v <= n_cap n /\ 0 <= s /\ (0 < s -> v == n_cap n))%Q).
  { unfold v, s.
    destruct (Qle_bool (n_water n + u) (n_cap n)) eqn:B1; cbn;
    destruct (Qle_bool (n_water n + u - n_cap n) 0) eqn:B2; cbn;
    rewrite ?Qle_bool_iff, <- ?Bool.not_true_iff_false, ?Qle_bool_iff in *;
    try (apply Bool.not_true_iff_false in B1; rewrite Qle_bool_iff in B1);
    try (apply Bool.not_true_iff_false in B2; rewrite Qle_bool_iff in B2);
    try (apply Qnot_le_lt in B1); try (apply Qnot_le_lt in B2);
    split; try split; try split; intros; lra. }
  clearbody v s. destruct F as (F1 & F2 & F3).
  split; [exact F1|]. split; [exact F2|]. split; [exact F3|].
  destruct (Qeq_bool (n_cap n) 0) eqn:B.
  - apply Qeq_bool_iff in B. split; [tauto|]. discriminate.
  - apply Qeq_bool_neq in B. split; [split; [discriminate | tauto]|].
    intros p E. inversion E; subst p. clear E.
    assert (PC' : (0 < n_cap n)%Q) by (destruct (Qlt_le_dec 0 (n_cap n)); auto; exfalso; apply B; lra).
    assert (X : (100 * v / n_cap n * n_cap n == 100 * v)%Q) by (field; lra).
    split; [|exact X].
    split.
    + apply Qle_shift_div_l; auto. lra.
    + apply Qle_shift_div_r; auto. lra.
Qed.

Lemma f64_ofZ0 : f64_ofZ 0 = f64_zero.
Proof. reflexivity. Qed.

Lemma spill_nonneg64 : forall (n : @node b64) u, not_nan (e_spill (settle F64Ops n u)) /\
  0 <= rank (e_spill (settle F64Ops n u)).
Proof.
  intros n u. unfold settle. cbn [e_spill]. unfold pymax.
  set (x := nsub F64Ops _ _). cbn [nltb nofZ F64Ops]. rewrite f64_ofZ0. clearbody x.
  assert (Z0 : rank f64_zero = 0) by reflexivity.
  destruct (Bltb f64_zero x) eqn:B.
  - assert (N : not_nan x) by (destruct x; [reflexivity | reflexivity | discriminate B | reflexivity]).
    split; auto. rewrite Bltb_rank in B by (auto; reflexivity). apply Z.ltb_lt in B. lia.
  - split; [reflexivity | lia].
Qed.

Lemma pysum_nonneg64 : forall l, (forall x, In x l -> not_nan x /\ 0 <= rank x) ->
  not_nan (pysum F64Ops l) /\ 0 <= rank (pysum F64Ops l).
Proof.
  intros l H. unfold pysum. cbn [nadd nofZ F64Ops]. rewrite f64_ofZ0.
  assert (A : not_nan f64_zero /\ 0 <= rank f64_zero) by (split; [reflexivity | cbn; lia]).
  revert A. generalize f64_zero. induction l as [|x l IH]; intros a A; cbn [fold_left]; [exact A|].
  apply IH; [intros; apply H; right; auto|].
  destruct (H x (or_introl eq_refl)), A. apply add_nonneg; auto.
Qed.

Lemma no_overfill64 : forall (ns : list (@node b64)) fuel evs, unique_ids ns ->
  (forall n, In n ns -> nonneg64 (n_water n) /\ nonneg64 (n_cap n)) ->
  rain_event F64Ops fuel (add_nodes empty_network ns) = Ok evs ->
  forall n e, In n ns -> In e evs -> e_id e = n_id n ->
  le64 f64_zero (e_vol e) /\ le64 (e_vol e) (n_cap n) /\ le64 f64_zero (e_spill e) /\
  (lt64 f64_zero (e_spill e) -> e_vol e = n_cap n).
Proof.
  intros ns fuel evs UI POS H n e Hn He Ei.
  destruct (settled_event F64Ops ns fuel evs UI H e He) as (n' & ue & Hn' & En & Hue & _ & ->).
  assert (n' = n) by (eapply NoDup_map_inj; eauto; congruence). subst n'.
  destruct (pysum_nonneg64 (map e_spill ue)) as [U1 U2].
  { intros x Hx. apply in_map_iff in Hx. destruct Hx as (e' & <- & He').
    destruct (settled_event F64Ops ns fuel evs UI H e' (Hue _ He')) as (m & ue' & _ & _ & _ & _ & ->).
    apply spill_nonneg64. }
  destruct (POS n Hn) as [[PW PW'] [PC PC']].
  assert (Z0 : rank f64_zero = 0) by reflexivity.
  assert (NZ : not_nan f64_zero) by reflexivity.
  pose proof (finite_not_nan _ PW) as NW. pose proof (finite_not_nan _ PC) as NC.
  unfold le64 in PW', PC'. rewrite Bleb_rank, Z0 in PW', PC' by auto. apply Z.leb_le in PW', PC'.
  destruct (spill_nonneg64 n (pysum F64Ops (map e_spill ue))) as [S1 S2].
  set (u := pysum F64Ops (map e_spill ue)) in *. clearbody u.
  destruct (add_nonneg (n_water n) u NW U1 PW' U2) as [T1 T2].
  assert (V : not_nan (e_vol (settle F64Ops n u)) /\ 0 <= rank (e_vol (settle F64Ops n u)) <= rank (n_cap n)).
  { unfold settle. cbn [e_vol]. unfold pymin. cbn [nltb nadd F64Ops].
    rewrite Bltb_rank by auto. destruct (Z.ltb_spec (rank (n_cap n)) (rank (f64_add (n_water n) u))); split; auto; lia. }
  destruct V as [V1 V2].
  split; [unfold le64; rewrite Bleb_rank by auto; apply Z.leb_le; lia|].
  split; [unfold le64; rewrite Bleb_rank by auto; apply Z.leb_le; lia|].
  split; [unfold le64; rewrite Bleb_rank by auto; apply Z.leb_le; lia|].
  intros L. unfold lt64 in L. rewrite Bltb_rank, Z0 in L by auto. apply Z.ltb_lt in L.
  unfold settle in *. cbn [e_vol e_spill] in *. unfold pymin, pymax in *.
  cbn [nltb nadd nsub nofZ F64Ops] in *. rewrite f64_ofZ0 in *.
  destruct (Bltb f64_zero (f64_sub (f64_add (n_water n) u) (n_cap n))) eqn:B; [|lia].
  rewrite Bltb_rank, Z0 in B by (auto using sub_not_nan). apply Z.ltb_lt in B.
  pose proof (sub_pos_lt _ _ T1 PC B). rewrite Bltb_rank by auto.
  destruct (Z.ltb_spec (rank (n_cap n)) (rank (f64_add (n_water n) u))); [reflexivity | lia].
Qed.

(** ** C38 *)
Section Process.
Context {T : Type}.
Variable ops : NumOps T.
Notation node := (@node T).
Notation event := (@event T).

(** [n] is the last feature with its node id. *)
Definition last_with_id (fs : list node) (n : node) : Prop :=
  exists a b, fs = a ++ n :: b /\ ~ In (n_id n) (map n_id b).

Definition index_of (fs : list node) : list (Z * node) :=
  fold_left (fun d n => dset Z.eqb d (n_id n) n) fs [].

Lemma index_spec : forall fs : list node,
  NoDup (map fst (index_of fs)) /\
  (forall k n, In (k, n) (index_of fs) <-> k = n_id n /\ last_with_id fs n).
Proof.
  induction fs as [|m fs IH] using rev_ind.
  - cbn. split; [constructor|]. intros k n. split; [tauto|].
    intros (_ & [|] & b & E & _); discriminate.
  - unfold index_of. rewrite fold_left_app. cbn [fold_left]. fold (index_of fs).
    destruct IH as [ND IH]. split; [apply dset_nodup; auto using Z.eqb_spec|].
    intros k n. rewrite dset_in by auto using Z.eqb_spec. rewrite IH. split.
    + intros [[-> ->]|[N (-> & a & b & E & L)]].
      * split; auto. exists fs, []. cbn. auto.
      * split; auto. exists a, (b ++ [m]). rewrite E, <- app_assoc. split; [reflexivity|].
        rewrite map_app, in_app_iff. cbn. intros [X|[X|[]]]; congruence.
    + intros (-> & a & b & E & L). destruct b as [|x b] using rev_ind.
      * apply app_inj_tail in E. destruct E as [-> ->]. left; auto.
      * clear IHb. change (n :: b ++ [x]) with ((n :: b) ++ [x]) in E. rewrite app_assoc in E.
        apply app_inj_tail in E. destruct E as [-> ->]. rewrite map_app, in_app_iff in L. cbn in L.
        right. split; [intros X; apply L; auto|]. split; auto. exists a, b. split; auto.
Qed.

Lemma index_unique : forall fs : list node, NoDup (map n_id fs) ->
  map snd (index_of fs) = fs.
Proof.
  intros fs ND. assert (X : index_of fs = map (fun n => (n_id n, n)) fs).
  { induction fs as [|m fs IH] using rev_ind; [reflexivity|].
    rewrite map_app in ND. apply NoDup_app_inv in ND. destruct ND as (ND & _ & D).
    unfold index_of. rewrite fold_left_app. cbn [fold_left]. fold (index_of fs).
    rewrite IH, dset_fresh, map_app; auto using Z.eqb_spec.
    rewrite map_map. cbn. intros X. apply (D _ X). left; auto. }
  rewrite X, map_map. cbn. apply map_id.
Qed.

Lemma copy_events : forall (evs : list event) (d : list (Z * (node * option event))),
  NoDup (map fst d) -> (forall e, In e evs -> In (e_id e) (map fst d)) ->
  exists d', mfold (fun d e => match dget Z.eqb d (e_id e) with
                               | Some (n, _) => Ok (dset Z.eqb d (e_id e) (n, Some e))
                               | None => Exc KeyError
                               end) evs d = Ok d' /\
    map (fun p => (fst p, fst (snd p))) d' = map (fun p => (fst p, fst (snd p))) d /\
    (forall k n o, In (k, (n, o)) d' ->
       (exists e, In e evs /\ e_id e = k /\ o = Some e) \/ (~ In k (map e_id evs) /\ In (k, (n, o)) d)).
Proof.
  induction evs as [|e evs IH]; intros d ND H; cbn [mfold].
  - exists d. split; [auto|]. split; [auto|]. intros; right; auto.
  - assert (He : In (e_id e) (map fst d)) by (apply H; left; auto).
    destruct (dget Z.eqb d (e_id e)) as [[n o]|] eqn:G.
    2:{ apply dget_none in G; [tauto | apply Z.eqb_spec]. }
    cbn [bind].
    destruct (IH (dset Z.eqb d (e_id e) (n, Some e))) as (d' & E & M & C).
    + apply dset_nodup; auto using Z.eqb_spec.
    + intros e' He'. apply dset_keys; [apply Z.eqb_spec|]. right. apply H. right; auto.
    + exists d'. split; [auto|]. split.
      * rewrite M. clear - G. induction d as [|[k [n' o']] d IHd]; cbn in *; [discriminate|].
        destruct (Z.eqb_spec k (e_id e)) as [->|N]; cbn; [inversion G; subst; reflexivity|].
        f_equal. auto.
      * intros k m o' Hk. destruct (C _ _ _ Hk) as [(e' & A & B & D)|[A B]].
        -- left. exists e'. split; [right|]; auto.
        -- apply dset_in in B; auto using Z.eqb_spec. destruct B as [[-> B]|[N B]].
           ++ left. exists e. inversion B; subst. split; [left|]; auto.
           ++ right. split; auto. cbn. intros [X|X]; [congruence | auto].
Qed.

Lemma process_total : forall fs fuel, (length fs <= fuel)%nat ->
  exists out, process ops fuel fs = Ok out.
Proof.
  intros fs fuel L. destruct (index_spec fs) as [ND SP]. unfold process.
  fold (index_of fs).
  set (ns := map snd (index_of fs)).
  assert (Eid : map n_id ns = map fst (index_of fs)).
  { unfold ns. rewrite map_map. apply map_ext_in. intros [k n] Hk. cbn. apply SP in Hk. symmetry; tauto. }
  assert (UI : unique_ids ns) by (unfold unique_ids; rewrite Eid; auto).
  assert (Ln : (length ns <= fuel)%nat).
  { etransitivity; [|exact L]. rewrite <- (map_length n_id ns), <- (map_length n_id fs).
    apply NoDup_incl_length; auto. intros x Hx. apply in_map_iff in Hx. destruct Hx as (n & <- & Hn).
    unfold ns in Hn. apply in_map_iff in Hn. destruct Hn as ((k & n') & E & Hk). cbn in E. subst n'.
    apply SP in Hk. destruct Hk as (_ & a & b & -> & _). apply in_map. apply in_app_iff; right; left; auto. }
  destruct (rain_event_total ops ns UI fuel Ln) as (evs & E). unfold nw in E. rewrite E. cbn [bind].
  destruct (rain_event_inv ops ns UI fuel evs E) as (rv & Ev & G & K).
  destruct (copy_events evs (map (fun kn => (fst kn, (snd kn, None))) (index_of fs))) as (d' & E' & _).
  - rewrite map_map. cbn. exact ND.
  - intros e He. rewrite map_map. cbn. change (map (fun x => fst x) (index_of fs)) with (map fst (index_of fs)).
    rewrite <- Eid. assert (X : In (e_id e) (map fst rv)).
    { rewrite <- (good_ids _ _ _ G), <- Ev. apply in_map; auto. }
    apply K in X. destruct X as (r & R). destruct (root_of_node _ _ _ R) as (n & Hn & <-). apply in_map; auto.
  - rewrite E'. cbn. eauto.
Qed.

Lemma process_spec : forall fs fuel out, process ops fuel fs = Ok out ->
  map fst out = map snd (index_of fs) /\
  exists evs, rain_event ops fuel (add_nodes empty_network (map snd (index_of fs))) = Ok evs /\
  (forall n e, In (n, Some e) out -> In e evs /\ e_id e = n_id n /\ e_water e = n_water n) /\
  (forall n o, In (n, o) out -> (o = None <-> ~ exists r, root_of (map fst out) (n_id n) r)).
Proof.
  intros fs fuel out H. destruct (index_spec fs) as [ND SP]. unfold process in H.
  fold (index_of fs) in H. set (ns := map snd (index_of fs)) in *.
  assert (Eid : map n_id ns = map fst (index_of fs)).
  { unfold ns. rewrite map_map. apply map_ext_in. intros [k n] Hk. cbn. apply SP in Hk. symmetry; tauto. }
  assert (UI : unique_ids ns) by (unfold unique_ids; rewrite Eid; auto).
  apply bind_ok in H. destruct H as (evs & E & H).
  destruct (rain_event_inv ops ns UI fuel evs E) as (rv & Ev & G & K).
  assert (Iev : map e_id evs = map fst rv) by (rewrite Ev; eapply good_ids; eauto).
  destruct (copy_events evs (map (fun kn => (fst kn, (snd kn, None))) (index_of fs))) as (d' & E' & M & C).
  { rewrite map_map. cbn. exact ND. }
  { intros e He. rewrite map_map. cbn. change (map (fun x => fst x) (index_of fs)) with (map fst (index_of fs)).
    rewrite <- Eid. assert (X : In (e_id e) (map fst rv)) by (rewrite <- Iev; apply in_map; auto).
    apply K in X. destruct X as (r & R). destruct (root_of_node _ _ _ R) as (n & Hn & <-). apply in_map; auto. }
  rewrite E' in H. cbn in H. inversion H; subst out. clear H E'.
  assert (Mf : map fst (map snd d') = ns).
  { unfold ns. rewrite !map_map in *.
    assert (X : map (fun p : Z * (node * option event) => fst (snd p)) d' =
                map snd (map (fun p : Z * (node * option event) => (fst p, fst (snd p))) d'))
      by (rewrite map_map; reflexivity).
    rewrite X, M, map_map. reflexivity. }
  split; [exact Mf|]. exists evs. split; [auto|].
  assert (KN : forall k n o, In (k, (n, o)) d' -> k = n_id n /\ In n ns).
  { intros k n o Hk. assert (X : In (k, n) (index_of fs)).
    { assert (Y : In (k, n) (map (fun p : Z * (node * option event) => (fst p, fst (snd p))) d'))
        by (apply in_map_iff; exists (k, (n, o)); auto).
      rewrite M, map_map in Y. cbn in Y. apply in_map_iff in Y. destruct Y as ((k0 & n0) & Ey & Hy).
      cbn in Ey. inversion Ey; subst. auto. }
    split; [apply SP in X; tauto|]. unfold ns. apply in_map_iff. exists (k, n). auto. }
  split.
  - intros n e He. apply in_map_iff in He. destruct He as ((k & p) & Ep & Hk). cbn in Ep. subst p.
    destruct (KN _ _ _ Hk) as [-> Hn].
    destruct (C _ _ _ Hk) as [(e' & A & B & D)|[A B]].
    + inversion D; subst e'. split; [auto|]. split; [auto|].
      destruct (settled_event ops ns fuel evs UI E e A) as (m & ue & Hm & Em & _ & _ & Ee).
      assert (m = n) by (eapply NoDup_map_inj; eauto; congruence). subst m. rewrite Ee. reflexivity.
    + apply in_map_iff in B. destruct B as ((k0 & n0) & Ey & _). inversion Ey.
  - intros n o Ho. rewrite Mf. apply in_map_iff in Ho. destruct Ho as ((k & p) & Ep & Hk). cbn in Ep. subst p.
    destruct (KN _ _ _ Hk) as [-> Hn]. rewrite <- K, <- Iev.
    destruct (C _ _ _ Hk) as [(e' & A & B & D)|[A B]].
    + subst o. split; [discriminate|]. intros X. exfalso. apply X. rewrite <- B. apply in_map; auto.
    + split; auto. intros _. apply in_map_iff in B. destruct B as ((k0 & n0) & Ey & _). inversion Ey; auto.
Qed.

Lemma process_characterised : forall fs fuel out, process ops fuel fs = Ok out ->
  NoDup (map n_id (map fst out)) /\
  (forall n, In n (map fst out) <-> last_with_id fs n) /\
  (forall n e, In (n, Some e) out -> e_id e = n_id n /\ e_water e = n_water n) /\
  (forall n o, In (n, o) out -> (o = None <-> ~ exists r, root_of (map fst out) (n_id n) r)).
Proof.
  intros fs fuel out H. destruct (process_spec _ _ _ H) as (M & evs & E & A & B).
  destruct (index_spec fs) as [ND SP].
  split; [|split; [|split]].
  - rewrite M, map_map.
    erewrite map_ext_in; [exact ND|]. intros [k n] Hk. cbn. apply SP in Hk. symmetry; tauto.
  - intros n. rewrite M, in_map_iff. split.
    + intros ((k & n') & Ek & Hk). cbn in Ek. subst. apply SP in Hk. tauto.
    + intros L. exists (n_id n, n). split; auto. apply SP. auto.
  - intros n e He. destruct (A n e He); auto.
  - exact B.
Qed.

Lemma all_written : forall fs fuel out, unique_ids fs -> acyclic_closed fs ->
  process ops fuel fs = Ok out ->
  map fst out = fs /\ (forall n o, In (n, o) out -> exists e, o = Some e /\ e_id e = n_id n).
Proof.
  intros fs fuel out UI AC H. destruct (process_spec _ _ _ H) as (M & evs & E & A & B).
  rewrite index_unique in M by exact UI. split; [auto|].
  intros n o Ho. destruct o as [e|].
  - exists e. split; auto. apply (A n e Ho).
  - exfalso. apply (proj1 (B n None Ho) eq_refl). rewrite M. apply AC. rewrite <- M.
    apply in_map_iff. exists (n, None). auto.
Qed.
End Process.

Lemma process_conserves : forall (fs : list (@node Q)) fuel out, unique_ids fs -> acyclic_closed fs ->
  process QOps fuel fs = Ok out ->
  (Qsum (map n_water fs) ==
   Qsum (map out_vol out) + Qsum (map out_spill (filter (fun p => is_root (fst p)) out)))%Q.
Proof.
  intros fs fuel out UI AC H. destruct (process_spec _ _ _ _ H) as (M & evs & E & A & B).
  destruct (all_written _ _ _ _ UI AC H) as [M' W].
  rewrite index_unique in E by exact UI.
  pose proof (balance_conserves fs _ _ UI AC (run_balance fs UI _ _ E)) as C.
  rewrite C. destruct (run_facts fs UI _ _ E) as (rv & _ & _ & _ & _ & ND).
  assert (V : forall p f, In p out -> lookup evs f (n_id (fst p)) =
                match snd p with Some e => f e | None => 0%Q end).
  { intros [n o] f Hp. destruct (W n o Hp) as (e & -> & Ei). cbn. rewrite <- Ei.
    apply lookup_in; auto. apply (A n e Hp). }
  rewrite <- M' at 1. rewrite map_map.
  rewrite (Qsum_ext (fun x => lookup evs e_vol (n_id (fst x))) out_vol)
    by (intros p Hp; rewrite V by auto; reflexivity).
  apply Qplus_comp; [reflexivity|]. rewrite !sum_filter_indicator. rewrite <- M' at 1. rewrite map_map.
  apply Qsum_ext. intros p Hp. rewrite V by auto. reflexivity.
Qed.

(** ** Deciding the hypotheses of examples *)
Fixpoint root_reach {T} (ns : list (@node T)) (k : nat) (id : Z) : bool :=
  match k with
  | O => false
  | S k => match find (fun n => n_id n =? id) ns with
           | Some n => match n_dstr n with None => true | Some d => root_reach ns k d end
           | None => false
           end
  end.

Lemma root_reach_ok : forall {T} (ns : list (@node T)) k id, root_reach ns k id = true ->
  exists r, root_of ns id r.
Proof.
  induction k as [|k IH]; intros id H; cbn in H; [discriminate|].
  destruct (find _ ns) as [n|] eqn:F; [|discriminate].
  apply find_some in F. destruct F as [F1 F2]. apply Z.eqb_eq in F2. subst id.
  destruct (n_dstr n) as [d|] eqn:D.
  - destruct (IH d H) as (r & R). exists r. eapply ro_step; eauto.
  - exists (n_id n). apply ro_root; auto.
Qed.

Lemma acyclic_ok : forall {T} (ns : list (@node T)),
  forallb (fun n => root_reach ns (length ns) (n_id n)) ns = true -> acyclic_closed ns.
Proof. intros T ns H n Hn. rewrite forallb_forall in H. eapply root_reach_ok. apply H; auto. Qed.

Definition ids_ok {T} (ns : list (@node T)) : bool :=
  (fix go l := match l with [] => true | x :: t => negb (existsb (Z.eqb x) t) && go t end) (map n_id ns).
Lemma ids_ok_ok : forall {T} (ns : list (@node T)), ids_ok ns = true -> unique_ids ns.
Proof.
  unfold ids_ok, unique_ids. intros T ns. induction (map n_id ns) as [|x t IH]; intros H; constructor.
  - apply andb_prop in H. destruct H as [H _]. intros X. apply negb_true_iff in H.
    apply Bool.not_true_iff_false in H. apply H. apply existsb_exists. exists x. rewrite Z.eqb_refl. auto.
  - apply andb_prop in H. tauto.
Qed.

(** Two bluespots in a chain and a third one beside them, all ending in the sea (node 0). *)
Definition ex_net : list (@node Q) :=
  [mkNode 0 None (3#1) (0#1); mkNode 2 (Some 1) (10#1) (4#1);
   mkNode 1 (Some 0) (2#1) (5#1); mkNode 3 (Some 0) (1#2) (2#1)]%Z.
(** The same with more rain on node 3. *)
Definition ex_net' : list (@node Q) :=
  [mkNode 0 None (3#1) (0#1); mkNode 2 (Some 1) (10#1) (4#1);
   mkNode 1 (Some 0) (2#1) (5#1); mkNode 3 (Some 0) (5#2) (2#1)]%Z.
