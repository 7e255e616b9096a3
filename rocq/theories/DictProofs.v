(** * Lemmas about dicts *)

From Verif Require Import Base Dict.

Section DictProofs.
Context {K V : Type}.
Variable eqb : K -> K -> bool.
Hypothesis eqb_spec : forall a b, reflect (a = b) (eqb a b).

Lemma dget_dset_same : forall (d : list (K * V)) k v, dget eqb (dset eqb d k v) k = Some v.
Proof.
  induction d as [|[k' v'] d IH]; intros k v; cbn.
  - destruct (eqb_spec k k); congruence.
  - destruct (eqb_spec k' k) as [E|E]; cbn.
    + destruct (eqb_spec k' k); congruence.
    + destruct (eqb_spec k' k); [congruence | apply IH].
Qed.

Lemma dget_dset_other : forall (d : list (K * V)) k v k', k <> k' ->
  dget eqb (dset eqb d k v) k' = dget eqb d k'.
Proof.
  induction d as [|[k0 v0] d IH]; intros k v k' N; cbn.
  - destruct (eqb_spec k k'); congruence.
  - destruct (eqb_spec k0 k) as [E|E]; cbn.
    + subst. destruct (eqb_spec k k'); congruence.
    + destruct (eqb_spec k0 k'); [reflexivity | apply IH; exact N].
Qed.

Lemma dget_in : forall (d : list (K * V)) k v, dget eqb d k = Some v -> In (k, v) d.
Proof.
  induction d as [|[k0 v0] d IH]; cbn; intros k v H; [discriminate|].
  destruct (eqb_spec k0 k) as [->|N]; [left; congruence | right; auto].
Qed.

Lemma dget_none : forall (d : list (K * V)) k, dget eqb d k = None <-> ~ In k (map fst d).
Proof.
  induction d as [|[k0 v0] d IH]; cbn; intros k; [tauto|].
  destruct (eqb_spec k0 k) as [->|N].
  - split; [discriminate | intros H; exfalso; apply H; auto].
  - rewrite IH. tauto.
Qed.

Lemma dget_nodup : forall (d : list (K * V)) k v,
  NoDup (map fst d) -> In (k, v) d -> dget eqb d k = Some v.
Proof.
  induction d as [|[k0 v0] d IH]; cbn; intros k v ND H; [tauto|].
  inversion ND; subst.
  destruct H as [E|H].
  - inversion E; subst. destruct (eqb_spec k k); congruence.
  - destruct (eqb_spec k0 k) as [->|N]; [|auto].
    exfalso. apply H2. apply in_map_iff. exists (k, v). auto.
Qed.

Lemma dset_fresh : forall (d : list (K * V)) k v,
  ~ In k (map fst d) -> dset eqb d k v = d ++ [(k, v)].
Proof.
  induction d as [|[k0 v0] d IH]; cbn; intros k v H; [reflexivity|].
  destruct (eqb_spec k0 k) as [->|N]; [exfalso; auto|].
  rewrite IH; auto.
Qed.

Lemma dset_keys_present : forall (d : list (K * V)) k v,
  In k (map fst d) -> map fst (dset eqb d k v) = map fst d.
Proof.
  induction d as [|[k0 v0] d IH]; cbn; intros k v H; [tauto|].
  destruct (eqb_spec k0 k) as [->|N]; cbn; [reflexivity|].
  f_equal. apply IH. destruct H; congruence.
Qed.

Lemma dset_keys : forall (d : list (K * V)) k v x,
  In x (map fst (dset eqb d k v)) <-> x = k \/ In x (map fst d).
Proof.
  intros d k v x.
  destruct (dget eqb d k) eqn:E.
  - assert (In k (map fst d)).
    { apply dget_in in E. apply in_map_iff. exists (k, v0). auto. }
    rewrite dset_keys_present by auto. split; [auto | intros [->|H']; auto].
  - apply dget_none in E. rewrite dset_fresh by auto.
    rewrite map_app, in_app_iff. cbn. intuition auto.
Qed.

Lemma dset_nodup : forall (d : list (K * V)) k v,
  NoDup (map fst d) -> NoDup (map fst (dset eqb d k v)).
Proof.
  intros d k v ND. destruct (dget eqb d k) eqn:E.
  - rewrite dset_keys_present; auto.
    apply dget_in in E. apply in_map_iff. exists (k, v0). auto.
  - apply dget_none in E. rewrite dset_fresh by auto.
    rewrite map_app. cbn.
    apply NoDup_rev in ND. rewrite <- (rev_involutive (map fst d ++ [k])).
    apply NoDup_rev. rewrite rev_app_distr. cbn. constructor; auto.
    rewrite <- in_rev. exact E.
Qed.

Lemma dset_in : forall (d : list (K * V)) k v k' v', NoDup (map fst d) ->
  In (k', v') (dset eqb d k v) <-> (k' = k /\ v' = v) \/ (k' <> k /\ In (k', v') d).
Proof.
  intros d k v k' v' ND. split.
  - intros H. pose proof (dget_nodup _ _ _ (dset_nodup d k v ND) H) as G.
    destruct (eqb_spec k k') as [->|N].
    + rewrite dget_dset_same in G. left. split; congruence.
    + rewrite dget_dset_other in G by auto. right. split; [congruence|]. apply dget_in; auto.
  - intros [[-> ->]|[N H]].
    + apply dget_in. apply dget_dset_same.
    + apply dget_in. rewrite dget_dset_other by congruence. apply dget_nodup; auto.
Qed.
End DictProofs.

Lemma optZ_eqb_spec : forall a b, reflect (a = b) (optZ_eqb a b).
Proof.
  intros [a|] [b|]; cbn; try (constructor; congruence).
  destruct (Z.eqb_spec a b); constructor; congruence.
Qed.
