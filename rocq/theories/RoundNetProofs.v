(** * Errors carried downstream *)

From Coq Require Import QArith Qabs Qreals Reals Lqa Lra Lia.
From Flocq Require Import Core IEEE754.BinarySingleNaN.
From Verif Require Import Base BaseProofs Num Float64 Float64Proofs Float64Arith Dict FillModel FillProofs FillSpec PipelineModel
  FloatQ NetworkModel NetworkSpec NetworkFloatSpec NetworkProofs NetworkThms NetworkFloatThms RoundSpec.
Local Open Scope Z_scope.

(** ** The graph *)
Section Graph.
Context {T : Type}.
Variable ns : list (@node T).
Hypothesis UI : unique_ids ns.
Hypothesis AC : acyclic_closed ns.

Lemma reaches_trans : forall a b c, reaches ns a b -> reaches ns b c -> reaches ns a c.
Proof. intros a b c H H'. induction H'; auto. eapply rc_on; eauto. Qed.

Lemma reaches_first : forall a b, reaches ns a b -> a = b \/ exists n d, In n ns /\ n_id n = a /\ n_dstr n = Some d /\ reaches ns d b.
Proof.
  intros a b H. induction H as [|n d H IH Hn Hd]; [left; auto|]. right. destruct IH as [E|(m & d' & Hm & Em & Dm & R)].
  - exists n, d. repeat split; auto. constructor.
  - exists m, d'. repeat split; auto. eapply rc_on; eauto.
Qed.

Lemma no_cycle : forall a r, root_of ns a r -> forall b, reaches ns a (n_id b) -> In b ns -> n_dstr b = Some a -> False.
Proof.
  intros a r H. induction H as [n Hn E|n d r Hn E H IH]; intros b R Hb Eb.
  - apply reaches_first in R. destruct R as [R|(m & d & Hm & Em & Dm & _)].
    + assert (n = b) by (apply (node_inj ns UI); auto). congruence.
    + assert (m = n) by (apply (node_inj ns UI); auto). congruence.
  - apply reaches_first in R. destruct R as [R|(m & d' & Hm & Em & Dm & R)].
    + assert (b = n) by (apply (node_inj ns UI); auto). subst b. assert (d = n_id n) by congruence. subst d.
      apply (IH n); auto. constructor.
    + assert (m = n) by (apply (node_inj ns UI); auto). subst m. assert (d' = d) by congruence. subst d'.
      apply (IH n); auto. eapply rc_on; eauto.
Qed.

(** What lies below one node is a line. *)
Lemma reaches_line : forall a b, reaches ns a b -> forall c, reaches ns a c -> reaches ns b c \/ reaches ns c b.
Proof.
  intros a b H. induction H as [|n d H IH Hn Hd]; intros c Hc; [auto|].
  destruct (IH c Hc) as [R|R].
  - apply reaches_first in R. destruct R as [E|(m & d' & Hm & Em & Dm & R)].
    + right. subst c. eapply rc_on; eauto. constructor.
    + assert (m = n) by (apply (node_inj ns UI); auto). subst m. assert (d' = d) by congruence. subst. auto.
  - right. eapply rc_on; eauto.
Qed.

Lemma upstream_apart : forall k u v a, In u ns -> In v ns -> n_dstr u = Some k -> n_dstr v = Some k ->
  reaches ns a (n_id u) -> reaches ns a (n_id v) -> u = v.
Proof.
  intros k u v a Hu Hv Du Dv Ru Rv.
  assert (X : forall u v, In u ns -> In v ns -> n_dstr u = Some k -> n_dstr v = Some k -> reaches ns (n_id u) (n_id v) -> u = v).
  { clear u v Hu Hv Du Dv Ru Rv. intros u v Hu Hv Du Dv R. apply reaches_first in R. destruct R as [E|(m & d & Hm & Em & Dm & R)].
    - apply (node_inj ns UI); auto.
    - exfalso. assert (m = u) by (apply (node_inj ns UI); auto). subst m. assert (d = k) by congruence. subst d.
      destruct (AC v Hv) as (r & Rv). inversion Rv as [n' ? ? E|n' d' r0 Hn' Hd' Hr' E]; subst.
      + assert (n' = v) by (apply (node_inj ns UI); auto). congruence.
      + assert (n' = v) by (apply (node_inj ns UI); auto). subst n'. assert (d' = k) by congruence. subst d'.
        apply (no_cycle _ _ Hr' v); auto. }
  destruct (reaches_line _ _ Ru _ Rv) as [R|R]; [apply X; auto|symmetry; apply X; auto].
Qed.

Inductive ordered : list Z -> Prop :=
| or_nil : ordered []
| or_snoc : forall l k, ordered l -> (forall u, In u (direct_upstream ns k) -> In (n_id u) l) -> ordered (l ++ [k]).

Variable X : Type.
Variable idx : X -> Z.
Variable comb : list X.
Variable err : X -> Q.
Variable D : Z -> Q.
Hypothesis NDc : NoDup (map idx comb).
Hypothesis All : forall x, In x comb <-> exists n, In n ns /\ n_id n = idx x /\ In x comb.
Hypothesis Has : forall n, In n ns -> exists x, In x comb /\ idx x = n_id n.
Hypothesis Step : forall x, In x comb -> (D (idx x) <= err x + Qsum (map (fun u => D (n_id u)) (direct_upstream ns (idx x))))%Q.

Definition upset (k : Z) (us : list X) : Prop :=
  NoDup us /\ (forall y, In y us <-> In y comb /\ reaches ns (idx y) k) /\ (D k <= Qsum (map err us))%Q.

Lemma forall_exists : forall {A B} (P : A -> B -> Prop) l, (forall a, In a l -> exists b, P a b) -> exists bs, Forall2 P l bs.
Proof.
  induction l as [|a l IH]; intros H; [exists []; constructor|].
  destruct (H a (or_introl eq_refl)) as (b & Hb). destruct IH as (bs & Hbs); [intros; apply H; right; auto|].
  exists (b :: bs). constructor; auto.
Qed.

Lemma Qsum_app : forall a b, (Qsum (a ++ b) == Qsum a + Qsum b)%Q.
Proof. induction a as [|x a IH]; intros b; cbn [app Qsum]; [ring|]. rewrite IH. ring. Qed.

Lemma concat_upsets : forall k l uss, (forall u, In u l -> In u ns /\ n_dstr u = Some k) -> NoDup (map n_id l) ->
  Forall2 (fun u us => upset (n_id u) us) l uss ->
  NoDup (concat uss) /\ (forall y, In y (concat uss) <-> In y comb /\ exists u, In u l /\ reaches ns (idx y) (n_id u)) /\
  (Qsum (map (fun u => D (n_id u)) l) <= Qsum (map err (concat uss)))%Q.
Proof.
  intros k l uss Hl ND F. induction F as [|u us l uss (U1 & U2 & U3) F IH]; cbn [concat map Qsum].
  - split; [constructor|]. split; [intros y; split; [intros []|intros (_ & u & [] & _)]|apply Qle_refl].
  - inversion ND as [|? ? Nu ND']; subst. destruct IH as (I1 & I2 & I3); [intros; apply Hl; right; auto|exact ND'|].
    split; [|split].
    + apply NoDup_app_intro; auto. intros y Y1 Y2. apply U2 in Y1. apply I2 in Y2. destruct Y1 as [_ Y1], Y2 as (_ & v & Hv & Y2).
      destruct (Hl u (or_introl eq_refl)) as [A1 A2], (Hl v (or_intror Hv)) as [B1 B2].
      assert (u = v) by (eapply upstream_apart; eauto). subst v. apply Nu. apply in_map. exact Hv.
    + intros y. rewrite in_app_iff, U2, I2. split.
      * intros [[Y1 Y2]|(Y1 & v & Hv & Y2)]; (split; [exact Y1|]); [exists u; split; [left; auto|exact Y2]|exists v; split; [right; auto|exact Y2]].
      * intros (Y1 & v & [<-|Hv] & Y2); [left; auto|right]. split; [exact Y1|]. exists v. auto.
    + rewrite map_app, Qsum_app. apply Qplus_le_compat; auto.
Qed.

Lemma graph_bound : forall l, ordered l -> forall x, In x comb -> In (idx x) l -> exists us, upset (idx x) us.
Proof.
  intros l O. induction O as [|l k O IH U]; intros x Hx Hi; [destruct Hi|].
  apply in_app_iff in Hi. destruct Hi as [Hi|[Ek|[]]]; [apply IH; auto|].
  destruct (forall_exists (fun u us => upset (n_id u) us) (direct_upstream ns k)) as (uss & F).
  { intros u Hu. pose proof Hu as Hu'. apply (in_direct ns) in Hu'. destruct Hu' as [Hn _]. destruct (Has u Hn) as (y & Hy & Ey).
    rewrite <- Ey. apply IH; auto. rewrite Ey. apply U. exact Hu. }
  destruct (concat_upsets k (direct_upstream ns k) uss) as (C1 & C2 & C3); [intros u Hu; apply (in_direct ns); exact Hu|apply direct_nodup; exact UI|exact F|].
  exists (x :: concat uss). subst k. split; [|split].
  - constructor; auto. intros Y. apply C2 in Y. destruct Y as (_ & u & Hu & R). apply (in_direct ns) in Hu. destruct Hu as [Hu Du].
    destruct (proj1 (All x) Hx) as (n & Hn & En & _). rewrite <- En in R, Du. destruct (AC n Hn) as (r & Hr).
    apply (no_cycle _ _ Hr u); auto.
  - intros y. cbn [In]. rewrite C2. split.
    + intros [<-|(Y1 & u & Hu & R)]; [split; [exact Hx|constructor]|]. split; [exact Y1|].
      apply (in_direct ns) in Hu. destruct Hu as [Hu Du]. eapply rc_on; eauto.
    + intros [Y1 R]. inversion R as [E|n d R' Hn Dn E].
      * left. apply (NoDup_map_inj idx _ _ _ NDc Hx Y1). congruence.
      * right. split; [exact Y1|]. exists n. split; [apply (in_direct ns); split; [exact Hn|congruence]|exact R'].
  - cbn [map Qsum]. eapply Qle_trans; [apply Step; exact Hx|]. apply Qplus_le_compat; [apply Qle_refl|exact C3].
Qed.
End Graph.
