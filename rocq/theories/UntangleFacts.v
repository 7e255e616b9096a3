(** * What junction insertion preserves *)

From Coq Require Import Permutation QArith.
From Verif Require Import Base BaseProofs Dict FlowModel NetModel NetSpec UntangleProofs NetworkSpec NetworkThms.
Local Open Scope Z_scope.

Lemma in_pruned : forall a pix prs m, In m (map (pruned a pix) prs) -> exists n r, In (n, r) prs /\
  In n (map fst prs) /\ m = mkG (g_id n) (Some a) (g_junction n) (g_pix n) (r ++ [pix]).
Proof.
  intros a pix prs m H. apply in_map_iff in H. destruct H as ([n r] & <- & Hin). exists n, r.
  split; auto. split; auto. apply in_map_iff. exists (n, r). auto.
Qed.

Lemma in_pruned_of : forall prs a pix n, In n (map fst prs) -> exists r, In (n, r) prs /\
  In (mkG (g_id n) (Some a) (g_junction n) (g_pix n) (r ++ [pix])) (map (pruned a pix) prs).
Proof.
  intros prs a pix n H. apply in_map_iff in H. destruct H as ([m r] & E & H). cbn in E. subst m.
  exists r. split; auto. apply in_map_iff. exists (n, r). auto.
Qed.

(** ** Ids *)
Theorem unt_ids : forall ns a out b, unt ns a out b -> a <= b /\
  Permutation (map g_id out) (map g_id ns ++ zseq a (Z.to_nat (b - a))).
Proof.
  intros ns a out b H.
  induction H as [a|n rest a out b ND AP H IH|prs pix t D rest a out1 b out2 c NE TN P HD AP H1 IH1 H2 IH2|ns ms a out b PM H IH].
  - split; [lia|]. rewrite Z.sub_diag. constructor.
  - destruct IH. split; auto. cbn [map app]. constructor; auto.
  - destruct IH1 as [L1 P1], IH2 as [L2 P2]. split; [lia|]. cbn [map g_id]. rewrite !map_app.
    replace (Z.to_nat (c - a)) with (S (Z.to_nat (b - (a + 1)) + Z.to_nat (c - b)))%nat by lia.
    cbn [zseq]. rewrite zseq_app. replace (a + 1 + Z.of_nat (Z.to_nat (b - (a + 1)))) with b by lia.
    rewrite map_map in P1.
    replace (map (fun x => g_id (pruned a pix x)) prs) with (map g_id (map fst prs)) in P1
      by (rewrite map_map; apply map_ext; intros [? ?]; reflexivity).
    apply Permutation_cons_app. rewrite P1, P2. rewrite <- !app_assoc. apply Permutation_app_head.
    rewrite !app_assoc. apply Permutation_app_tail. apply Permutation_app_comm.
  - destruct IH as [L P]. split; auto. rewrite P. apply Permutation_app_tail. apply Permutation_map. symmetry. auto.
Qed.

Definition key (n : gnode) : Z * cell := (g_id n, g_pix n).
Definition pour (n : gnode) : bool := negb (g_junction n).

Theorem unt_pour : forall ns a out b, unt ns a out b ->
  Permutation (map key (filter pour out)) (map key (filter pour ns)).
Proof.
  intros ns a out b H.
  induction H as [a|n rest a out b ND AP H IH|prs pix t D rest a out1 b out2 c NE TN P HD AP H1 IH1 H2 IH2|ns ms a out b PM H IH].
  - constructor.
  - cbn [filter]. destruct (pour n); cbn [map]; auto.
  - cbn [filter]. change (pour (mkG a D true pix (pix :: t))) with false. cbv iota.
    rewrite !filter_app, !map_app. apply Permutation_app; auto. rewrite IH1. clear.
    assert (E : map key (filter pour (map (pruned a pix) prs)) = map key (filter pour (map fst prs))).
    { induction prs as [|[n r] prs IH]; cbn [map filter]; auto.
      change (pour (pruned a pix (n, r))) with (pour n). cbn [fst].
      destruct (pour n); cbn [map]; [f_equal|]; auto. }
    rewrite E. auto.
  - rewrite IH. apply Permutation_map. apply filter_perm. symmetry. auto.
Qed.

Theorem unt_junction : forall ns a out b, unt ns a out b -> (forall n, In n ns -> g_junction n = false) ->
  forall o, In o out -> g_junction o = true -> a <= g_id o < b.
Proof.
  intros ns a out b H.
  induction H as [a|n rest a out b ND AP H IH|prs pix t D rest a out1 b out2 c NE TN P HD AP H1 IH1 H2 IH2|ns ms a out b PM H IH];
    intros J o Ho Jo.
  - destruct Ho.
  - destruct Ho as [<-|Ho].
    + rewrite (J n (or_introl eq_refl)) in Jo. discriminate.
    + apply IH; auto. intros; apply J; right; auto.
  - destruct (unt_ids _ _ _ _ H1) as [L1 _]. destruct (unt_ids _ _ _ _ H2) as [L2 _].
    destruct Ho as [<-|Ho]; [cbn [g_id]; lia|]. apply in_app_or in Ho. destruct Ho as [Ho|Ho].
    + assert (a + 1 <= g_id o < b); [|lia]. apply IH1; auto. intros m Hm. apply in_pruned in Hm.
      destruct Hm as (n & r & _ & Hn & ->). apply (J n). apply in_or_app; auto.
    + assert (b <= g_id o < c); [|lia]. apply IH2; auto. intros; apply J; apply in_or_app; auto.
  - apply IH; auto. intros n Hn. apply J. apply Permutation_sym in PM. eapply Permutation_in; eauto.
Qed.

(** ** Following nodes *)
Lemma reach_app : forall F a p d, reach F a p d -> forall j, In j F -> g_junction j = true -> d = Some (g_id j) ->
  (forall n, In n F -> g_geom n <> []) ->
  p <> [] /\ reach F a (removelast p ++ g_geom j) (g_dstr j).
Proof.
  intros F a p d H. induction H as [n Hn|n j p d Hn Hj Jj Ed H IH]; intros j' Hj' Jj' E NE.
  - split; auto. apply (rc_junction F n j'); auto. apply rc_here; auto.
  - destruct (IH j' Hj' Jj' E NE) as [Np R]. split.
    { intros X. apply app_eq_nil in X. tauto. }
    rewrite removelast_app by auto. rewrite <- app_assoc. apply (rc_junction F n j); auto.
Qed.

Theorem unt_nonempty : forall ns a out b, unt ns a out b -> (forall n, In n ns -> g_geom n <> []) ->
  forall o, In o out -> g_geom o <> [].
Proof.
  intros ns a out b H.
  induction H as [a|n rest a out b ND AP H IH|prs pix t D rest a out1 b out2 c NE TN P HD AP H1 IH1 H2 IH2|ns ms a out b PM H IH];
    intros J o Ho.
  - destruct Ho.
  - destruct Ho as [<-|Ho]; [apply J; left; auto|]. apply IH; auto. intros; apply J; right; auto.
  - destruct Ho as [<-|Ho]; [discriminate|]. apply in_app_or in Ho. destruct Ho as [Ho|Ho].
    + apply IH1; auto. intros m Hm. apply in_pruned in Hm. destruct Hm as (n & r & _ & _ & ->). cbn [g_geom].
      intros X. apply app_eq_nil in X. destruct X; discriminate.
    + apply IH2; auto. intros; apply J; apply in_or_app; auto.
  - apply IH; auto. intros n Hn. apply J. apply Permutation_sym in PM. eapply Permutation_in; eauto.
Qed.

Theorem unt_reach : forall ns a out b, unt ns a out b -> forall F, incl out F ->
  (forall n, In n F -> g_geom n <> []) ->
  forall n, In n ns -> reach F (g_id n) (g_geom n) (g_dstr n).
Proof.
  intros ns a out b H.
  induction H as [a|n rest a out b ND AP H IH|prs pix t D rest a out1 b out2 c NE TN P HD AP H1 IH1 H2 IH2|ns ms a out b PM H IH];
    intros F I NF m Hm.
  - destruct Hm.
  - destruct Hm as [<-|Hm]; [apply rc_here; apply I; left; auto|]. apply IH; auto. intros x Hx. apply I. right; auto.
  - apply in_app_or in Hm. destruct Hm as [Hm|Hm].
    + destruct (in_pruned_of prs a pix m Hm) as (r & Hr & Hin).
      specialize (IH1 F ltac:(intros x Hx; apply I; right; apply in_or_app; auto) NF _ Hin). cbn [g_id g_geom g_dstr] in IH1.
      destruct (reach_app F _ _ _ IH1 (mkG a D true pix (pix :: t))) as [_ R]; auto.
      { apply I. left; auto. }
      rewrite removelast_last in R. cbn [g_geom g_dstr] in R. destruct (P m r Hr) as [-> _].
      destruct (HD m Hm) as [-> _]. exact R.
    + apply IH2; auto. intros x Hx; apply I; right; apply in_or_app; auto.
  - apply IH; auto. eapply Permutation_in; eauto.
Qed.

(** Every node reaches the reference of some original node. *)
Theorem unt_reach_out : forall ns a out b, unt ns a out b -> forall F, incl out F ->
  (forall n, In n F -> g_geom n <> []) ->
  forall o, In o out -> exists p n, In n ns /\ reach F (g_id o) p (g_dstr n).
Proof.
  intros ns a out b H.
  induction H as [a|n rest a out b ND AP H IH|prs pix t D rest a out1 b out2 c NE TN P HD AP H1 IH1 H2 IH2|ns ms a out b PM H IH];
    intros F I NF o Ho.
  - destruct Ho.
  - destruct Ho as [<-|Ho].
    + exists (g_geom n), n. split; [left; auto|]. apply rc_here. apply I. left; auto.
    + destruct (IH F ltac:(intros x Hx; apply I; right; auto) NF o Ho) as (p & m & Hm & R). exists p, m. split; [right|]; auto.
  - assert (X : exists n0, In n0 (map fst prs)) by (destruct prs as [|[n0 r0] ?]; [congruence|]; exists n0; left; auto).
    destruct X as (n0 & Hn0). destruct Ho as [<-|Ho].
    + exists (pix :: t), n0. split; [apply in_or_app; auto|]. destruct (HD n0 Hn0) as [-> _].
      change a with (g_id (mkG a D true pix (pix :: t))) at 1. apply (rc_here F (mkG a D true pix (pix :: t))).
      apply I. left; auto.
    + apply in_app_or in Ho. destruct Ho as [Ho|Ho].
      * destruct (IH1 F ltac:(intros x Hx; apply I; right; apply in_or_app; auto) NF o Ho) as (p & m & Hm & R).
        apply in_pruned in Hm. destruct Hm as (n & r & _ & Hn & ->). cbn [g_dstr] in R.
        destruct (reach_app F _ _ _ R (mkG a D true pix (pix :: t))) as [_ R']; auto.
        { apply I. left; auto. }
        eexists. exists n. split; [apply in_or_app; auto|]. destruct (HD n Hn) as [-> _]. exact R'.
      * destruct (IH2 F ltac:(intros x Hx; apply I; right; apply in_or_app; auto) NF o Ho) as (p & m & Hm & R).
        exists p, m. split; [apply in_or_app|]; auto.
  - destruct (IH F I NF o Ho) as (p & n & Hn & R). exists p, n. split; auto.
    apply Permutation_sym in PM. eapply Permutation_in; eauto.
Qed.

(** ** Where streams start and end *)
Theorem unt_heads : forall ns a out b, unt ns a out b ->
  (forall n, In n ns -> hd_error (g_geom n) = Some (g_pix n)) ->
  forall o, In o out -> hd_error (g_geom o) = Some (g_pix o).
Proof.
  intros ns a out b H.
  induction H as [a|n rest a out b ND AP H IH|prs pix t D rest a out1 b out2 c NE TN P HD AP H1 IH1 H2 IH2|ns ms a out b PM H IH];
    intros J o Ho.
  - destruct Ho.
  - destruct Ho as [<-|Ho]; [apply J; left; auto|]. apply IH; auto. intros; apply J; right; auto.
  - destruct Ho as [<-|Ho]; [reflexivity|]. apply in_app_or in Ho. destruct Ho as [Ho|Ho].
    + apply IH1; auto. intros m Hm. apply in_pruned in Hm. destruct Hm as (n & r & Hr & Hn & ->). cbn [g_geom g_pix].
      specialize (J n (in_or_app _ _ _ (or_introl Hn))). destruct (P n r Hr) as [G Nr]. rewrite G in J.
      destruct r; [congruence|]. exact J.
    + apply IH2; auto. intros; apply J; apply in_or_app; auto.
  - apply IH; auto. intros n Hn. apply J. apply Permutation_sym in PM. eapply Permutation_in; eauto.
Qed.

(** A node of the result either keeps the reference (and end) of an original node, or ends
    at the cell of the junction it refers to. *)
Theorem unt_ends : forall ns a out b, unt ns a out b ->
  forall o, In o out ->
  (exists n, In n ns /\ g_dstr o = g_dstr n /\ lst (g_geom o) = lst (g_geom n)) \/
  (exists j, In j out /\ g_junction j = true /\ g_dstr o = Some (g_id j) /\ lst (g_geom o) = g_pix j).
Proof.
  intros ns a out b H.
  induction H as [a|n rest a out b ND AP H IH|prs pix t D rest a out1 b out2 c NE TN P HD AP H1 IH1 H2 IH2|ns ms a out b PM H IH];
    intros o Ho.
  - destruct Ho.
  - destruct Ho as [<-|Ho]; [left; exists n; split; [left|]; auto|].
    destruct (IH o Ho) as [(m & Hm & X)|(j & Hj & X)]; [left; exists m | right; exists j]; (split; [right|]; auto).
  - destruct Ho as [<-|Ho].
    + left. destruct prs as [|[n0 r0] prs]; [congruence|]. exists n0. split; [left; auto|].
      destruct (HD n0 (or_introl eq_refl)) as [-> _]. destruct (P n0 r0 (or_introl eq_refl)) as [-> _].
      split; [reflexivity|]. cbn [g_geom]. unfold lst. rewrite (last_app_ne r0 (pix :: t)) by discriminate. reflexivity.
    + apply in_app_or in Ho. destruct Ho as [Ho|Ho].
      * destruct (IH1 o Ho) as [(m & Hm & E & L)|(j & Hj & X)].
        -- right. exists (mkG a D true pix (pix :: t)). split; [left; auto|]. apply in_pruned in Hm.
           destruct Hm as (n & r & _ & _ & ->). cbn [g_dstr g_geom g_pix g_id g_junction] in *. rewrite lst_app in L. auto.
        -- right. exists j. split; [right; apply in_or_app|]; auto.
      * destruct (IH2 o Ho) as [(m & Hm & X)|(j & Hj & X)].
        -- left. exists m. split; [apply in_or_app|]; auto.
        -- right. exists j. split; [right; apply in_or_app|]; auto.
  - destruct (IH o Ho) as [(n & Hn & X)|Y]; auto. left. exists n. split; auto.
    apply Permutation_sym in PM. eapply Permutation_in; eauto.
Qed.

(** ** Consecutive cells *)
Lemma steps_app : forall (R : cell -> cell -> Prop) l1 x l2, (forall u v, step_in (l1 ++ x :: l2) u v -> R u v) ->
  (forall u v, step_in (l1 ++ [x]) u v -> R u v) /\ (forall u v, step_in (x :: l2) u v -> R u v).
Proof.
  intros R l1 x l2 H. split; intros u v (p & q & E); apply H.
  - exists p, (q ++ l2). change (l1 ++ x :: l2) with (l1 ++ [x] ++ l2). rewrite app_assoc, E, <- app_assoc. reflexivity.
  - exists (l1 ++ p), q. rewrite E, app_assoc. reflexivity.
Qed.

Theorem unt_steps : forall (R : cell -> cell -> Prop) ns a out b, unt ns a out b ->
  (forall n, In n ns -> forall u v, step_in (g_geom n) u v -> R u v) ->
  forall o, In o out -> forall u v, step_in (g_geom o) u v -> R u v.
Proof.
  intros R ns a out b H.
  induction H as [a|n rest a out b ND AP H IH|prs pix t D rest a out1 b out2 c NE TN P HD AP H1 IH1 H2 IH2|ns ms a out b PM H IH];
    intros J o Ho.
  - destruct Ho.
  - destruct Ho as [<-|Ho]; [apply J; left; auto|]. apply IH; auto. intros; eapply J; eauto. right; auto.
  - destruct Ho as [<-|Ho].
    + destruct prs as [|[n0 r0] prs]; [congruence|]. cbn [g_geom]. destruct (P n0 r0 (or_introl eq_refl)) as [G _].
      specialize (J n0 (or_introl eq_refl)). rewrite G in J. apply steps_app in J. apply J.
    + apply in_app_or in Ho. destruct Ho as [Ho|Ho].
      * apply IH1; auto. intros m Hm. apply in_pruned in Hm. destruct Hm as (n & r & Hr & Hn & ->). cbn [g_geom].
        specialize (J n (in_or_app _ _ _ (or_introl Hn))). destruct (P n r Hr) as [G _]. rewrite G in J. apply steps_app in J. apply J.
      * apply IH2; auto. intros; eapply J; eauto. apply in_or_app; auto.
  - apply IH; auto. intros n Hn. apply J. apply Permutation_sym in PM. eapply Permutation_in; eauto.
Qed.

(** A stream of one cell is one from before junction insertion. *)
Theorem unt_short : forall ns a out b, unt ns a out b -> forall o, In o out -> length (g_geom o) = 1%nat -> In o ns.
Proof.
  intros ns a out b H.
  induction H as [a|n rest a out b ND AP H IH|prs pix t D rest a out1 b out2 c NE TN P HD AP H1 IH1 H2 IH2|ns ms a out b PM H IH];
    intros o Ho L.
  - destruct Ho.
  - destruct Ho as [<-|Ho]; [left; auto|]. right. auto.
  - destruct Ho as [<-|Ho]; [cbn [g_geom length] in L; destruct t; [congruence|discriminate]|].
    apply in_app_or in Ho. destruct Ho as [Ho|Ho]; [|apply in_or_app; auto].
    exfalso. specialize (IH1 o Ho L). apply in_pruned in IH1. destruct IH1 as (n & r & Hr & _ & ->). destruct (P n r Hr) as [_ Nr].
    cbn [g_geom] in L. rewrite app_length in L. cbn [length] in L. destruct r; [congruence|cbn [length] in L; lia].
  - apply Permutation_sym in PM. eapply Permutation_in; eauto.
Qed.

(** ... and such a stream is kept. *)
Theorem unt_short_kept : forall ns a out b, unt ns a out b -> forall n, In n ns -> length (g_geom n) = 1%nat -> In n out.
Proof.
  intros ns a out b H.
  induction H as [a|n rest a out b ND AP H IH|prs pix t D rest a out1 b out2 c NE TN P HD AP H1 IH1 H2 IH2|ns ms a out b PM H IH];
    intros o Ho L.
  - destruct Ho.
  - destruct Ho as [<-|Ho]; [left; auto|]. right. auto.
  - apply in_app_or in Ho. destruct Ho as [Ho|Ho].
    + exfalso. apply in_map_iff in Ho. destruct Ho as ([n r] & <- & Hr). destruct (P n r Hr) as [G Nr]. cbn [fst] in L. rewrite G, app_length in L.
      cbn [length] in L. destruct r; [congruence|cbn [length] in L; lia].
    + right. apply in_or_app. right. apply IH2; auto.
  - apply IH; auto. eapply Permutation_in; eauto.
Qed.

(** ** Streams do not overlap *)
Lemma fop_app : forall {A} (R : A -> A -> Prop) l1 l2, ForallOrdPairs R l1 -> ForallOrdPairs R l2 ->
  (forall x y, In x l1 -> In y l2 -> R x y) -> ForallOrdPairs R (l1 ++ l2).
Proof.
  intros A R l1 l2 H. induction H as [|x l1 Hx H IH]; intros H2 X; auto. cbn [app]. constructor.
  - apply Forall_app. split; auto. apply Forall_forall. intros y Hy. apply X; auto. left; auto.
  - apply IH; auto. intros; apply X; auto. right; auto.
Qed.

Lemma body_parts : forall n r pix t, g_geom n = r ++ pix :: t -> body n = r ++ removelast (pix :: t).
Proof. intros n r pix t E. unfold body. rewrite E. apply removelast_app. discriminate. Qed.

Lemma NoDup_app_l : forall {A} (l1 l2 : list A), NoDup (l1 ++ l2) -> NoDup l1 /\ NoDup l2 /\ forall x, In x l1 -> In x l2 -> False.
Proof.
  intros A l1 l2 H. induction l1 as [|x l1 IH]; cbn [app] in H.
  - split; [constructor|]. split; auto.
  - inversion H as [|? ? N1 N2]; subst. destruct (IH N2) as (A1 & A2 & A3). split; [|split; auto].
    + constructor; auto. intros X. apply N1. apply in_or_app; auto.
    + intros y [<-|Hy] Hy2; [apply N1; apply in_or_app; auto | eauto].
Qed.

Theorem unt_apart : forall ns a out b, unt ns a out b -> 
  ForallOrdPairs apart out /\ (forall o x, In o out -> In x (body o) -> exists n, In n ns /\ In x (body n)) /\
  (forall o, In o out -> NoDup (g_geom o)).
Proof.
  intros ns a out b H.
  induction H as [a|n rest a out b ND AP H IH|prs pix t D rest a out1 b out2 c NE TN P HD AP H1 IH1 H2 IH2|ns ms a out b PM H IH].
  - split; [constructor|]. split; intros o; [intros x []|intros []].
  - destruct IH as (F & S & N). split; [|split].
    + constructor; auto. apply Forall_forall. intros o Ho x X Y. destruct (S o x Ho Y) as (m & Hm & Z).
      exact (AP m Hm x X Z).
    + intros o x [<-|Ho] X; [exists n; split; [left|]; auto|]. destruct (S o x Ho X) as (m & Hm & Z). exists m.
      split; [right|]; auto.
    + intros o [<-|Ho]; auto.
  - destruct IH1 as (F1 & S1 & N1), IH2 as (F2 & S2 & N2).
    assert (S1' : forall o x, In o out1 -> In x (body o) -> exists n r, In (n, r) prs /\ In n (map fst prs) /\ In x r).
    { intros o x Ho X. destruct (S1 o x Ho X) as (m & Hm & Z). apply in_pruned in Hm.
      destruct Hm as (n & r & Hr & Hn & ->). unfold body in Z. cbn [g_geom] in Z. rewrite removelast_last in Z. eauto. }
    split; [|split].
    + constructor.
      * apply Forall_forall. intros o Ho x X Y. unfold body in X at 1. cbn [g_geom] in X.
        apply in_app_or in Ho. destruct Ho as [Ho|Ho].
        -- destruct (S1' o x Ho Y) as (n & r & Hr & Hn & Z). destruct (P n r Hr) as [G _].
           destruct (HD n Hn) as [_ NDn]. rewrite G in NDn. apply NoDup_app_l in NDn. destruct NDn as (_ & _ & K).
           apply (K x Z). apply removelast_in. exact X.
        -- destruct (S2 o x Ho Y) as (m & Hm & Z). destruct prs as [|[n0 r0] prs]; [congruence|].
           apply (AP n0 m (or_introl eq_refl) Hm x); auto. destruct (P n0 r0 (or_introl eq_refl)) as [G _].
           rewrite (body_parts _ _ _ _ G). apply in_or_app. right. exact X.
      * apply fop_app; auto. intros o o' Ho Ho' x X Y.
        destruct (S1' o x Ho X) as (n & r & Hr & Hn & Z). destruct (S2 o' x Ho' Y) as (m & Hm & W).
        apply (AP n m Hn Hm x); auto. destruct (P n r Hr) as [G _]. rewrite (body_parts _ _ _ _ G). apply in_or_app; auto.
    + intros o x [<-|Ho] X.
      * destruct prs as [|[n0 r0] prs]; [congruence|]. exists n0. split; [left; auto|].
        destruct (P n0 r0 (or_introl eq_refl)) as [G _]. rewrite (body_parts _ _ _ _ G). apply in_or_app. right. exact X.
      * apply in_app_or in Ho. destruct Ho as [Ho|Ho].
        -- destruct (S1' o x Ho X) as (n & r & Hr & Hn & Z). exists n. split; [apply in_or_app; auto|].
           destruct (P n r Hr) as [G _]. rewrite (body_parts _ _ _ _ G). apply in_or_app; auto.
        -- destruct (S2 o x Ho X) as (m & Hm & W). exists m. split; [apply in_or_app|]; auto.
    + intros o [<-|Ho].
      * cbn [g_geom]. destruct prs as [|[n0 r0] prs]; [congruence|]. destruct (P n0 r0 (or_introl eq_refl)) as [G _].
        destruct (HD n0 (or_introl eq_refl)) as [_ NDn]. rewrite G in NDn. apply NoDup_app_l in NDn. tauto.
      * apply in_app_or in Ho. destruct Ho; auto.
  - destruct IH as (F & S & N). split; [auto|]. split; auto. intros o x Ho X. destruct (S o x Ho X) as (n & Hn & Z).
    exists n. split; auto. apply Permutation_sym in PM. eapply Permutation_in; eauto.
Qed.

(** ** Sums *)
Local Open Scope Q_scope.
Definition refers (d : option Z) (n : gnode) : bool := optZ_eqb (g_dstr n) d.
Definition sum_to (s : Z -> Q) (d : option Z) (ns : list gnode) : Q := Qsum (map (fun n => s (g_id n)) (filter (refers d) ns)).

Lemma optZ_eqb_spec' : forall a b, reflect (a = b) (optZ_eqb a b).
Proof.
  intros [a|] [b|]; cbn; try (constructor; congruence). destruct (Z.eqb_spec a b); constructor; congruence.
Qed.

Lemma sum_to_app : forall s d l1 l2, sum_to s d (l1 ++ l2) == sum_to s d l1 + sum_to s d l2.
Proof. intros. unfold sum_to. rewrite filter_app, map_app. apply Qsum_app. Qed.

Lemma sum_to_perm : forall s d l1 l2, Permutation l1 l2 -> sum_to s d l1 == sum_to s d l2.
Proof. intros. unfold sum_to. apply Qsum_perm. apply Permutation_map. apply filter_perm. auto. Qed.

Lemma sum_to_none : forall s d l, (forall n, In n l -> g_dstr n <> d) -> sum_to s d l = 0.
Proof.
  intros s d l H. unfold sum_to. replace (filter (refers d) l) with (@nil gnode); auto. symmetry.
  induction l as [|n l IH]; cbn [filter]; auto. unfold refers at 1. destruct (optZ_eqb_spec' (g_dstr n) d) as [E|E].
  - exfalso. apply (H n); [left|]; auto.
  - apply IH. intros; apply H; right; auto.
Qed.

(** References in the result: those of the original nodes, or new labels. *)
Lemma unt_refs : forall ns a out b, unt ns a out b -> forall o, In o out ->
  (exists n, In n ns /\ g_dstr o = g_dstr n) \/ (exists j, g_dstr o = Some j /\ a <= j < b)%Z.
Proof.
  intros ns a out b H.
  induction H as [a|n rest a out b ND AP H IH|prs pix t D rest a out1 b out2 c NE TN P HD AP H1 IH1 H2 IH2|ns ms a out b PM H IH];
    intros o Ho.
  - destruct Ho.
  - destruct Ho as [<-|Ho]; [left; exists n; split; [left|]; auto|].
    destruct (IH o Ho) as [(m & Hm & X)|(j & Hj & X)]; [left; exists m; split; [right|]; auto | right; exists j; auto].
  - destruct (unt_ids _ _ _ _ H1) as [L1 _]. destruct (unt_ids _ _ _ _ H2) as [L2 _].
    destruct Ho as [<-|Ho].
    + left. destruct prs as [|[n0 r0] prs]; [congruence|]. exists n0. split; [left; auto|].
      destruct (HD n0 (or_introl eq_refl)) as [-> _]. reflexivity.
    + apply in_app_or in Ho. destruct Ho as [Ho|Ho].
      * right. destruct (IH1 o Ho) as [(m & Hm & E)|(j & Hj & X)].
        -- apply in_pruned in Hm. destruct Hm as (n & r & _ & _ & ->). exists a. split; [exact E | lia].
        -- exists j. split; auto. lia.
      * destruct (IH2 o Ho) as [(m & Hm & X)|(j & Hj & X)].
        -- left. exists m. split; [apply in_or_app|]; auto.
        -- right. exists j. split; auto. lia.
  - destruct (IH o Ho) as [(n & Hn & X)|Y]; auto. left. exists n. split; auto.
    apply Permutation_sym in PM. eapply Permutation_in; eauto.
Qed.

(** If every junction passes on what it gets, then what arrives at an original reference is
    what the original nodes send there. *)
Theorem unt_sum : forall s ns a out b, unt ns a out b ->
  (forall n d, In n ns -> g_dstr n = Some d -> d < a)%Z ->
  (forall j, (a <= j < b)%Z -> s j == sum_to s (Some j) out) ->
  forall d, (forall k, d = Some k -> k < a)%Z -> sum_to s d out == sum_to s d ns.
Proof.
  intros s ns a out b H.
  induction H as [a|n rest a out b ND AP H IH|prs pix t D rest a out1 b out2 c NE TN P HD AP H1 IH1 H2 IH2|ns ms a out b PM H IH];
    intros HD0 HJ d Hd.
  - reflexivity.
  - change (n :: out) with ([n] ++ out). change (n :: rest) with ([n] ++ rest). rewrite !sum_to_app.
    rewrite IH; [reflexivity| | |auto].
    + intros; eapply HD0; eauto. right; auto.
    + intros j Hj. rewrite HJ by auto. change (n :: out) with ([n] ++ out). rewrite sum_to_app.
      rewrite (sum_to_none s (Some j) [n]); [ring|]. intros m [<-|[]] E. pose proof (HD0 n j (or_introl eq_refl) E). lia.
  - destruct (unt_ids _ _ _ _ H1) as [L1 _]. destruct (unt_ids _ _ _ _ H2) as [L2 _].
    assert (Dr : forall n k, In n (map fst prs ++ rest) -> g_dstr n = Some k -> (k < a)%Z) by (intros; eapply HD0; eauto).
    assert (Da : forall k, D = Some k -> (k < a)%Z).
    { intros k Ek. destruct prs as [|[n0 r0] prs]; [congruence|]. apply (Dr n0); [left; auto|].
      destruct (HD n0 (or_introl eq_refl)) as [-> _]. auto. }
    set (jn := mkG a D true pix (pix :: t)) in *.
    assert (Z2 : forall j, (a <= j < b)%Z -> sum_to s (Some j) out2 == 0).
    { intros j Hj. rewrite sum_to_none; [reflexivity|]. intros o Ho E. destruct (unt_refs _ _ _ _ H2 o Ho) as [(n & Hn & En)|(k & Ek & Hk)].
      - rewrite E in En. symmetry in En. pose proof (Dr n j (in_or_app _ _ _ (or_intror Hn)) En). lia.
      - rewrite E in Ek. inversion Ek. lia. }
    assert (ZJ : forall j, (a <= j)%Z -> sum_to s (Some j) [jn] == 0).
    { intros j Hj. rewrite sum_to_none; [reflexivity|]. intros o [<-|[]] E. cbn [g_dstr] in E. specialize (Da j E). lia. }
    assert (S1 : forall j, (a <= j)%Z -> sum_to s (Some j) (jn :: out1 ++ out2) == sum_to s (Some j) out1 + sum_to s (Some j) out2).
    { intros j Hj. change (jn :: out1 ++ out2) with ([jn] ++ (out1 ++ out2)). rewrite !sum_to_app, ZJ by auto. ring. }
    (* what reaches the new junction *)
    assert (X1 : forall d', (forall k, d' = Some k -> k < a + 1)%Z -> sum_to s d' out1 == sum_to s d' (map (pruned a pix) prs)).
    { apply IH1.
      - intros n k Hn E. apply in_pruned in Hn. destruct Hn as (m & r & _ & _ & ->). cbn [g_dstr] in E. inversion E. lia.
      - intros j Hj. rewrite HJ by lia. rewrite S1 by lia. rewrite Z2 by lia. ring. }
    assert (X2 : forall d', (forall k, d' = Some k -> k < b)%Z -> sum_to s d' out2 == sum_to s d' rest).
    { apply IH2.
      - intros n k Hn E. assert (k < a)%Z; [|lia]. apply (Dr n k); auto. apply in_or_app; auto.
      - intros j Hj. rewrite HJ by lia. rewrite S1 by lia.
        rewrite (sum_to_none s (Some j) out1); [ring|]. intros o Ho E.
        destruct (unt_refs _ _ _ _ H1 o Ho) as [(n & Hn & En)|(k & Ek & Hk)].
        + apply in_pruned in Hn. destruct Hn as (m & r & _ & _ & ->). cbn [g_dstr] in En. rewrite E in En. inversion En. lia.
        + rewrite E in Ek. inversion Ek. lia. }
    assert (Sa : s a == Qsum (map (fun n => s (g_id n)) (map fst prs))).
    { rewrite HJ by lia. rewrite S1, Z2 by lia. rewrite X1 by (intros k Ek; inversion Ek; lia).
      unfold sum_to. clear. induction prs as [|[n r] prs IH]; [reflexivity|].
      cbn [map filter]. unfold refers at 1. cbn [pruned g_dstr optZ_eqb]. rewrite Z.eqb_refl.
      cbn [map Qsum fst g_id]. rewrite <- IH. ring. }
    change (jn :: out1 ++ out2) with ([jn] ++ (out1 ++ out2)). rewrite !sum_to_app.
    rewrite X2 by (intros k Ek; specialize (Hd k Ek); lia).
    rewrite X1 by (intros k Ek; specialize (Hd k Ek); lia).
    rewrite (sum_to_none s d (map (pruned a pix) prs)).
    2:{ intros n Hn E. apply in_pruned in Hn. destruct Hn as (m & r & _ & _ & ->). cbn [g_dstr] in E.
        specialize (Hd a (eq_sym E)). lia. }
    assert (Y : sum_to s d [jn] == sum_to s d (map fst prs)); [|rewrite Y; ring].
    unfold sum_to at 1. cbn [filter]. unfold refers at 1. cbn [g_dstr jn].
    destruct (optZ_eqb_spec' D d) as [->|N].
    + cbn [map Qsum g_id jn]. rewrite Sa. unfold sum_to. rewrite Qplus_0_r.
      assert (EF : filter (refers d) (map fst prs) = map fst prs); [|rewrite EF; reflexivity].
      clear - HD. induction (map fst prs) as [|n l IH]; cbn [filter]; auto.
      unfold refers at 1. destruct (HD n (or_introl eq_refl)) as [-> _].
      destruct (optZ_eqb_spec' d d); [|congruence]. f_equal. apply IH. intros; apply HD; right; auto.
    + cbn [map Qsum]. rewrite sum_to_none; [reflexivity|]. intros n Hn E. destruct (HD n Hn) as [E' _]. congruence.
  - rewrite (sum_to_perm s d ns ms PM). apply IH; auto. intros n k Hn E. eapply HD0; eauto.
    apply Permutation_sym in PM. eapply Permutation_in; eauto.
Qed.
