(** * Proofs about the network solver *)

From Verif Require Import Base BaseProofs Num Dict DictProofs NetworkModel NetworkSpec.

Lemma NoDup_app_intro : forall {A} (l1 l2 : list A),
  NoDup l1 -> NoDup l2 -> (forall x, In x l1 -> ~ In x l2) -> NoDup (l1 ++ l2).
Proof.
  induction l1 as [|a l1 IH]; intros l2 H1 H2 D; cbn; [auto|].
  inversion H1; subst. constructor.
  - rewrite in_app_iff. intros [H|H]; [auto | apply (D a); cbn; auto].
  - apply IH; auto. intros x Hx. apply D. right; auto.
Qed.

Lemma NoDup_app_inv : forall {A} (l1 l2 : list A), NoDup (l1 ++ l2) ->
  NoDup l1 /\ NoDup l2 /\ (forall x, In x l1 -> ~ In x l2).
Proof.
  induction l1 as [|a l1 IH]; intros l2 H; cbn in *.
  - repeat split; [constructor | auto | tauto].
  - inversion H; subst. destruct (IH _ H3) as (A1 & A2 & A3).
    split; [|split]; auto.
    + constructor; auto. intros X. apply H2. apply in_app_iff; auto.
    + intros x [->|Hx] X; [apply H2; apply in_app_iff; auto | apply (A3 x); auto].
Qed.

Lemma NoDup_map_filter : forall {A B} (f : A -> B) p l, NoDup (map f l) -> NoDup (map f (filter p l)).
Proof.
  induction l as [|a l IH]; cbn; intros H; [constructor|].
  inversion H; subst. destruct (p a); cbn; auto. constructor; auto.
  intros X. apply H2. apply in_map_iff in X. destruct X as (b & E & Hb).
  apply filter_In in Hb. apply in_map_iff. exists b. tauto.
Qed.

Lemma NoDup_map_inj : forall {A B} (f : A -> B) l x y, NoDup (map f l) ->
  In x l -> In y l -> f x = f y -> x = y.
Proof.
  induction l as [|a l IH]; cbn; intros x y H Hx Hy E; [tauto|].
  inversion H; subst.
  destruct Hx as [->|Hx], Hy as [->|Hy]; auto.
  - exfalso. apply H2. rewrite E. apply in_map; auto.
  - exfalso. apply H2. rewrite <- E. apply in_map; auto.
Qed.

Section Net.
Context {T : Type}.
Variable ops : NumOps T.
Notation node := (@node T).
Notation event := (@event T).
Variable ns : list node.
Hypothesis UI : unique_ids ns.

Definition nw := add_nodes empty_network ns.

Lemma add_nodes_app : forall a b (w : network), add_nodes w (a ++ b) = @add_nodes T (add_nodes w a) b.
Proof. intros. unfold add_nodes. apply fold_left_app. Qed.

Lemma built : forall l : list node, NoDup (map n_id l) ->
  nw_roots (add_nodes empty_network l) = map n_id (filter is_root l) /\
  (forall n, In n l -> dget Z.eqb (nw_index (add_nodes empty_network l)) (n_id n) = Some n) /\
  (forall id, upstream (nw_upstream (add_nodes empty_network l)) (Some id)
              = map n_id (direct_upstream l id)).
Proof.
  induction l as [|n l IH] using rev_ind; intros ND.
  - cbn. repeat split; tauto.
  - rewrite map_app in ND. apply NoDup_app_inv in ND. destruct ND as (ND & _ & D).
    destruct (IH ND) as (R & I & U). clear IH.
    rewrite add_nodes_app. cbn [add_nodes fold_left add_node nw_roots nw_index nw_upstream].
    split; [|split].
    + rewrite filter_app, map_app. cbn. unfold is_root at 2.
      destruct (n_dstr n); rewrite R; cbn; [rewrite app_nil_r|]; reflexivity.
    + intros m Hm. apply in_app_iff in Hm. cbn in Hm. destruct Hm as [Hm|[<-|[]]].
      * rewrite dget_dset_other; [apply I; auto | apply Z.eqb_spec |].
        intros E. apply (D (n_id m)); [apply in_map; auto | left; auto].
      * apply dget_dset_same. apply Z.eqb_spec.
    + intros id. unfold direct_upstream in *. rewrite filter_app, map_app. cbn [filter].
      unfold is_dstr at 2. unfold upstream in *.
      destruct (optZ_eqb_spec (n_dstr n) (Some id)) as [E|E].
      * rewrite E, dget_dset_same by apply optZ_eqb_spec. rewrite Z.eqb_refl. cbn.
        f_equal. apply U.
      * rewrite dget_dset_other by (auto using optZ_eqb_spec). rewrite U.
        destruct (n_dstr n) as [d|].
        -- destruct (Z.eqb_spec d id); [congruence|]. cbn. rewrite app_nil_r. reflexivity.
        -- cbn. rewrite app_nil_r. reflexivity.
Qed.

Lemma nw_roots_eq : nw_roots nw = map n_id (filter is_root ns).
Proof. apply built; auto. Qed.
Lemma nw_index_eq : forall n, In n ns -> dget Z.eqb (nw_index nw) (n_id n) = Some n.
Proof. apply built; auto. Qed.
Lemma nw_up_eq : forall id, upstream (nw_upstream nw) (Some id) = map n_id (direct_upstream ns id).
Proof. apply built; auto. Qed.

Lemma node_inj : forall a b, In a ns -> In b ns -> n_id a = n_id b -> a = b.
Proof. intros a b. apply NoDup_map_inj. exact UI. Qed.

Lemma in_direct : forall u id, In u (direct_upstream ns id) <-> In u ns /\ n_dstr u = Some id.
Proof.
  intros u id. unfold direct_upstream. rewrite filter_In. unfold is_dstr.
  destruct (n_dstr u) as [d|]; [|split; intros []; congruence].
  destruct (Z.eqb_spec d id); split; intros [A B]; split; try congruence; auto.
Qed.

Lemma direct_nodup : forall id, NoDup (map n_id (direct_upstream ns id)).
Proof. intros. apply NoDup_map_filter. exact UI. Qed.

Lemma root_of_node : forall a r, root_of ns a r -> exists n, In n ns /\ n_id n = a.
Proof. intros a r H. inversion H; subst; eauto. Qed.

Lemma root_of_target : forall a r, root_of ns a r ->
  exists n, In n ns /\ n_id n = r /\ n_dstr n = None.
Proof. intros a r H. induction H; eauto. Qed.

Lemma root_of_det : forall a r, root_of ns a r -> forall r', root_of ns a r' -> r = r'.
Proof.
  intros a r H. induction H; intros r' H'.
  - inversion H' as [n' ? ? E|n' d' r0 Hn' Hd' Hr' E]; subst.
    + auto.
    + assert (n' = n) by (apply node_inj; auto). subst n'. congruence.
  - inversion H' as [n' ? ? E|n' d' r0 Hn' Hd' Hr' E]; subst.
    + assert (n' = n) by (apply node_inj; auto). subst n'. congruence.
    + assert (n' = n) by (apply node_inj; auto). subst n'.
      assert (d = d') by congruence. subst. auto.
Qed.

Lemma root_of_up : forall u id r, In u ns -> n_dstr u = Some id ->
  root_of ns id r -> root_of ns (n_id u) r.
Proof. intros. eapply ro_step; eauto. Qed.

(** ** Collecting the tree of one root *)
Section Collect.
Variable r : Z.
Variable nr : node.
Hypothesis Hnr : In nr ns.
Hypothesis Hr : n_id nr = r.
Hypothesis Hrd : n_dstr nr = None.

Definition parent_in (x : Z) (l : list Z) : Prop :=
  x = r \/ exists n d, In n ns /\ n_id n = x /\ n_dstr n = Some d /\ In d l.

Definition CInv (stack tree : list Z) : Prop :=
  NoDup (stack ++ tree) /\
  (forall x, In x (stack ++ tree) -> root_of ns x r) /\
  (forall x u, In x tree -> In u (direct_upstream ns x) -> In (n_id u) (stack ++ tree)) /\
  (forall x, In x stack -> parent_in x tree) /\
  (forall l1 x l2, tree = l1 ++ x :: l2 -> parent_in x l2) /\
  In r (stack ++ tree).

Lemma parent_in_child : forall u x l, In u ns -> n_dstr u = Some x ->
  parent_in (n_id u) l -> In x l.
Proof.
  intros u x l Hu Hd [E|(n & d & Hn & E & Hd' & Hl)].
  - assert (u = nr) by (apply node_inj; congruence). congruence.
  - assert (n = u) by (apply node_inj; congruence). congruence.
Qed.

Lemma parent_in_mono : forall x l l', (forall y, In y l -> In y l') -> parent_in x l -> parent_in x l'.
Proof.
  intros x l l' H [E|(n & d & A & B & C & D)]; [left; auto | right; exists n, d; auto].
Qed.

Lemma CInv_start : CInv [r] [].
Proof.
  split; [repeat constructor; cbn; tauto|].
  split; [intros x [<-|[]]; subst r; apply ro_root; auto|].
  split; [intros x u []|]. split; [intros x [<-|[]]; left; auto|].
  split; [intros [|] ? ? E; discriminate | left; auto].
Qed.

Lemma CInv_step : forall x rest tree, CInv (x :: rest) tree ->
  CInv (rev (map n_id (direct_upstream ns x)) ++ rest) (x :: tree).
Proof.
  intros x rest tree (ND & R & C & S & O & I).
  assert (FR : forall u, In u (direct_upstream ns x) -> ~ In (n_id u) ((x :: rest) ++ tree)).
  { intros u Hu X. apply in_direct in Hu. destruct Hu as [Hu Hd].
    assert (Hx : In x tree).
    { apply in_app_iff in X. destruct X as [X|X].
      - eapply parent_in_child; eauto.
      - apply in_split in X. destruct X as (l1 & l2 & E).
        pose proof (O _ _ _ E) as P. apply parent_in_child with (x := x) in P; auto.
        rewrite E. apply in_app_iff. right; right; auto. }
    inversion ND; subst. apply H1. apply in_app_iff; auto. }
  set (c := rev (map n_id (direct_upstream ns x))) in *.
  assert (Cin : forall y, In y c -> exists u, In u (direct_upstream ns x) /\ n_id u = y).
  { intros y Hy. unfold c in Hy. rewrite <- in_rev in Hy. apply in_map_iff in Hy.
    destruct Hy as (u & E & Hu). eauto. }
  assert (Eq : forall y, In y ((c ++ rest) ++ x :: tree) <-> In y c \/ In y ((x :: rest) ++ tree)).
  { intros y. cbn. rewrite !in_app_iff. cbn. tauto. }
  split; [|split; [|split; [|split; [|split]]]].
  - rewrite <- app_assoc. apply NoDup_app_intro.
    + apply NoDup_rev. apply direct_nodup.
    + inversion ND; subst. apply NoDup_app_inv in H2. destruct H2 as (A1 & A2 & A3).
      apply NoDup_app_intro; auto.
      * constructor; auto. intros X. apply H1. apply in_app_iff; auto.
      * intros y Hy [<-|Hy']; [apply H1; apply in_app_iff; auto | apply (A3 y); auto].
    + intros y Hy X. destruct (Cin y Hy) as (u & Hu & <-). apply (FR u Hu).
      cbn. rewrite in_app_iff in *. cbn in X. tauto.
  - intros y Hy. apply Eq in Hy. destruct Hy as [Hy|Hy]; [|apply R; auto].
    destruct (Cin y Hy) as (u & Hu & <-). apply in_direct in Hu.
    eapply root_of_up; [tauto | apply Hu | apply R; left; auto].
  - intros y u Hy Hu. apply Eq. destruct Hy as [<-|Hy].
    + left. unfold c. rewrite <- in_rev. apply in_map; auto.
    + right. eapply C; eauto.
  - intros y Hy. apply in_app_iff in Hy. destruct Hy as [Hy|Hy].
    + destruct (Cin y Hy) as (u & Hu & <-). apply in_direct in Hu.
      right. exists u, x. cbn. tauto.
    + eapply parent_in_mono; [|apply S; right; auto]. intros; right; auto.
  - intros l1 y l2 E. destruct l1 as [|z l1]; cbn in E; inversion E; subst.
    + apply S. left; auto.
    + eapply O; eauto.
  - apply Eq. right; auto.
Qed.

Lemma collect_ok : forall fuel stack tree,
  CInv stack tree -> (length ns <= fuel + length tree)%nat ->
  exists t, collect_tree nw fuel stack tree = Ok t /\ CInv [] t.
Proof.
  induction fuel as [|k IH]; intros stack tree CI L.
  - destruct stack as [|x rest]; cbn; [eauto|]. exfalso.
    destruct CI as (ND & R & _).
    assert (X : (length ((x :: rest) ++ tree) <= length (map n_id ns))%nat).
    { apply NoDup_incl_length; auto. intros y Hy. apply R in Hy. apply root_of_node in Hy.
      destruct Hy as (n & Hn & <-). apply in_map; auto. }
    rewrite map_length in X. cbn in X. rewrite app_length in X. cbn in L. lia.
  - destruct stack as [|x rest]; cbn [collect_tree]; [eauto|].
    rewrite nw_up_eq. apply IH; [apply CInv_step; auto | cbn; lia].
Qed.

Lemma CInv_done : forall t, CInv [] t ->
  NoDup t /\ (forall x, In x t <-> root_of ns x r) /\
  (forall l1 x l2, t = l1 ++ x :: l2 ->
     forall u, In u (direct_upstream ns x) -> In (n_id u) l1).
Proof.
  intros t (ND & R & C & S & O & I). cbn in *.
  split; [auto|]. split.
  - intros x; split; [apply R|].
    intros H. remember r as r0 eqn:E in H. induction H; subst.
    + rewrite E. exact I.
    + eapply C; [apply IHroot_of; auto|]. apply in_direct; auto.
  - intros l1 x l2 E u Hu.
    assert (Ht : In (n_id u) t).
    { apply (C x); auto. rewrite E. apply in_app_iff; right; left; auto. }
    apply in_direct in Hu. destruct Hu as [Hu Hd].
    apply in_split in Ht. destruct Ht as (a & b & Eab).
    pose proof (parent_in_child u x b Hu Hd (O _ _ _ Eab)) as Hx.
    assert (Ix : In (n_id u) (l1 ++ x :: l2)).
    { rewrite <- E, Eab. apply in_app_iff; right; left; auto. }
    apply in_app_iff in Ix. destruct Ix as [Ix|[Ix|Ix]]; auto; exfalso.
    + (* u = x *) subst x. rewrite Eab in ND. apply NoDup_remove_2 in ND.
      apply ND. apply in_app_iff. auto.
    + (* u after x *) apply in_split in Ix. destruct Ix as (c & d & Ecd). subst l2.
      pose proof (parent_in_child u x d Hu Hd
        (O (l1 ++ x :: c) (n_id u) d ltac:(rewrite E, <- app_assoc; reflexivity))) as Hx'.
      rewrite E in ND. apply NoDup_remove_2 in ND. apply ND.
      apply in_app_iff. right. apply in_app_iff. right; right; auto.
Qed.
End Collect.

Lemma collect_mono : forall fuel stack tree t, collect_tree nw fuel stack tree = Ok t ->
  forall fuel', (fuel <= fuel')%nat -> collect_tree nw fuel' stack tree = Ok t.
Proof.
  induction fuel as [|k IH]; intros [|x rest] tree t H fuel' L.
  - destruct fuel'; cbn in *; auto.
  - cbn in H; discriminate.
  - destruct fuel'; cbn in *; auto.
  - destruct fuel' as [|k']; [lia|]. cbn in *. apply IH; auto. lia.
Qed.

(** ** Settling *)
Definition entry_ok (pre : list (Z * event)) (k : Z) (e : event) : Prop :=
  exists n ue, In n ns /\ n_id n = k /\
    Forall2 (fun u e' => In (n_id u, e') pre) (direct_upstream ns k) ue /\
    e = settle ops n (pysum ops (map e_spill ue)).

(** In which order: every entry depends only on entries before it. *)
Inductive good : list (Z * event) -> Prop :=
| good_nil : good []
| good_snoc : forall rv k e, good rv -> ~ In k (map fst rv) -> entry_ok rv k e ->
    good (rv ++ [(k, e)]).

Lemma good_nodup : forall rv, good rv -> NoDup (map fst rv).
Proof.
  intros rv H. induction H; [constructor|].
  rewrite map_app. apply NoDup_app_intro; auto; [repeat constructor; cbn; tauto|].
  cbn. intros x Hx [<-|[]]. auto.
Qed.

Lemma good_id : forall rv, good rv -> forall k e, In (k, e) rv -> e_id e = k.
Proof.
  intros rv H. induction H; intros k' e' Hi; [destruct Hi|].
  apply in_app_iff in Hi. destruct Hi as [Hi|[Hi|[]]]; auto.
  inversion Hi; subst. destruct H1 as (n & ue & _ & E & _ & ->). exact E.
Qed.

Lemma entry_ok_mono : forall a b k e, (forall x, In x a -> In x b) -> entry_ok a k e -> entry_ok b k e.
Proof.
  intros a b k e H (n & ue & A & B & C & D). exists n, ue. split; [auto|]. split; [auto|].
  split; auto. clear - C H. induction C; constructor; auto.
Qed.

Lemma good_entry : forall rv, good rv -> forall k e, In (k, e) rv -> entry_ok rv k e.
Proof.
  intros rv H. induction H; intros k' e' Hi; [destruct Hi|].
  apply entry_ok_mono with (a := rv); [intros; apply in_app_iff; auto|].
  apply in_app_iff in Hi. destruct Hi as [Hi|[Hi|[]]]; auto.
  inversion Hi; subst. auto.
Qed.

Lemma mmap_get : forall (rv : list (Z * event)) (us : list node),
  NoDup (map fst rv) -> (forall u, In u us -> In (n_id u) (map fst rv)) ->
  exists ue, mmap (dget_err Z.eqb rv) (map n_id us) = Ok ue /\
             Forall2 (fun u e' => In (n_id u, e') rv) us ue.
Proof.
  intros rv us ND. induction us as [|u us IH]; intros H; cbn.
  - exists []. split; [auto | constructor].
  - destruct IH as (ue & E & F); [intros; apply H; right; auto|].
    assert (Hu : In (n_id u) (map fst rv)) by (apply H; left; auto).
    apply in_map_iff in Hu. destruct Hu as ((k & e) & Ek & Hk). cbn in Ek. subst k.
    exists (e :: ue). unfold dget_err at 1.
    rewrite (dget_nodup _ Z.eqb_spec rv (n_id u) e ND Hk). cbn. rewrite E. cbn.
    split; [reflexivity | constructor; auto].
Qed.

Lemma calc_node_ok : forall rv n, good rv -> In n ns -> ~ In (n_id n) (map fst rv) ->
  (forall u, In u (direct_upstream ns (n_id n)) -> In (n_id u) (map fst rv)) ->
  exists e, calc_node ops nw rv (n_id n) = Ok (rv ++ [(n_id n, e)]) /\ good (rv ++ [(n_id n, e)]).
Proof.
  intros rv n G Hn F U.
  destruct (mmap_get rv _ (good_nodup _ G) U) as (ue & E & F2).
  exists (settle ops n (pysum ops (map e_spill ue))). split.
  - unfold calc_node. unfold dget_err at 1. rewrite nw_index_eq by auto. cbn [bind].
    rewrite nw_up_eq.
    assert (X : match map n_id (direct_upstream ns (n_id n)) with
                | [] => Ok (nofZ ops 0)
                | _ :: _ => evs <- mmap (dget_err Z.eqb rv) (map n_id (direct_upstream ns (n_id n))) ;;
                            Ok (pysum ops (map e_spill evs))
                end = Ok (pysum ops (map e_spill ue))).
    { rewrite E. destruct (direct_upstream ns (n_id n)); inversion F2; subst; reflexivity. }
    rewrite X. cbn [bind]. rewrite dset_fresh; auto. apply Z.eqb_spec.
  - constructor; auto. exists n, ue. auto.
Qed.

Lemma fold_tree_ok : forall t rv, good rv -> NoDup t ->
  (forall x, In x t -> exists n, In n ns /\ n_id n = x) ->
  (forall x, In x t -> ~ In x (map fst rv)) ->
  (forall l1 x l2, t = l1 ++ x :: l2 ->
     forall u, In u (direct_upstream ns x) -> In (n_id u) (map fst rv ++ l1)) ->
  exists rv', mfold (calc_node ops nw) t rv = Ok rv' /\ good rv' /\
              map fst rv' = map fst rv ++ t.
Proof.
  induction t as [|x t IH]; intros rv G ND N D U; cbn.
  - exists rv. rewrite app_nil_r. auto.
  - destruct (N x) as (n & Hn & <-); [left; auto|].
    destruct (calc_node_ok rv n G Hn) as (e & E & G'); [apply D; left; auto | |].
    { intros u Hu. pose proof (U [] (n_id n) t eq_refl u Hu) as X. rewrite app_nil_r in X. exact X. }
    rewrite E. cbn. inversion ND; subst.
    destruct (IH (rv ++ [(n_id n, e)]) G' H2) as (rv' & E' & G'' & K').
    + intros; apply N; right; auto.
    + intros y Hy X. rewrite map_app, in_app_iff in X. cbn in X.
      destruct X as [X|[<-|[]]]; [eapply D; [right; eauto | auto] | auto].
    + intros l1 y l2 Eq u Hu.
      pose proof (U (n_id n :: l1) y l2 ltac:(cbn; f_equal; auto) u Hu) as X.
      rewrite map_app, <- app_assoc. exact X.
    + exists rv'. rewrite E'. split; [auto|]. split; [auto|].
      rewrite K', map_app, <- app_assoc. reflexivity.
Qed.

Lemma roots_fold_ok : forall fuel, (length ns <= fuel)%nat ->
  forall rts rv done,
  (forall x, In x rts -> In x (map n_id (filter is_root ns))) ->
  NoDup (done ++ rts) -> good rv ->
  (forall x, In x (map fst rv) <-> exists r, In r done /\ root_of ns x r) ->
  exists rv', mfold (calc_stream_tree ops nw fuel) rts rv = Ok rv' /\ good rv' /\
    (forall x, In x (map fst rv') <-> exists r, In r (done ++ rts) /\ root_of ns x r).
Proof.
  intros fuel L. induction rts as [|r rts IH]; intros rv done R ND G K; cbn.
  - exists rv. rewrite app_nil_r. auto.
  - destruct (proj1 (in_map_iff _ _ _) (R r (or_introl eq_refl))) as (nr & Er & Hnr).
    apply filter_In in Hnr. destruct Hnr as [Hnr Hroot].
    assert (Hd : n_dstr nr = None) by (unfold is_root in Hroot; destruct (n_dstr nr); congruence).
    destruct (collect_ok r nr Hnr Er Hd fuel [r] []) as (t & Et & CI).
    { apply CInv_start with nr; auto. } { cbn; lia. }
    destruct (CInv_done r nr Hnr Er Hd t CI) as (NDt & Kt & Ot).
    unfold calc_stream_tree at 1. rewrite Et. cbn [bind].
    destruct (fold_tree_ok t rv G NDt) as (rv1 & E1 & G1 & K1).
    + intros x Hx. apply Kt in Hx. eapply root_of_node; eauto.
    + intros x Hx X. apply Kt in Hx. apply K in X. destruct X as (r' & Hr' & X).
      assert (r = r') by (eapply root_of_det; eauto). subst r'.
      apply NoDup_remove_2 in ND. apply ND. apply in_app_iff; auto.
    + intros l1 x l2 Eq u Hu. apply in_app_iff. right. eapply Ot; eauto.
    + rewrite E1. cbn [bind].
      destruct (IH rv1 (done ++ [r])) as (rv' & E' & G' & K').
      * intros; apply R; right; auto.
      * rewrite <- app_assoc. exact ND.
      * exact G1.
      * intros x. rewrite K1, in_app_iff, K, Kt. split.
        -- intros [(r' & A & B)|A]; [exists r' | exists r]; rewrite in_app_iff; cbn; auto.
        -- intros (r' & A & B). rewrite in_app_iff in A. cbn in A.
           destruct A as [A|[<-|[]]]; eauto.
      * exists rv'. split; [auto|]. split; [auto|].
        intros x. rewrite K', <- app_assoc. reflexivity.
Qed.

Lemma rain_ok : forall fuel, (length ns <= fuel)%nat ->
  exists rv, mfold (calc_stream_tree ops nw fuel) (nw_roots nw) [] = Ok rv /\ good rv /\
    (forall x, In x (map fst rv) <-> exists r, root_of ns x r).
Proof.
  intros fuel L. rewrite nw_roots_eq.
  destruct (roots_fold_ok fuel L (map n_id (filter is_root ns)) [] []) as (rv & E & G & K).
  - auto.
  - cbn. apply NoDup_map_filter. exact UI.
  - constructor.
  - cbn. split; [tauto | intros (? & [] & _)].
  - exists rv. split; [auto|]. split; [auto|].
    intros x. rewrite K. cbn. split; [intros (r & _ & H); eauto|].
    intros (r & H). exists r. split; auto.
    destruct (root_of_target _ _ H) as (n & Hn & <- & Hd). apply in_map_iff. exists n.
    split; auto. apply filter_In. split; auto. unfold is_root. rewrite Hd. auto.
Qed.

Lemma tree_mono : forall fuel rv r t, calc_stream_tree ops nw fuel rv r = Ok t ->
  forall fuel', (fuel <= fuel')%nat -> calc_stream_tree ops nw fuel' rv r = Ok t.
Proof.
  intros fuel rv r t H fuel' L. unfold calc_stream_tree in *.
  apply bind_ok in H. destruct H as (tr & E & H).
  rewrite (collect_mono _ _ _ _ E _ L). exact H.
Qed.

Lemma rain_mono : forall fuel rts rv t, mfold (calc_stream_tree ops nw fuel) rts rv = Ok t ->
  forall fuel', (fuel <= fuel')%nat -> mfold (calc_stream_tree ops nw fuel') rts rv = Ok t.
Proof.
  intros fuel rts. induction rts as [|r rts IH]; intros rv t H fuel' L; cbn in *; [auto|].
  apply bind_ok in H. destruct H as (x & E & H).
  rewrite (tree_mono _ _ _ _ E _ L). cbn. eapply IH; eauto.
Qed.

(** Everything about a finished rain event. *)
Theorem rain_event_inv : forall fuel evs, rain_event ops fuel nw = Ok evs ->
  exists rv, evs = map snd rv /\ good rv /\ (forall x, In x (map fst rv) <-> exists r, root_of ns x r).
Proof.
  intros fuel evs H. unfold rain_event in H. apply bind_ok in H. destruct H as (rv & E & H).
  inversion H; subst. exists rv. split; [auto|].
  destruct (rain_ok (fuel + length ns)) as (rv' & E' & G & K); [lia|].
  rewrite (rain_mono _ _ _ _ E (fuel + length ns)) in E' by lia. inversion E'; subst. auto.
Qed.

Theorem rain_event_total : forall fuel, (length ns <= fuel)%nat ->
  exists evs, rain_event ops fuel nw = Ok evs.
Proof.
  intros fuel L. destruct (rain_ok fuel L) as (rv & E & _). unfold rain_event. rewrite E. cbn. eauto.
Qed.

Lemma good_ids : forall rv, good rv -> map e_id (map snd rv) = map fst rv.
Proof.
  intros rv G. rewrite map_map. apply map_ext_in. intros [k e] H. cbn. eapply good_id; eauto.
Qed.
End Net.
