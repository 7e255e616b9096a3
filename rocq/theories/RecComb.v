(** * A network that needs more than any given room

    A trunk along row 0 and a bluespot of one cell beside each of its cells:
<<
      0  1  2 ... m
      <  <  <     <      row 0: the trunk, flowing left and off the raster
      <  ^  ^     ^      row 1: the bluespots 1..m
>> *)

From Coq Require Import Permutation.
From Verif Require Import Base BaseProofs Float64 FillModel FillSpec FillThms FlowModel FlowSpec DemModel DemProofs CompSpec CompProofs VectorModel BluespotModel LabelModel LabelSpec BluespotSpec
  BluespotThms RainThms Dict NetModel NetSpec UntangleProofs UntangleFacts NetProofs NetThms RecModel RecSpec RecProofs RecThms.
Local Open Scope Z_scope.

Definition comb_flow (m : nat) : raster Z :=
  mkRaster 2 (Z.of_nat m + 1) (fun i j => if (i =? 1) && negb (j =? 0) then 0 else 6).
Definition comb_lab (m : nat) : raster Z := mkRaster 2 (Z.of_nat m + 1) (fun i j => if i =? 1 then j else 0).
Definition spot (j : Z) : cell := (1, j).
Definition comb_pps (m : nat) : list cell := (0, 0) :: map spot (zseq 1 m).

Lemma comb_inside : forall m c, inside (nrows (comb_flow m)) (ncols (comb_flow m)) c ->
  exists i j, c = (i, j) /\ (i = 0 \/ i = 1) /\ 0 <= j <= Z.of_nat m.
Proof. intros m [i j] H. unfold inside in H. cbn in H. exists i, j. split; auto. split; lia. Qed.

Lemma comb_in : forall m i j, i = 0 \/ i = 1 -> 0 <= j <= Z.of_nat m -> inside (nrows (comb_flow m)) (ncols (comb_flow m)) (i, j).
Proof. intros. unfold inside. cbn. lia. Qed.

Lemma comb_target0 : forall m j, target (comb_flow m) (0, j) = Some (0, j - 1).
Proof. intros. reflexivity. Qed.
Lemma comb_target1 : forall m j, j <> 0 -> target (comb_flow m) (1, j) = Some (0, j).
Proof.
  intros m j H. unfold target, at_. cbn. destruct (Z.eqb_spec j 0); [congruence|]. cbn. unfold shift. cbn. rewrite Z.add_0_r. reflexivity.
Qed.
Lemma comb_target10 : forall m, target (comb_flow m) (1, 0) = Some (1, -1).
Proof. intros. reflexivity. Qed.

Lemma trunk_drains : forall m (k : nat), (k <= m)%nat -> drains_off (comb_flow m) (0, Z.of_nat k).
Proof.
  intros m. induction k as [|k IH]; intros H.
  - apply do_off. split; [apply comb_in; lia|]. exists (0, -1). split; [apply comb_target0|]. unfold inside. cbn. lia.
  - apply do_step with (0, Z.of_nat k); [|apply IH; lia]. split; [apply comb_in; lia|]. split; [apply comb_in; lia|].
    rewrite comb_target0. f_equal. f_equal. lia.
Qed.

Lemma comb_drains : forall m, fully_draining (comb_flow m).
Proof.
  intros m. split.
  - intros c H. unfold at_. cbn. destruct (_ && _); lia.
  - intros c H. destruct (comb_inside m c H) as (i & j & -> & Hi & Hj).
    assert (T : drains_off (comb_flow m) (0, j)).
    { replace j with (Z.of_nat (Z.to_nat j)) by lia. apply trunk_drains. lia. }
    destruct Hi as [->| ->]; auto. destruct (Z.eq_dec j 0) as [->|Nj].
    + apply do_off. split; [apply comb_in; lia|]. exists (1, -1). split; [apply comb_target10|]. unfold inside. cbn. lia.
    + apply do_step with (0, j); auto. split; [apply comb_in; lia|]. split; [apply comb_in; lia|]. apply comb_target1; auto.
Qed.

Lemma comb_pass0 : forall m c d, passes (comb_flow m) c d -> fst c = 0 -> fst d = 0.
Proof.
  intros m c d H. induction H as [a Ia|a b c (Ia & Ib & T) P IH]; intros E; auto. apply IH.
  destruct a as [i j]. cbn [fst] in E. subst i. rewrite comb_target0 in T. inversion T. reflexivity.
Qed.

Lemma zseq_nth : forall n a k, (k < n)%nat -> nth_error (zseq a n) k = Some (a + Z.of_nat k).
Proof.
  induction n as [|n IH]; intros a k H; [lia|]. destruct k as [|k]; cbn [zseq nth_error].
  - f_equal. lia.
  - rewrite IH by lia. f_equal. lia.
Qed.

Lemma comb_points : forall m, pourpoints_ok (comb_flow m) (comb_lab m) (comb_pps m).
Proof.
  intros m. unfold pourpoints_ok, comb_pps. cbn [length]. rewrite map_length, zseq_length. split.
  - replace (Z.of_nat (S m) - 1) with (Z.of_nat m) by lia.
    intros [i j] H. unfold inside in H. cbn in H. unfold at_. cbn. destruct (Z.eqb_spec i 1); lia.
  - intros [|k] c H; cbn [nth_error] in H.
    + inversion H; subst c. split; [|intros _; split; [apply comb_in; lia|]].
      * split; [split; [unfold inside; cbn; lia|reflexivity]|].
        intros d P _. inversion P as [|? b ? (_ & Ib & T) _]; subst; auto. rewrite comb_target0 in T. inversion T; subst b.
        unfold inside in Ib. cbn in Ib. lia.
      * exists (0, -1). split; [apply comb_target0|]. unfold inside. cbn. lia.
    + split; [|discriminate].
      assert (X : c = (1, 1 + Z.of_nat k) /\ (k < m)%nat).
      { assert (L : (k < length (map spot (zseq 1 m)))%nat) by (apply nth_error_Some; intros X; rewrite X in H; discriminate).
        rewrite map_length, zseq_length in L. split; auto. rewrite nth_error_map in H. rewrite zseq_nth in H by auto. inversion H; auto. }
      destruct X as [-> Hk]. split.
      * split; [unfold inside; cbn [fst snd nrows ncols comb_lab]; lia|]. unfold at_. cbn [rget comb_lab fst snd].
        change (1 =? 1) with true. cbv iota. lia.
      * intros d P E. inversion P as [|? b ? (_ & _ & T) P2]; subst; auto. exfalso.
        rewrite comb_target1 in T by lia. inversion T; subst b. apply comb_pass0 in P2; auto. destruct d as [i j]. cbn in P2. subst i.
        unfold at_ in E. cbn [rget comb_lab fst snd] in E. change (0 =? 1) with false in E. cbv iota in E. lia.
Qed.

(** ** The streams of the comb *)
Fixpoint trunk (k : nat) (d : Z) : list cell :=
  match k with O => [(0, d)] | S k' => trunk k' (d + 1) ++ [(0, d)] end.

(** Stream of the bluespot k + 1 columns right of d, down to (0, d). *)
Definition tooth (D : option Z) (d : Z) (k : nat) : gnode :=
  mkG (d + 1 + Z.of_nat k) D false (1, d + 1 + Z.of_nat k) ((1, d + 1 + Z.of_nat k) :: trunk (S k) d).

Definition teeth (D : option Z) (d : Z) (q : nat) : list gnode := map (tooth D d) (seq 0 q).

Lemma trunk_cons : forall k d, trunk (S k) d = (0, d + Z.of_nat k + 1) :: trunk k d.
Proof.
  induction k as [|k IH]; intros d.
  - cbn. repeat f_equal. lia.
  - change (trunk (S (S k)) d) with (trunk (S k) (d + 1) ++ [(0, d)]). rewrite IH. cbn [app]. f_equal. f_equal. lia.
Qed.

Lemma trunk_last : forall k d, exists p, trunk k d = p ++ [(0, d)].
Proof. intros [|k] d; [exists []|eexists]; reflexivity. Qed.

Lemma trunk_row : forall k d x, In x (trunk k d) -> fst x = 0.
Proof.
  induction k as [|k IH]; intros d x H; cbn [trunk] in H.
  - destruct H as [<-|[]]. reflexivity.
  - apply in_app_or in H. destruct H as [H|[<-|[]]]; [eauto|reflexivity].
Qed.

Lemma tooth_geom : forall D d k, g_geom (tooth D d k) = ((1, d + 1 + Z.of_nat k) :: trunk k (d + 1)) ++ [(0, d)].
Proof. reflexivity. Qed.

Lemma tooth_lst : forall D d k, lst (g_geom (tooth D d k)) = (0, d).
Proof. intros. rewrite tooth_geom. apply lst_app. Qed.

Lemma tooth_lst2 : forall D d k, lst2 (g_geom (tooth D d k)) = (0, d + 1).
Proof.
  intros. rewrite tooth_geom. unfold lst2. rewrite removelast_snoc. destruct (trunk_last k (d + 1)) as [p ->].
  rewrite app_comm_cons. apply lst_app.
Qed.

Lemma trunk_length : forall k d, length (trunk k d) = S k.
Proof. induction k as [|k IH]; intros d; cbn [trunk]; auto. rewrite app_length, IH. cbn. lia. Qed.

Lemma tooth_long : forall D d k, long (tooth D d k) = true.
Proof. intros. apply long_iff. unfold tooth. cbn [g_geom length]. rewrite trunk_length. lia. Qed.

Lemma tooth_same : forall D d k l, same (tooth D d k) (tooth D d l) = true.
Proof.
  intros. apply same_iff. rewrite !tooth_lst2. pose proof (tooth_long D d k) as A. pose proof (tooth_long D d l) as B.
  apply long_iff in A. apply long_iff in B. auto.
Qed.

Lemma filter_all : forall {A} (p : A -> bool) l, (forall x, In x l -> p x = true) -> filter p l = l.
Proof.
  induction l as [|x l IH]; intros H; cbn [filter]; auto. rewrite H by (left; auto). f_equal. apply IH. intros; apply H; right; auto.
Qed.
Lemma filter_no : forall {A} (p : A -> bool) l, (forall x, In x l -> p x = false) -> filter p l = [].
Proof.
  induction l as [|x l IH]; intros H; cbn [filter]; auto. rewrite H by (left; auto). apply IH. intros; apply H; right; auto.
Qed.

Lemma teeth_in : forall D d q n, In n (teeth D d q) -> exists k, n = tooth D d k /\ (k < q)%nat.
Proof. intros D d q n H. apply in_map_iff in H. destruct H as (k & <- & H). apply in_seq in H. exists k. split; auto. lia. Qed.

Lemma teeth_ids : forall D d q, map g_id (teeth D d q) = zseq (d + 1) q.
Proof.
  intros D d q. unfold teeth. rewrite map_map. cbn [tooth g_id].
  assert (X : forall q s, map (fun k => d + 1 + Z.of_nat k) (seq s q) = zseq (d + 1 + Z.of_nat s) q).
  { clear. induction q as [|q IH]; intros s; cbn [seq map zseq]; auto. f_equal. rewrite IH. f_equal. lia. }
  rewrite X. f_equal. lia.
Qed.

Definition cut (a : Z) (n : gnode) : gnode := mkG (g_id n) (Some a) (g_junction n) (g_pix n) (removelast (g_geom n)).

Lemma cut_tooth : forall a D d k, cut a (tooth D d (S k)) = tooth (Some a) (d + 1) k.
Proof.
  intros. unfold cut. rewrite tooth_geom, removelast_snoc. unfold tooth. cbn [g_id g_junction g_pix].
  replace (d + 1 + Z.of_nat (S k)) with (d + 1 + 1 + Z.of_nat k) by lia. reflexivity.
Qed.

Lemma cut_teeth : forall a D d q, map (cut a) (teeth D d (S q)) = cut a (tooth D d 0) :: teeth (Some a) (d + 1) q.
Proof.
  intros. unfold teeth. cbn [seq map]. f_equal. rewrite <- seq_shift, !map_map. apply map_ext. intros k. apply cut_tooth.
Qed.

Lemma teeth_groups : forall s D d q, long s = false -> ~ In (g_id s) (zseq (d + 1) (S q)) ->
  split_into_common_flow_groups (s :: teeth D d (S q)) 2 = Ok [[s]; teeth D d (S q)].
Proof.
  intros s D d q Ls Ns.
  destruct (split_ok (s :: teeth D d (S q))) as (gs & E & G); [discriminate| |].
  { cbn [map]. constructor; rewrite teeth_ids; auto. apply zseq_NoDup. }
  rewrite E. f_equal. inversion G as [|n rest gs' G' E1 E2]; subst. clear G E.
  assert (F : forall o, same s o = false) by (intros; unfold same; rewrite Ls; reflexivity).
  rewrite filter_no by auto. f_equal.
  rewrite filter_all in G' by (intros; rewrite F; reflexivity).
  unfold teeth in *. cbn [seq map] in *. inversion G' as [|n rest gs2 G2 E1 E2]; subst. clear G'.
  assert (H : forall o, In o (map (tooth D d) (seq 1 q)) -> same (tooth D d 0) o = true).
  { intros o Ho. apply in_map_iff in Ho. destruct Ho as (k & <- & _). apply tooth_same. }
  rewrite filter_all by auto. rewrite filter_no in G2 by (intros; rewrite H; auto). inversion G2. reflexivity.
Qed.

Lemma teeth_heads : forall D d q, heads_free (teeth D d q).
Proof.
  intros D d q a b x Ha Hb N Hx Hin. apply teeth_in in Ha. apply teeth_in in Hb.
  destruct Ha as (k & -> & _), Hb as (l & -> & _). cbn [tooth g_geom hd_error g_id] in *. inversion Hx; subst x.
  destruct Hin as [E|Hin]; [inversion E; lia|]. apply (trunk_row (S l)) in Hin. discriminate Hin.
Qed.

Lemma teeth_prune : forall D d q a, exists j,
  prune_common_flow (teeth D d (S (S q))) a = Ok (map (cut a) (teeth D d (S (S q))), j).
Proof.
  intros D d q a. change (teeth D d (S (S q))) with (tooth D d 0 :: map (tooth D d) (seq 1 (S q))).
  destruct (prune_ok (tooth D d 0) (map (tooth D d) (seq 1 (S q))) D a) as (prs & pix & t & M & P & Df & E).
  - discriminate.
  - change (tooth D d 0 :: map (tooth D d) (seq 1 (S q))) with (teeth D d (S (S q))). rewrite teeth_ids. apply zseq_NoDup.
  - intros n Hn. change (tooth D d 0 :: map (tooth D d) (seq 1 (S q))) with (teeth D d (S (S q))) in Hn.
    apply teeth_in in Hn. destruct Hn as (k & -> & _). rewrite !tooth_lst2, !tooth_lst. split; [reflexivity|]. split; [apply tooth_long|]. auto.
  - change (tooth D d 0 :: map (tooth D d) (seq 1 (S q))) with (teeth D d (S (S q))). apply teeth_heads.
  - rewrite E. eexists. f_equal. f_equal. rewrite <- M. rewrite map_map.
    assert (T : forall n r, In (n, r) prs -> exists k, n = tooth D d k).
    { intros n r H. assert (Hn : In n (map fst prs)) by (apply in_map_iff; exists (n, r); auto). rewrite M in Hn.
      change (tooth D d 0 :: map (tooth D d) (seq 1 (S q))) with (teeth D d (S (S q))) in Hn. apply teeth_in in Hn.
      destruct Hn as (k & -> & _). eauto. }
    assert (PT : pix = (0, d + 1) /\ t = [(0, d)]).
    { assert (H0 : exists r, In (tooth D d 0, r) prs).
      { destruct prs as [|[n r] prs]; [discriminate|]. cbn [map fst] in M. inversion M; subst. exists r. left; auto. }
      destruct H0 as (r0 & H0). destruct (P _ _ H0) as [G0 N0]. cbn [tooth g_geom trunk app] in G0.
      destruct r0 as [|x [|y [|z r0]]]; cbn [app] in G0; [congruence| | |]; inversion G0; subst; auto.
      - exfalso. destruct Df as (n & r & n' & r' & H1 & H2 & Nl). apply Nl.
        destruct (T _ _ H1) as (k & ->), (T _ _ H2) as (k' & ->). destruct (P _ _ H1) as [G1 _], (P _ _ H2) as [G2 _].
        pose proof (tooth_lst2 D d k) as L1. pose proof (tooth_lst2 D d k') as L2. rewrite G1 in L1. rewrite G2 in L2.
        unfold lst2 in *. rewrite removelast_snoc in L1, L2. congruence.
      - match goal with H : [] = r0 ++ _ |- _ => destruct r0; discriminate H end. }
    destruct PT as [-> ->]. apply map_ext_in. intros [n r] H. destruct (P _ _ H) as [G _]. unfold pruned, cut. cbn [fst].
    f_equal. rewrite G. change [(0, d + 1); (0, d)] with ([(0, d + 1)] ++ [(0, d)]). rewrite app_assoc.
    symmetry. apply removelast_snoc.
Qed.

Lemma comb_deep : forall room s D d q a, long s = false -> g_id s <= d -> (room < q)%nat ->
  untangle_rec room (s :: teeth D d q) a = Exc RecursionError.
Proof.
  induction room as [|room IH]; intros s D d q a Ls Is Hq; [reflexivity|].
  destruct q as [|[|q]]; try lia. rewrite untangle_rec_eq. rewrite teeth_groups; auto.
  2:{ rewrite in_zseq. lia. }
  cbn [bind mfold]. unfold rec_step at 1. change (1 <? Z.of_nat (length [s])) with false. cbv iota.
  change (list_rd [s] 0) with (Ok s). cbn [bind]. unfold rec_step at 1.
  replace (1 <? Z.of_nat (length (teeth D d (S (S q))))) with true
    by (symmetry; unfold teeth; rewrite map_length, seq_length; apply Z.ltb_lt; lia).
  cbv iota. destruct (teeth_prune D d q a) as (j & ->). cbn [bind]. rewrite cut_teeth. rewrite IH; [reflexivity| | |lia].
  - reflexivity.
  - cbn. lia.
Qed.

(** ** The network of the comb *)
Lemma trunk_walk : forall m src (k : nat), (k <= m)%nat ->
  walk (comb_flow m) (comb_lab m) src (0, Z.of_nat k) None (trunk k 0).
Proof.
  intros m src k H. assert (NF : forall j, ~ foreign_cell (comb_lab m) src (Some 0) (0, j)).
  { intros j F. apply foreign0 in F. destruct F as [_ F]. apply F. reflexivity. }
  induction k as [|k IH].
  - apply wk_end; auto; [apply comb_in; lia|]. intros d T. rewrite comb_target0 in T. inversion T. unfold inside. cbn. lia.
  - rewrite trunk_cons. replace (0 + Z.of_nat k + 1) with (Z.of_nat (S k)) by lia.
    apply wk_step with (0, Z.of_nat k); auto; [|apply IH; lia]. split; [apply comb_in; lia|]. split; [apply comb_in; lia|].
    rewrite comb_target0. f_equal. f_equal. lia.
Qed.

Lemma tooth_walk : forall m (k : nat), (k < m)%nat ->
  walk (comb_flow m) (comb_lab m) (1 + Z.of_nat k) (1, 1 + Z.of_nat k) None (g_geom (tooth None 0 k)).
Proof.
  intros m k H. unfold tooth. cbn [g_geom]. rewrite Z.add_0_l. apply wk_step with (0, 1 + Z.of_nat k).
  - intros F. apply foreign0 in F. destruct F as [F _]. apply F. reflexivity.
  - split; [apply comb_in; lia|]. split; [apply comb_in; lia|]. apply comb_target1. lia.
  - replace (1 + Z.of_nat k) with (Z.of_nat (S k)) by lia. apply trunk_walk. lia.
Qed.

Definition comb_root : gnode := mkG 0 None false (0, 0) [(0, 0)].

Lemma comb_nodes : forall m N, map g_id N = zseq 0 (length (comb_pps m)) -> map g_pix N = comb_pps m ->
  (forall n, In n N -> from_walk (comb_flow m) (comb_lab m) n) -> N = comb_root :: teeth None 0 m.
Proof.
  intros m N A B C.
  assert (W : forall n, In n N -> n = (fun z => if z =? 0 then comb_root else tooth None 0 (Z.to_nat (z - 1))) (g_id n)).
  { intros n Hn. destruct (node_at N (comb_pps m) 0 A B n Hn) as (k & Ek & Ei). destruct (C n Hn) as (J & La & Wk).
    destruct n as [i D j p g]. cbn [g_id g_dstr g_junction g_pix g_geom] in *. subst j. rewrite Z.add_0_l in Ei. subst i.
    destruct k as [|k].
    - cbn [comb_pps nth_error] in Ek. inversion Ek; subst p.
      pose proof (trunk_walk m (Z.of_nat 0) 0 ltac:(lia)) as W0. change (trunk 0 0) with [(0, 0)] in W0.
      destruct (walk_det _ _ _ _ _ _ Wk _ _ W0) as [-> ->]. reflexivity.
    - unfold comb_pps in Ek. cbn [nth_error] in Ek.
      assert (L : (k < length (map spot (zseq 1 m)))%nat) by (apply nth_error_Some; intros X; rewrite X in Ek; discriminate).
      rewrite map_length, zseq_length in L. rewrite nth_error_map in Ek. rewrite zseq_nth in Ek by auto. cbn [option_map] in Ek.
      assert (Ep : p = (1, Z.of_nat (S k))) by (assert (Y : spot (1 + Z.of_nat k) = p) by congruence; rewrite <- Y; unfold spot; f_equal; lia).
      subst p. clear Ek. pose proof (tooth_walk m k L) as W0. replace (1 + Z.of_nat k) with (Z.of_nat (S k)) in W0 by lia.
      destruct (walk_det _ _ _ _ _ _ Wk _ _ W0) as [-> ->].
      cbv beta. destruct (Z.eqb_spec (Z.of_nat (S k)) 0); [lia|]. replace (Z.to_nat (Z.of_nat (S k) - 1)) with k by lia.
      unfold tooth. cbn [g_geom]. replace (0 + 1 + Z.of_nat k) with (Z.of_nat (S k)) by lia.
      replace (1 + Z.of_nat k) with (Z.of_nat (S k)) by lia. reflexivity. }
  rewrite <- (map_id N). rewrite (map_ext_in _ _ N W).
  rewrite <- (map_map g_id (fun z => if z =? 0 then comb_root else tooth None 0 (Z.to_nat (z - 1))) N). rewrite A.
  unfold comb_pps. cbn [length]. rewrite map_length, zseq_length. cbn [zseq map].
  f_equal. unfold teeth.
  assert (X : forall q s, map (fun z => if z =? 0 then comb_root else tooth None 0 (Z.to_nat (z - 1))) (zseq (1 + Z.of_nat s) q) =
    map (tooth None 0) (seq s q)).
  { clear. induction q as [|q IH]; intros s; cbn [zseq seq map]; auto. f_equal.
    - destruct (Z.eqb_spec (1 + Z.of_nat s) 0); [lia|]. f_equal. lia.
    - rewrite <- IH. f_equal. f_equal. lia. }
  exact (X m 0%nat).
Qed.

Lemma push_none : forall l acc, (forall n, In n l -> g_dstr n = None) ->
  fold_left push l [(None, acc)] = [(None, acc ++ l)].
Proof.
  induction l as [|n l IH]; intros acc H; cbn [fold_left].
  - rewrite app_nil_r. reflexivity.
  - unfold push at 2. rewrite (H n (or_introl eq_refl)). cbn [dset dget optZ_eqb]. rewrite IH.
    + rewrite <- app_assoc. reflexivity.
    + intros; apply H; right; auto.
Qed.

Theorem comb_fails : forall room fuel, (length (rcells (comb_flow (S room))) <= fuel)%nat ->
  geometric_pourpoint_network_rec room fuel (comb_flow (S room)) (comb_lab (S room)) (comb_pps (S room)) (Some 0) = Exc RecursionError.
Proof.
  intros room fuel F. set (m := S room) in *.
  assert (Sh : same_shape (comb_flow m) (comb_lab m)) by (split; reflexivity).
  destruct (nodes_exist (comb_flow m) (comb_lab m) Sh (comb_drains m) (comb_pps m) (comb_points m)) as (N & A & B & C & D).
  pose proof (comb_nodes m N A B C) as ->. destruct (D fuel F) as [_ D2].
  unfold geometric_pourpoint_network_rec. rewrite D2. cbn [bind].
  rewrite (max_label _ _ Sh (comb_pps m) ltac:(discriminate) (comb_points m)). cbn [bind].
  cbn [fold_left]. change (push [] comb_root) with [(@None Z, [comb_root])]. rewrite push_none.
  - cbn [mfold snd app]. rewrite comb_deep; [reflexivity|reflexivity|cbn; lia|unfold m; lia].
  - intros n Hn. apply teeth_in in Hn. destruct Hn as (k & -> & _). reflexivity.
Qed.

Theorem no_room_enough : forall room, exists f lab pps, same_shape f lab /\ fully_draining f /\ pps <> [] /\
  pourpoints_ok f lab pps /\ length pps = S (S room) /\
  forall fuel, (length (rcells f) <= fuel)%nat ->
    (exists out, geometric_pourpoint_network fuel f lab pps (Some 0) = Ok out) /\
    geometric_pourpoint_network_rec room fuel f lab pps (Some 0) = Exc RecursionError.
Proof.
  intros room. exists (comb_flow (S room)), (comb_lab (S room)), (comb_pps (S room)).
  split; [split; reflexivity|]. split; [apply comb_drains|]. split; [discriminate|]. split; [apply comb_points|].
  assert (L : length (comb_pps (S room)) = S (S room)) by (unfold comb_pps; cbn [length]; rewrite map_length, zseq_length; reflexivity).
  split; [exact L|]. intros fuel F. split; [|apply comb_fails; auto].
  assert (F2 : (length (comb_pps (S room)) <= fuel)%nat).
  { rewrite L. assert (X : length (rcells (comb_flow (S room))) = (2 * S (S room))%nat); [|lia].
    unfold rcells, cells_of. cbn [nrows ncols comb_flow]. change (pyrange 0 2 1) with [0; 1].
    cbn [flat_map]. rewrite !app_length, !map_length. unfold pyrange. change (1 <? 0) with false. cbv iota.
    rewrite zseq_length. cbn [length]. lia. }
  destruct (junctions_preserve (comb_flow (S room)) (comb_lab (S room)) (comb_pps (S room)) ltac:(split; reflexivity)
    (comb_drains _) ltac:(discriminate) (comb_points _) fuel F F2) as (plain & out & _ & E & _). eauto.
Qed.


(** ** A terrain: three pits beside a valley *)
Definition side_dem : raster b64 := zrows
  [[90;90;90;90;90;90;90;90]; [10;12;14;16;18;20;22;90]; [90;30;90;31;90;32;90;90];
   [90; 5;90; 5;90; 5;90;90]; [90;90;90;90;90;90;90;90]].

Lemma side_ok : dem32 side_dem /\ dem_finite side_dem.
Proof. apply dem_ok. vm_compute. reflexivity. Qed.

Definition too_deep {A} (r : res A) : bool := match r with Exc RecursionError => true | _ => false end.

Lemma side_runs : exists dout out, dem_process false 60 (f64_ofZ 2) (f64_ofZ (-2)) side_dem = Ok dout /\
  bluespot_process false cc_memo 60 ex_gt (do_depths dout) (do_flowdir dout) (Some all_pass) None (Some side_dem) = Ok out /\
  length (pps_of out) = 4%nat /\
  (exists net, geometric_pourpoint_network_rec 3 60 (do_flowdir dout) (bo_labeled out) (pps_of out) (Some 0) = Ok net) /\
  geometric_pourpoint_network_rec 2 60 (do_flowdir dout) (bo_labeled out) (pps_of out) (Some 0) = Exc RecursionError.
Proof.
  assert (H : on_ok (fun dout => on_ok (fun out => Nat.eqb (length (pps_of out)) 4 &&
      on_ok (fun _ => true) (geometric_pourpoint_network_rec 3 60 (do_flowdir dout) (bo_labeled out) (pps_of out) (Some 0)) &&
      too_deep (geometric_pourpoint_network_rec 2 60 (do_flowdir dout) (bo_labeled out) (pps_of out) (Some 0)))
    (bluespot_process false cc_memo 60 ex_gt (do_depths dout) (do_flowdir dout) (Some all_pass) None (Some side_dem)))
    (dem_process false 60 (f64_ofZ 2) (f64_ofZ (-2)) side_dem) = true) by (vm_compute; reflexivity).
  apply on_ok_ex in H. destruct H as (dout & E1 & H). apply on_ok_ex in H. destruct H as (out & E2 & H).
  exists dout, out. split; [exact E1|]. split; [exact E2|].
  apply andb_true_iff in H. destruct H as [H H3]. apply andb_true_iff in H. destruct H as [H1 H2].
  split; [apply Nat.eqb_eq; exact H1|]. split; [apply on_ok_ex in H2; destruct H2 as (net & E & _); eauto|].
  destruct (geometric_pourpoint_network_rec 2 60 (do_flowdir dout) (bo_labeled out) (pps_of out) (Some 0)) as [|[]|]; try discriminate H3. reflexivity.
Qed.
