(** * Proofs for C110 *)

From Coq Require Import QArith Qabs Lqa Lia List Bool.
From Verif Require Import Base Num NetworkModel NetworkSpec NetworkProofs NetworkThms LocalSpec LocalThms CutSpec CutThms HelpSpec.
Import ListNotations.
Local Open Scope Z_scope.

Lemma helped_edges : forall r c fs, Forall2 same_edges fs (map (helped r c) fs).
Proof. intros r c fs. induction fs as [|n fs IH]; cbn; constructor; auto. split; reflexivity. Qed.
Lemma helped_ids : forall r c fs, unique_ids fs -> unique_ids (map (helped r c) fs).
Proof. intros r c fs U. unfold unique_ids. rewrite <- (place_ids _ _ (helped_edges r c fs)). exact U. Qed.
Lemma helped_acyclic : forall r c fs, acyclic_closed fs -> acyclic_closed (map (helped r c) fs).
Proof. intros r c fs. apply place_acyclic, helped_edges. Qed.

Definition gain (r c : Z -> Q) (q : Z -> bool) (fs : list (@node Q)) : Q :=
  Qsum (map (fun n => r (n_id n) + c (n_id n))%Q (filter (fun n => q (n_id n)) fs)).

Lemma helped_surplus : forall r c fs q, (surplus (map (helped r c) fs) q == surplus fs q - gain r c q fs)%Q.
Proof.
  intros r c fs q. unfold surplus, gain. induction fs as [|n fs IH]; [reflexivity|]. cbn [map filter helped n_id]. destruct (q (n_id n)); [|exact IH].
  cbn [map Qsum n_water n_cap helped]. rewrite IH. ring.
Qed.

(** Marked nodes drain to the node. *)
Lemma part_drains : forall (fs : list (@node Q)) id q, unique_ids fs -> part_above fs id q ->
  forall a r, root_of fs a r -> q a = true -> drains_to fs a id.
Proof.
  intros fs id q U P a r R. induction R as [n Hn D|n d r Hn D R IH]; intros Q; destruct (P n Hn Q) as [<-|(d' & D' & Q')]; try constructor.
  - congruence.
  - assert (d' = d) by congruence. subst d'. apply (dt_step fs n d); auto.
Qed.

(** What a node spills, as a part of the network above it: the empty part if nothing. *)
Lemma spill_part : forall (fs : list (@node Q)) fuel out, unique_ids fs -> acyclic_closed fs -> process QOps fuel fs = Ok out ->
  forall p, In p out -> exists q, part_above fs (n_id (fst p)) q /\ (out_spill p == surplus fs q)%Q.
Proof.
  intros fs fuel out U AC H p Hp. destruct (process_cut fs fuel out U AC H p Hp) as (N & _ & X). destruct (Qlt_le_dec 0 (out_spill p)) as [L|L].
  - destruct (X L) as (q & P & _ & E). eauto.
  - exists (fun _ => false). split; [intros m _ E; discriminate E|]. unfold surplus.
    assert (E : filter (fun m : @node Q => false) fs = []) by (clear; induction fs; auto). rewrite E. cbn. lra.
Qed.

Lemma gain_mono : forall r c (q q' : Z -> bool) fs, (forall n, In n fs -> 0 <= r (n_id n) /\ 0 <= c (n_id n))%Q ->
  (forall n, In n fs -> q (n_id n) = true -> q' (n_id n) = true) -> (gain r c q fs <= gain r c q' fs)%Q.
Proof.
  intros r c q q' fs P I. unfold gain. induction fs as [|n fs IH]; [apply Qle_refl|]. cbn [filter].
  assert (IH' := IH (fun m Hm => P m (or_intror Hm)) (fun m Hm => I m (or_intror Hm))). destruct (P n (or_introl eq_refl)) as (A & B).
  specialize (I n (or_introl eq_refl)). destruct (q (n_id n)); [rewrite I by reflexivity; cbn [map Qsum]; lra|].
  destruct (q' (n_id n)); cbn [map Qsum]; lra.
Qed.
Lemma gain_nonneg : forall r c (q : Z -> bool) fs, (forall n, In n fs -> 0 <= r (n_id n) /\ 0 <= c (n_id n))%Q -> (0 <= gain r c q fs)%Q.
Proof.
  intros r c q fs P. unfold gain. apply Qsum_nonneg. intros x Hx. apply in_map_iff in Hx. destruct Hx as (n & <- & Hn). apply filter_In in Hn.
  destruct (P n (proj1 Hn)). lra.
Qed.

Theorem helped_spill : forall (fs : list (@node Q)) r c fuel fuel' out out', unique_ids fs -> acyclic_closed fs ->
  (forall n, In n fs -> 0 <= r (n_id n) /\ 0 <= c (n_id n))%Q ->
  process QOps fuel fs = Ok out -> process QOps fuel' (map (helped r c) fs) = Ok out' ->
  forall p p', In p out -> In p' out' -> n_id (fst p') = n_id (fst p) ->
  forall up, (forall m, In m fs -> (up (n_id m) = true <-> drains_to fs (n_id m) (n_id (fst p)))) ->
  (out_spill p' <= out_spill p /\ out_spill p - out_spill p' <= Qsum (map (fun n => r (n_id n) + c (n_id n)) (filter (fun n => up (n_id n)) fs)))%Q.
Proof.
  intros fs r c fuel fuel' out out' U AC P H H' p p' Hp Hp' E up UP.
  pose proof (helped_ids r c fs U) as U'. pose proof (helped_acyclic r c fs AC) as AC'. pose proof (helped_edges r c fs) as F.
  destruct (process_cut _ _ _ U AC H p Hp) as (_ & L & _). destruct (process_cut _ _ _ U' AC' H' p' Hp') as (_ & L' & _).
  destruct (spill_part _ _ _ U AC H p Hp) as (q & A & S). destruct (spill_part _ _ _ U' AC' H' p' Hp') as (q' & A' & S').
  split.
  - rewrite S', helped_surplus. assert (X : (surplus fs q' <= out_spill p)%Q) by (apply L; eapply part_edges; [exact F|]; rewrite <- E; exact A').
    pose proof (gain_nonneg r c q' fs P). lra.
  - assert (X : (surplus (map (helped r c) fs) q <= out_spill p')%Q).
    { apply L'. rewrite E. eapply part_edges; [apply Forall2_sym_edges; exact F|exact A]. }
    rewrite helped_surplus in X. change (out_spill p - out_spill p' <= gain r c up fs)%Q.
    assert (Y : (gain r c q fs <= gain r c up fs)%Q); [|lra].
    apply gain_mono; [exact P|]. intros n Hn Q. apply UP; [exact Hn|]. destruct (AC n Hn) as (x & R). apply (part_drains fs _ q U A _ x R Q).
Qed.

(** Sums over the intersection and the union of two parts. *)
Lemma two_parts : forall (g : @node Q -> Q) (a b : Z -> bool) fs,
  (Qsum (map g (filter (fun n => a (n_id n)) fs)) + Qsum (map g (filter (fun n => b (n_id n)) fs)) ==
   Qsum (map g (filter (fun n => a (n_id n) || b (n_id n)) fs)) + Qsum (map g (filter (fun n => a (n_id n) && b (n_id n)) fs)))%Q.
Proof.
  intros g a b fs. induction fs as [|n fs IH]; [reflexivity|]. cbn [filter]. destruct (a (n_id n)), (b (n_id n)); cbn [orb andb map Qsum]; lra.
Qed.

Theorem together : forall (fs : list (@node Q)) r c r' c' fuel0 fuel1 fuel2 fuel3 out0 out1 out2 out3, unique_ids fs -> acyclic_closed fs ->
  (forall n, In n fs -> 0 <= r (n_id n) /\ 0 <= c (n_id n))%Q -> (forall n, In n fs -> 0 <= r' (n_id n) /\ 0 <= c' (n_id n))%Q ->
  process QOps fuel0 fs = Ok out0 -> process QOps fuel1 (map (helped r c) fs) = Ok out1 -> process QOps fuel2 (map (helped r' c') fs) = Ok out2 ->
  process QOps fuel3 (map (helped (both r r') (both c c')) fs) = Ok out3 ->
  forall p0 p1 p2 p3, In p0 out0 -> In p1 out1 -> In p2 out2 -> In p3 out3 ->
  n_id (fst p1) = n_id (fst p0) -> n_id (fst p2) = n_id (fst p0) -> n_id (fst p3) = n_id (fst p0) ->
  (out_spill p0 - out_spill p3 <= (out_spill p0 - out_spill p1) + (out_spill p0 - out_spill p2))%Q.
Proof.
  intros fs r c r' c' k0 k1 k2 k3 out0 out1 out2 out3 U AC P P' H0 H1 H2 H3 p0 p1 p2 p3 I0 I1 I2 I3 E1 E2 E3.
  destruct (process_cut _ _ _ U AC H0 p0 I0) as (_ & L0 & _).
  destruct (process_cut _ _ _ (helped_ids _ _ fs U) (helped_acyclic _ _ fs AC) H3 p3 I3) as (_ & L3 & _).
  destruct (spill_part _ _ _ (helped_ids _ _ fs U) (helped_acyclic _ _ fs AC) H1 p1 I1) as (a & A & S1).
  destruct (spill_part _ _ _ (helped_ids _ _ fs U) (helped_acyclic _ _ fs AC) H2 p2 I2) as (b & B & S2).
  rewrite E1 in A. rewrite E2 in B. rewrite E3 in L3.
  apply (part_edges fs _ _ _ (helped_edges _ _ fs)) in A. apply (part_edges fs _ _ _ (helped_edges _ _ fs)) in B.
  assert (X : (surplus fs (fun i => a i || b i) <= out_spill p0)%Q).
  { apply L0. intros m Hm Q. apply orb_true_iff in Q. destruct Q as [Q|Q].
    - destruct (A m Hm Q) as [E|(d & D & Qd)]; [left; exact E|right; exists d; split; [exact D|rewrite Qd; reflexivity]].
    - destruct (B m Hm Q) as [E|(d & D & Qd)]; [left; exact E|right; exists d; split; [exact D|rewrite Qd; apply orb_true_r]]. }
  assert (Y : (surplus (map (helped (both r r') (both c c')) fs) (fun i => a i && b i) <= out_spill p3)%Q).
  { apply L3. apply (part_edges _ fs _ _ (Forall2_sym_edges _ _ (helped_edges _ _ fs))). intros m Hm Q. apply andb_true_iff in Q. destruct Q as (Qa & Qb).
    destruct (A m Hm Qa) as [E|(d & D & Qd)]; [left; exact E|]. destruct (B m Hm Qb) as [E|(d' & D' & Qd')]; [left; exact E|].
    assert (d' = d) by congruence. subst d'. right. exists d. split; [exact D|]. rewrite Qd, Qd'. reflexivity. }
  rewrite helped_surplus in Y, S1, S2.
  assert (Z : (gain (both r r') (both c c') (fun i => a i && b i) fs == gain r c (fun i => a i && b i) fs + gain r' c' (fun i => a i && b i) fs)%Q).
  { unfold gain. rewrite <- Qsum_plus. apply Qsum_ext. intros n _. unfold both. ring. }
  assert (G1 : (gain r c (fun i => a i && b i) fs <= gain r c a fs)%Q) by (apply gain_mono; [exact P|]; intros n _ Q; apply andb_true_iff in Q; apply Q).
  assert (G2 : (gain r' c' (fun i => a i && b i) fs <= gain r' c' b fs)%Q) by (apply gain_mono; [exact P'|]; intros n _ Q; apply andb_true_iff in Q; apply Q).
  pose proof (two_parts (fun m => n_water m - n_cap m)%Q a b fs) as T. unfold surplus in *. lra.
Qed.

Theorem helped_volume : forall (fs : list (@node Q)) r c fuel fuel' out out', unique_ids fs -> acyclic_closed fs ->
  (forall n, In n fs -> 0 <= r (n_id n) /\ 0 <= c (n_id n))%Q ->
  process QOps fuel fs = Ok out -> process QOps fuel' (map (helped r c) fs) = Ok out' ->
  forall p p', In p out -> In p' out' -> n_id (fst p') = n_id (fst p) ->
  (out_vol p' <= out_vol p + c (n_id (fst p)))%Q.
Proof.
  intros fs r c fuel fuel' out out' U AC P H H' p p' Hp Hp' E.
  pose proof (helped_ids r c fs U) as U'. pose proof (helped_acyclic r c fs AC) as AC'.
  destruct (process_balance _ _ _ U AC H) as (M & v & s & B & V). destruct (process_balance _ _ _ U' AC' H') as (M' & v' & s' & B' & V').
  assert (Mono : forall n, In n fs -> (s' (n_id n) <= s (n_id n))%Q).
  { intros n Hn. assert (I : In n (map fst out)) by (rewrite M; exact Hn). apply in_map_iff in I. destruct I as (a & Ea & Ia).
    assert (I' : In (helped r c n) (map fst out')) by (rewrite M'; apply in_map; exact Hn). apply in_map_iff in I'. destruct I' as (a' & Ea' & Ia').
    destruct (marked fs (n_id n) U AC) as (up & UP).
    destruct (helped_spill fs r c fuel fuel' out out' U AC P H H' a a' Ia Ia') with (up := up) as (X & _); [rewrite Ea, Ea'; reflexivity|rewrite Ea; exact UP|].
    rewrite (proj2 (V a Ia)), (proj2 (V' a' Ia')), Ea, Ea' in X. exact X. }
  assert (Hn : In (fst p) fs) by (rewrite <- M; apply in_map, Hp). set (n := fst p) in *.
  assert (Hn' : In (helped r c n) (map (helped r c) fs)) by (apply in_map, Hn).
  rewrite (proj1 (V p Hp)), (proj1 (V' p' Hp')), E. fold n.
  destruct (B n Hn (AC n Hn)) as (X & _). destruct (B' _ Hn' (AC' _ Hn')) as (X' & _). cbv zeta in X, X'. cbn [helped n_id n_water n_cap] in X'.
  assert (L : (Qsum (map (fun u => s' (n_id u)) (direct_upstream (map (helped r c) fs) (n_id n))) <= Qsum (map (fun u => s (n_id u)) (direct_upstream fs (n_id n))))%Q).
  { rewrite <- (map_map n_id s'), <- (place_direct fs _ (helped_edges r c fs)), map_map. apply Qsum_le. intros u Hu. apply Mono.
    unfold direct_upstream in Hu. apply filter_In in Hu. apply Hu. }
  destruct (P n Hn) as (R1 & R2).
  destruct (Qlt_le_dec (n_cap n) _) in X; destruct (Qlt_le_dec (n_cap n + c (n_id n)) _) in X'; rewrite X, X'; lra.
Qed.

(** ** Example *)
Definition more_at (i : Z) (x : Q) (j : Z) : Q := if j =? i then x else 0%Q.
Definition none (_ : Z) : Q := 0%Q.
Definition spill0 (l : list (@node Q)) : Q := match process QOps 4 l with Ok (p :: _) => Qred (out_spill p) | _ => 0%Q end.
Lemma ex_help : (forall n, In n ex_net -> 0 <= none (n_id n) /\ 0 <= more_at 2 4 (n_id n))%Q /\ (forall n, In n ex_net -> 0 <= none (n_id n) /\ 0 <= more_at 1 4 (n_id n))%Q /\
  spill0 ex_net = 6%Q /\ spill0 (map (helped none (more_at 2 4)) ex_net) = 3%Q /\ spill0 (map (helped none (more_at 1 4)) ex_net) = 3%Q /\
  spill0 (map (helped (both none none) (both (more_at 2 4) (more_at 1 4))) ex_net) = 3%Q.
Proof.
  split; [|split].
  1, 2: intros n Hn; cbn in Hn; repeat destruct Hn as [<-|Hn]; try contradiction; split; vm_compute; discriminate.
  repeat split; vm_compute; reflexivity.
Qed.
