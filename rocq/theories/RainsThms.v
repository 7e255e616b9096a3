(** * Proofs for C113 *)

From Coq Require Import QArith Qabs Lqa Lia List Bool.
From Verif Require Import Base Num NetworkModel NetworkSpec NetworkProofs NetworkThms LocalSpec LocalThms CutSpec CutThms HelpSpec HelpThms RainsSpec.
Import ListNotations.
Local Open Scope Z_scope.

Lemma next_edges : forall w out, Forall2 same_edges (map fst out) (map (next_rain w) out).
Proof. intros w out. induction out as [|n l IH]; cbn; constructor; auto. split; reflexivity. Qed.
Lemma both_edges : forall w fs, Forall2 same_edges fs (map (both_rains w) fs).
Proof. intros w fs. induction fs as [|n l IH]; cbn; constructor; auto. split; reflexivity. Qed.
Lemma times_edges : forall k fs, Forall2 same_edges fs (map (times_rain k) fs).
Proof. intros w fs. induction fs as [|n l IH]; cbn; constructor; auto. split; reflexivity. Qed.

Lemma same_inflow : forall ns ns' (s : Z -> Q) id, Forall2 same_edges ns ns' ->
  Qsum (map (fun u => s (n_id u)) (direct_upstream ns' id)) = Qsum (map (fun u => s (n_id u)) (direct_upstream ns id)).
Proof.
  intros ns ns' s id F. unfold direct_upstream. f_equal. induction F as [|a b l l' (E1 & E2) F IH]; [reflexivity|]. cbn [filter].
  unfold is_dstr in *. rewrite <- E2. destruct (n_dstr a) as [d|]; [|exact IH]. destruct (d =? id); [|exact IH]. cbn [map]. rewrite E1, IH. reflexivity.
Qed.
Lemma inflow_sum : forall (l : list (@node Q)) (s t : Z -> Q), (Qsum (map (fun u => s (n_id u) + t (n_id u)) l) == Qsum (map (fun u => s (n_id u)) l) + Qsum (map (fun u => t (n_id u)) l))%Q.
Proof. intros l s t. induction l as [|u l IH]; cbn [map Qsum]; [ring|]. rewrite IH. ring. Qed.
Lemma edges_in : forall ns ns' n', Forall2 same_edges ns ns' -> In n' ns' -> exists n, In n ns /\ same_edges n n'.
Proof.
  intros ns ns' n' F H. induction F as [|a b l l' E F IH]; [destruct H|]. destruct H as [<-|H]; [exists a; split; [left; reflexivity|exact E]|].
  destruct (IH H) as (n & A & B). exists n. split; [right; exact A|exact B].
Qed.

Lemma add_balance : forall (fs : list (@node Q)) w out1 v1 s1 v2 s2, unique_ids fs -> acyclic_closed fs -> (forall n, In n fs -> 0 <= w (n_id n))%Q ->
  map fst out1 = fs -> (forall p, In p out1 -> out_vol p = v1 (n_id (fst p))) -> balance fs v1 s1 -> balance (map (next_rain w) out1) v2 s2 ->
  balance (map (both_rains w) fs) (fun i => v1 i + v2 i)%Q (fun i => s1 i + s2 i)%Q.
Proof.
  intros fs w out1 v1 s1 v2 s2 U AC W M1 V1 B1 B2.
  assert (F2 : Forall2 same_edges fs (map (next_rain w) out1)) by (rewrite <- M1 at 1; apply next_edges).
  pose proof (both_edges w fs) as F. pose proof (place_acyclic _ _ F2 AC) as AC2.
  intros n' Hn' _. apply in_map_iff in Hn'. destruct Hn' as (n & <- & Hn). cbn [n_id n_water n_cap both_rains]. cbv zeta.
  rewrite (same_inflow _ _ (fun i => s1 i + s2 i)%Q (n_id n) F). pose proof (inflow_sum (direct_upstream fs (n_id n)) s1 s2) as IS. cbv beta.
  destruct (B1 n Hn (AC n Hn)) as (P1 & Q1). cbv zeta in P1, Q1.
  assert (K : exists o, In o out1 /\ fst o = n) by (rewrite <- M1 in Hn; apply in_map_iff in Hn; destruct Hn as (o & A & C); eauto).
  destruct K as (o & Ho & Eo). assert (Hm : In (next_rain w o) (map (next_rain w) out1)) by (apply in_map; exact Ho).
  destruct (B2 _ Hm (AC2 _ Hm)) as (P2 & Q2). cbv zeta in P2, Q2. cbn [n_id n_water n_cap next_rain] in P2, Q2. rewrite Eo in P2, Q2.
  rewrite (same_inflow _ _ s2 (n_id n) F2) in P2, Q2. rewrite (V1 o Ho), Eo in P2, Q2.
  assert (N2 : (0 <= Qsum (map (fun u => s2 (n_id u)) (direct_upstream fs (n_id n))))%Q).
  { apply Qsum_nonneg. intros x Hx. apply in_map_iff in Hx. destruct Hx as (u & <- & Hu). apply filter_In in Hu. destruct Hu as (Hu & _).
    destruct (edges_in _ _ u (Forall2_sym_edges _ _ F2) Hu) as (m & Hm' & Em & _). rewrite <- Em. apply (spill_ge _ AC2 v2 s2 B2 m Hm'). }
  specialize (W n Hn).
  repeat match goal with H : context [if Qlt_le_dec ?a ?b then _ else _] |- _ => destruct (Qlt_le_dec a b)
    | |- context [if Qlt_le_dec ?a ?b then _ else _] => destruct (Qlt_le_dec a b) end; split; lra.
Qed.

Theorem two_rains : forall (fs : list (@node Q)) w fuel1 fuel2 fuel out1 out2 out, unique_ids fs -> acyclic_closed fs ->
  (forall n, In n fs -> 0 <= w (n_id n))%Q ->
  process QOps fuel1 fs = Ok out1 -> process QOps fuel2 (map (next_rain w) out1) = Ok out2 -> process QOps fuel (map (both_rains w) fs) = Ok out ->
  forall p1 p2 p, In p1 out1 -> In p2 out2 -> In p out -> n_id (fst p1) = n_id (fst p) -> n_id (fst p2) = n_id (fst p) ->
  (out_vol p == out_vol p1 + out_vol p2 /\ out_spill p == out_spill p1 + out_spill p2)%Q.
Proof.
  intros fs w fuel1 fuel2 fuel out1 out2 out U AC W H1 H2 H p1 p2 p I1 I2 I E1 E2.
  destruct (process_balance _ _ _ U AC H1) as (M1 & v1 & s1 & B1 & V1).
  assert (F2 : Forall2 same_edges fs (map (next_rain w) out1)) by (rewrite <- M1 at 1; apply next_edges).
  assert (U2 : unique_ids (map (next_rain w) out1)) by (unfold unique_ids; rewrite <- (place_ids _ _ F2); exact U).
  pose proof (both_edges w fs) as F. assert (UB : unique_ids (map (both_rains w) fs)) by (unfold unique_ids; rewrite <- (place_ids _ _ F); exact U).
  pose proof (place_acyclic _ _ F2 AC) as AC2. pose proof (place_acyclic _ _ F AC) as ACB.
  destruct (process_balance _ _ _ U2 AC2 H2) as (M2 & v2 & s2 & B2 & V2).
  destruct (process_balance _ _ _ UB ACB H) as (M & v & s & B & V).
  pose proof (add_balance fs w out1 v1 s1 v2 s2 U AC W M1 (fun p Hp => proj1 (V1 p Hp)) B1 B2) as X.
  destruct (V p I) as (-> & ->). destruct (V1 p1 I1) as (-> & ->). destruct (V2 p2 I2) as (-> & ->). rewrite E1, E2.
  assert (Hp : In (fst p) (map (both_rains w) fs)) by (rewrite <- M; apply in_map, I). destruct (ACB _ Hp) as (r & R).
  destruct (balance_unique _ _ _ _ _ UB B X _ r R) as (A & C). split; [exact A|exact C].
Qed.

(** ** Any number of rains *)
Lemma balance_same : forall ns ns' v s v' s', Forall2 (fun a b => same_edges a b /\ n_water a == n_water b /\ n_cap a == n_cap b)%Q ns ns' -> acyclic_closed ns ->
  (forall n, In n ns -> v (n_id n) == v' (n_id n) /\ s (n_id n) == s' (n_id n))%Q -> balance ns v s -> balance ns' v' s'.
Proof.
  intros ns ns' v s v' s' F AC E B n' Hn' _.
  assert (FE : Forall2 same_edges ns ns') by (clear - F; induction F as [|a b l l' (S & _) F IH]; constructor; auto).
  assert (K : exists n, In n ns /\ (same_edges n n' /\ n_water n == n_water n' /\ n_cap n == n_cap n')%Q).
  { clear - F Hn'. induction F as [|a b l l' S F IH]; [destruct Hn'|]. destruct Hn' as [<-|H]; [exists a; split; [left; reflexivity|exact S]|].
    destruct (IH H) as (n & A & C). exists n. split; [right; exact A|exact C]. }
  destruct K as (n & Hn & (Ei & Ed) & Ew & Ec). destruct (B n Hn (AC n Hn)) as (P & Q). cbv zeta in P, Q |- *.
  rewrite (same_inflow _ _ s' (n_id n') FE), <- Ei. destruct (E n Hn) as (Ev & Es).
  assert (IN : (Qsum (map (fun u => s (n_id u)) (direct_upstream ns (n_id n))) == Qsum (map (fun u => s' (n_id u)) (direct_upstream ns (n_id n))))%Q).
  { apply Qsum_ext. intros u Hu. apply E. unfold direct_upstream in Hu. apply filter_In in Hu. apply Hu. }
  repeat match goal with H : context [if Qlt_le_dec ?a ?b then _ else _] |- _ => destruct (Qlt_le_dec a b)
    | |- context [if Qlt_le_dec ?a ?b then _ else _] => destruct (Qlt_le_dec a b) end; split; lra.
Qed.

Lemma at_node_in : forall g out p, unique_ids (map fst out) -> In p out -> at_node g (n_id (fst p)) out = g p.
Proof.
  intros g out p U I. unfold at_node. induction out as [|a out IH]; [destruct I|]. cbn [find]. unfold unique_ids in U. cbn [map] in U. inversion U as [|x l N U']; subst.
  destruct I as [->|I]; [rewrite Z.eqb_refl; reflexivity|]. destruct (Z.eqb_spec (n_id (fst a)) (n_id (fst p))) as [E|E]; [|apply IH; auto].
  exfalso. apply N. rewrite E. apply in_map, in_map, I.
Qed.

Lemma at_node_run : forall fs out v s, unique_ids fs -> map fst out = fs -> (forall p, In p out -> out_vol p = v (n_id (fst p)) /\ out_spill p = s (n_id (fst p))) ->
  forall n, In n fs -> at_node out_vol (n_id n) out = v (n_id n) /\ at_node out_spill (n_id n) out = s (n_id n).
Proof.
  intros fs out v s U M V n Hn. rewrite <- M in U, Hn. apply in_map_iff in Hn. destruct Hn as (p & <- & Hp). rewrite !at_node_in by auto. apply V, Hp.
Qed.

Lemma in_turn_balance : forall ws fuel fs outs, unique_ids fs -> acyclic_closed fs -> (forall n w, In n fs -> In w ws -> 0 <= w (n_id n))%Q ->
  in_turn fuel fs ws = Ok outs -> balance (map (both_rains (all_rain ws)) fs) (fun i => in_all out_vol i outs) (fun i => in_all out_spill i outs).
Proof.
  induction ws as [|w ws IH]; intros fuel fs outs U AC W H; cbn [in_turn] in H.
  - destruct (process QOps fuel fs) as [out|x|] eqn:E; cbn [bind] in H; try discriminate H. injection H as <-.
    destruct (process_balance _ _ _ U AC E) as (M & v & s & B & V). apply (balance_same fs _ v s); auto.
    + clear. induction fs as [|n l IH]; cbn [map]; constructor; auto. split; [split; reflexivity|]. cbn. split; [ring|reflexivity].
    + intros n Hn. unfold in_all. cbn [map Qsum]. destruct (at_node_run fs out v s U M V n Hn) as (-> & ->). split; ring.
  - destruct (process QOps fuel fs) as [out|x|] eqn:E; cbn [bind] in H; try discriminate H.
    destruct (in_turn fuel (map (next_rain w) out) ws) as [rest|x|] eqn:R; cbn [bind] in H; try discriminate H. injection H as <-.
    destruct (process_balance _ _ _ U AC E) as (M & v & s & B & V).
    assert (F2 : Forall2 same_edges fs (map (next_rain w) out)) by (rewrite <- M at 1; apply next_edges).
    assert (U2 : unique_ids (map (next_rain w) out)) by (unfold unique_ids; rewrite <- (place_ids _ _ F2); exact U).
    pose proof (place_acyclic _ _ F2 AC) as AC2.
    assert (X : balance (map (both_rains (all_rain ws)) (map (next_rain w) out)) (fun i => in_all out_vol i rest) (fun i => in_all out_spill i rest)).
    { apply (IH fuel); auto. intros n' w' Hn' Hw. destruct (edges_in _ _ n' F2 Hn') as (n & Hn & En & _). rewrite <- En. apply W; [exact Hn|right; exact Hw]. }
    rewrite map_map in X. change (map (fun x => both_rains (all_rain ws) (next_rain w x)) out) with (map (next_rain (all_rain (w :: ws))) out) in X.
    assert (W' : forall n, In n fs -> (0 <= all_rain (w :: ws) (n_id n))%Q).
    { intros n Hn. apply Qsum_nonneg. intros q Hq. apply in_map_iff in Hq. destruct Hq as (w' & <- & Hw). apply W; auto. }
    pose proof (add_balance fs _ out v s _ _ U AC W' M (fun p Hp => proj1 (V p Hp)) B X) as Y.
    pose proof (both_edges (all_rain (w :: ws)) fs) as FB.
    revert Y. apply balance_same; [|apply (place_acyclic _ _ FB AC)|].
    + clear. generalize (map (both_rains (all_rain (w :: ws))) fs). intros l. induction l as [|n l IH]; constructor; auto. split; [split; reflexivity|split; reflexivity].
    + intros n' Hn'. apply in_map_iff in Hn'. destruct Hn' as (n & <- & Hn). cbn [n_id both_rains]. unfold in_all at 2 4. cbn [map Qsum].
      destruct (at_node_run fs out v s U M V n Hn) as (-> & ->). split; reflexivity.
Qed.

Theorem many_rains : forall (fs : list (@node Q)) ws fuel fuel' outs out, unique_ids fs -> acyclic_closed fs ->
  (forall n w, In n fs -> In w ws -> 0 <= w (n_id n))%Q ->
  in_turn fuel fs ws = Ok outs -> process QOps fuel' (map (both_rains (all_rain ws)) fs) = Ok out ->
  forall p, In p out -> (out_vol p == in_all out_vol (n_id (fst p)) outs /\ out_spill p == in_all out_spill (n_id (fst p)) outs)%Q.
Proof.
  intros fs ws fuel fuel' outs out U AC W H H' p Hp. pose proof (both_edges (all_rain ws) fs) as F.
  assert (UB : unique_ids (map (both_rains (all_rain ws)) fs)) by (unfold unique_ids; rewrite <- (place_ids _ _ F); exact U).
  pose proof (place_acyclic _ _ F AC) as ACB. destruct (process_balance _ _ _ UB ACB H') as (M & v & s & B & V).
  pose proof (in_turn_balance ws fuel fs outs U AC W H) as X. destruct (V p Hp) as (-> & ->).
  assert (Hn : In (fst p) (map (both_rains (all_rain ws)) fs)) by (rewrite <- M; apply in_map, Hp). destruct (ACB _ Hn) as (r & R).
  apply (balance_unique _ _ _ _ _ UB B X _ r R).
Qed.

Lemma times_surplus : forall k fs q, (1 <= k)%Q -> (forall n, In n fs -> 0 <= n_cap n)%Q -> (k * surplus fs q <= surplus (map (times_rain k) fs) q)%Q.
Proof.
  intros k fs q K. unfold surplus. induction fs as [|n fs IH]; intros C; [cbn; lra|]. cbn [map filter times_rain n_id].
  specialize (IH (fun m Hm => C m (or_intror Hm))). destruct (q (n_id n)); [|exact IH]. cbn [map Qsum n_water n_cap times_rain].
  pose proof (C n (or_introl eq_refl)) as N. assert (0 <= (k - 1) * n_cap n)%Q by (apply Qmult_le_0_compat; lra). lra.
Qed.

Theorem scaled_rain : forall (fs : list (@node Q)) k fuel fuel' out out', unique_ids fs -> acyclic_closed fs -> (1 <= k)%Q -> (forall n, In n fs -> 0 <= n_cap n)%Q ->
  process QOps fuel fs = Ok out -> process QOps fuel' (map (times_rain k) fs) = Ok out' ->
  forall p p', In p out -> In p' out' -> n_id (fst p') = n_id (fst p) -> (k * out_spill p <= out_spill p')%Q.
Proof.
  intros fs k fuel fuel' out out' U AC K C H H' p p' Hp Hp' E. pose proof (times_edges k fs) as F.
  assert (U' : unique_ids (map (times_rain k) fs)) by (unfold unique_ids; rewrite <- (place_ids _ _ F); exact U).
  destruct (spill_part fs fuel out U AC H p Hp) as (q & P & S).
  destruct (process_cut _ fuel' out' U' (place_acyclic _ _ F AC) H' p' Hp') as (_ & X & _).
  specialize (X q). rewrite E in X. specialize (X (part_edges _ _ _ _ (Forall2_sym_edges _ _ F) P)).
  pose proof (times_surplus k fs q K C). rewrite S. lra.
Qed.

(** ** Examples *)
Definition one_each (i : Z) : Q := 1%Q.
Definition runs (l : list (@node Q)) : list (Z * Q * Q) :=
  match process QOps 4 l with Ok out => map (fun p => (n_id (fst p), Qred (out_vol p), Qred (out_spill p))) out | _ => [] end.
Definition after (l : list (@node Q)) : list (@node Q) :=
  match process QOps 4 l with Ok out => map (next_rain one_each) out | _ => [] end.

Definition half_net : list (@node Q) := map (times_rain (1 # 2)) ex_net.
Theorem volume_more : exists (fs : list (@node Q)) out out' p p', unique_ids fs /\ acyclic_closed fs /\ (forall n, In n fs -> 0 <= n_water n /\ 0 <= n_cap n)%Q /\
  process QOps 4 fs = Ok out /\ process QOps 4 (map (times_rain 2) fs) = Ok out' /\ In p out /\ In p' out' /\ n_id (fst p') = n_id (fst p) /\ (2 * out_vol p < out_vol p')%Q.
Proof.
  exists half_net. do 2 eexists. do 2 eexists. split; [apply ids_ok_ok; vm_compute; reflexivity|]. split; [apply acyclic_ok; vm_compute; reflexivity|].
  split; [intros n H; cbn in H; repeat destruct H as [<-|H]; try contradiction; cbn; split; discriminate|].
  split; [vm_compute; reflexivity|]. split; [vm_compute; reflexivity|].
  split; [right; right; left; reflexivity|]. split; [right; right; left; reflexivity|]. split; [reflexivity|vm_compute; reflexivity].
Qed.
