(** * C104 with binary64 numbers *)

From Coq Require Import Permutation QArith Qabs Qreals Reals Lqa Lra.
From Flocq Require Import Core IEEE754.BinarySingleNaN.
From Verif Require Import Base BaseProofs Num Float64 Float64Proofs Float64Arith Dict FillModel FillProofs
  FillSpec NetworkModel NetworkSpec NetworkFloatSpec NetworkProofs NetworkThms NetworkFloatThms.
Local Open Scope Z_scope.

Definition worse64 (a b : @node b64) : Prop :=
  n_id a = n_id b /\ n_dstr a = n_dstr b /\ le64 (n_water a) (n_water b) /\ le64 (n_cap b) (n_cap a).

Lemma sub_anti : forall t c c' : b64, not_nan t -> 0 <= rank t -> is_finite c = true -> is_finite c' = true -> rank c' <= rank c ->
  rank (f64_sub t c) <= rank (f64_sub t c').
Proof.
  intros t c c' N P F F' L. rewrite !sub_add_opp.
  destruct (not_nan_cases t N) as [Ft|[E|E]].
  - rewrite !(add_comm64 t). apply add_mono; auto using opp_not_nan, finite_not_nan. rewrite !rank_opp. lia.
  - subst t. rewrite !add_inf_l by auto using opp_finite. lia.
  - subst t. rewrite rank_ninf in P. pose proof RINF_pos. lia.
Qed.

Lemma settle_worse : forall (n n' : @node b64) u u', finite64 (n_cap n) -> finite64 (n_cap n') -> rank (n_cap n') <= rank (n_cap n) ->
  up64 (n_water n) (n_water n') -> up64 u u' ->
  up64 (e_spill (settle F64Ops n u)) (e_spill (settle F64Ops n' u')).
Proof.
  intros n n' u u' Fc Fc' L W U. pose proof (add_up _ _ _ _ W U) as (T1 & T2 & T3).
  unfold settle. cbn [e_spill]. unfold pymax. cbn [nltb nadd nsub nofZ F64Ops]. rewrite f64_ofZ0. clear W U.
  set (t := f64_add (n_water n) u) in *. set (t' := f64_add (n_water n') u') in *.
  set (c := n_cap n) in *. set (c' := n_cap n') in *. clearbody t t' c c'.
  assert (Z0 : rank f64_zero = 0) by reflexivity. assert (NZ : not_nan f64_zero) by reflexivity.
  pose proof (sub_not_nan t c T1 Fc) as N1. pose proof (sub_not_nan t' c' T2 Fc') as N2.
  pose proof (sub_mono t t' c T1 T2 Fc (proj2 T3)) as M.
  pose proof (sub_anti t' c c' T2 ltac:(lia) Fc Fc' L) as M'.
  rewrite !Bltb_rank, Z0 by auto.
  destruct (Z.ltb_spec 0 (rank (f64_sub t c))), (Z.ltb_spec 0 (rank (f64_sub t' c'))); split; auto; split; auto; lia.
Qed.

Theorem worse_spill64 : forall (ns ns' : list (@node b64)) fuel fuel' evs evs',
  unique_ids ns -> Forall2 worse64 ns ns' ->
  (forall n, In n ns \/ In n ns' -> nonneg64 (n_water n) /\ nonneg64 (n_cap n)) ->
  rain_event F64Ops fuel (add_nodes empty_network ns) = Ok evs ->
  rain_event F64Ops fuel' (add_nodes empty_network ns') = Ok evs' ->
  forall e e', In e evs -> In e' evs' -> e_id e = e_id e' -> le64 (e_spill e) (e_spill e').
Proof.
  intros ns ns' fuel fuel' evs evs' UI F POS H H' e0 e0' He0 He0' Ee0.
  assert (UI' : unique_ids ns').
  { unfold unique_ids in *. replace (map n_id ns') with (map n_id ns); auto.
    clear - F. induction F as [|a b l l' [A _] F IH]; cbn; f_equal; auto. }
  destruct (rain_event_inv F64Ops ns UI fuel evs H) as (rv & E & G & K).
  destruct (rain_event_inv F64Ops ns' UI' fuel' evs' H') as (rv' & E' & G' & K').
  assert (M : forall k e e', In (k, e) rv -> In (k, e') rv' -> up64 (e_spill e) (e_spill e')).
  { clear - UI UI' F POS G G'. induction G as [|rv k e G IH Nk (n & ue & Hn & En & Fu & Es)]; [intros ? ? ? []|].
    intros k0 f f' Hi Hf'. apply in_app_iff in Hi. destruct Hi as [Hi|[Hi|[]]]; [eapply IH; eauto|].
    injection Hi as <- <-.
    destruct (good_entry _ _ _ G' _ _ Hf') as (n' & ue' & Hn' & En' & Fu' & Es').
    destruct (forall2_paired _ _ _ n F Hn) as (m & Hm & W).
    assert (m = n') by (eapply NoDup_map_inj; [exact UI'|auto|auto|]; destruct W; congruence). subst m.
    destruct W as (W1 & W2 & W3 & W4). destruct (POS n (or_introl Hn)) as [[P1 P2] [P3 P4]].
    destruct (POS n' (or_intror Hn')) as [[P5 P6] [P7 P8]].
    rewrite le64_rank in P2, P4, P6, P8, W3, W4 by (auto using finite_not_nan; reflexivity).
    change (rank f64_zero) with 0 in *.
    subst e f'. apply settle_worse; auto.
    - split; [|split]; auto using finite_not_nan.
    - apply pysum_up.
      pose proof (direct64 worse64 ns ns' k (fun a b X => conj (proj1 X) (proj1 (proj2 X))) F) as D.
      clear - IH Fu Fu' D. revert ue' Fu' D. generalize (direct_upstream ns' k).
      induction Fu as [|u x us es Hx Fu IHu]; intros us' ue' Fu' D.
      + destruct us'; [|discriminate D]. inversion Fu'; subst. constructor.
      + destruct us' as [|u' us']; [discriminate D|]. inversion Fu' as [|? x' ? es' Hx' Fu'']; subst.
        cbn in D. injection D as D1 D2. cbn [map]. constructor.
        * rewrite D1 in Hx. exact (IH _ _ _ Hx Hx').
        * eapply IHu; eauto. }
  subst evs evs'. apply in_map_iff in He0, He0'. destruct He0 as ((k & e1) & X & Hi), He0' as ((k' & e1') & X' & Hi').
  cbn in X, X'. subst e1 e1'. rewrite (good_id _ _ _ G _ _ Hi), (good_id _ _ _ G' _ _ Hi') in Ee0. subst k'.
  destruct (M _ _ _ Hi Hi') as (B1 & B2 & B3). apply le64_rank; auto; lia.
Qed.

(** The network [tenths] with more rain on node 2 and half the capacity of node 3. *)
Definition fortieth : b64 := f64_div (f64_ofZ 25) (f64_ofZ 1000).
Definition tenths_worse : list (@node b64) :=
  [mkNode 1 None (tenth 1) (tenth 0); mkNode 2 (Some 1) (tenth 4) twentieth; mkNode 3 (Some 1) (tenth 2) fortieth].

Lemma worse_ok : forall n, In n tenths \/ In n tenths_worse -> nonneg64 (n_water n) /\ nonneg64 (n_cap n).
Proof.
  intros n Hn. apply in_or_app in Hn. revert n Hn. apply Forall_forall. unfold tenths, tenths_worse. cbn [app].
  repeat (apply Forall_cons; [cbn [n_water n_cap]; split; (split; [vm_compute; reflexivity|vm_compute; reflexivity])|]). apply Forall_nil.
Qed.
