(** * When binary64 sums and products do not overflow *)

From Coq Require Import QArith Qabs Qreals Reals Lra Lia.
From Flocq Require Import Core IEEE754.BinarySingleNaN.
From Verif Require Import Base BaseProofs Num Float64 Float64Proofs Float64Arith Float64Scale FillProofs FillSpec
  NetworkModel NetworkSpec NetworkProofs NetworkThms NetworkFloatSpec NetworkFloatThms PipelineModel FloatQ RoundSpec RoundProofs RoundThms RoundNetProofs RoundNetThms.
Local Open Scope R_scope.

(** ** Rounding keeps small multiples of a power of two *)
Lemma multiple_format : forall k e, (0 <= k <= 2 ^ 53)%Z -> (-1074 <= e)%Z ->
  generic_format radix2 (SpecFloat.fexp 53 1024) (IZR k * bpow radix2 e).
Proof.
  intros k e K E. destruct (Z.eq_dec k (2 ^ 53)) as [-> |N].
  - change (2 ^ 53)%Z with (radix2 ^ 53)%Z. rewrite IZR_Zpower by lia. rewrite <- bpow_plus. apply generic_format_bpow.
    unfold SpecFloat.fexp, SpecFloat.emin. lia.
  - change (IZR k * bpow radix2 e) with (F2R (Float radix2 k e)). apply generic_format_F2R. cbn [Fnum Fexp]. intros Hz.
    unfold cexp, SpecFloat.fexp, SpecFloat.emin.
    assert (M : (mag radix2 (F2R (Float radix2 k e)) <= 53 + e)%Z); [|lia].
    rewrite mag_F2R by exact Hz. assert (mag radix2 (IZR k) <= 53)%Z; [|lia].
    apply mag_le_bpow; [apply IZR_neq; auto|]. rewrite <- (IZR_Zpower radix2) by lia. rewrite <- abs_IZR. apply IZR_lt.
    change (radix2 ^ 53)%Z with (2 ^ 53)%Z. lia.
Qed.

Lemma rnd_multiple : forall x k e, (0 <= k <= 2 ^ 53)%Z -> (-1074 <= e)%Z -> x <= IZR k * bpow radix2 e -> rnd64 x <= IZR k * bpow radix2 e.
Proof.
  intros x k e K E H. apply Rle_trans with (rnd64 (IZR k * bpow radix2 e)); [apply rnd64_le; exact H|].
  rewrite round_generic; [apply Rle_refl|auto with typeclass_instances|]. apply multiple_format; auto.
Qed.

Lemma rnd_pos : forall x, 0 <= x -> 0 <= rnd64 x.
Proof. intros x H. rewrite <- rnd64_0. apply rnd64_le. exact H. Qed.

Lemma multiple_small : forall k e, (0 <= k <= 2 ^ 53)%Z -> (e <= 970)%Z -> IZR k * bpow radix2 e < bpow radix2 1024.
Proof.
  intros k e K E. apply Rle_lt_trans with (bpow radix2 53 * bpow radix2 970); [|rewrite <- bpow_plus; apply bpow_lt; lia].
  apply Rmult_le_compat; [apply IZR_le; lia|apply bpow_ge_0| |apply bpow_le; lia].
  rewrite <- (IZR_Zpower radix2) by lia. apply IZR_le. apply K.
Qed.

Lemma add_small : forall (x y : b64) a b e, is_finite x = true -> is_finite y = true ->
  0 <= B2R x <= IZR a * bpow radix2 e -> 0 <= B2R y <= IZR b * bpow radix2 e ->
  (0 <= a + b <= 2 ^ 53)%Z -> (-1074 <= e <= 970)%Z ->
  is_finite (f64_add x y) = true /\ 0 <= B2R (f64_add x y) <= IZR (a + b) * bpow radix2 e.
Proof.
  intros x y a b e Fx Fy X Y K E. pose proof (Bplus_correct 53 1024 _ _ mode_NE x y Fx Fy) as M. fold (f64_add x y) in M.
  assert (P : 0 <= rnd64 (B2R x + B2R y)) by (apply rnd_pos; lra).
  assert (U : rnd64 (B2R x + B2R y) <= IZR (a + b) * bpow radix2 e).
  { apply rnd_multiple; [exact K|lia|]. rewrite plus_IZR. lra. }
  rewrite Rlt_bool_true in M.
  - destruct M as (M1 & M2 & _). split; [exact M2|]. rewrite M1. split; assumption.
  - change (Rabs (rnd64 (B2R x + B2R y)) < bpow radix2 1024). rewrite Rabs_pos_eq by exact P.
    eapply Rle_lt_trans; [exact U|]. apply multiple_small; lia.
Qed.

Lemma mul_small : forall (x y : b64) a b, is_finite x = true -> is_finite y = true ->
  0 <= B2R x <= bpow radix2 a -> 0 <= B2R y <= bpow radix2 b -> (-1000 <= a + b <= 1000)%Z ->
  is_finite (f64_mul x y) = true /\ 0 <= B2R (f64_mul x y) <= bpow radix2 (a + b).
Proof.
  intros x y a b Fx Fy X Y E. pose proof (Bmult_correct 53 1024 _ _ mode_NE x y) as M. fold (f64_mul x y) in M.
  assert (P : 0 <= rnd64 (B2R x * B2R y)) by (apply rnd_pos; apply Rmult_le_pos; lra).
  assert (U : rnd64 (B2R x * B2R y) <= bpow radix2 (a + b)).
  { rewrite <- (Rmult_1_l (bpow radix2 (a + b))). apply rnd_multiple; [lia|lia|]. rewrite Rmult_1_l, bpow_plus. apply Rmult_le_compat; lra. }
  rewrite Rlt_bool_true in M.
  - destruct M as (M1 & M2 & _). rewrite M2, Fx, Fy, M1. split; [reflexivity|]. split; assumption.
  - change (Rabs (rnd64 (B2R x * B2R y)) < bpow radix2 1024). rewrite Rabs_pos_eq by exact P.
    eapply Rle_lt_trans; [exact U|]. apply bpow_lt. lia.
Qed.

Lemma sub_small : forall (x y : b64), is_finite x = true -> is_finite y = true -> 0 <= B2R x -> 0 <= B2R y ->
  is_finite (f64_sub x y) = true /\ B2R (f64_sub x y) <= B2R x.
Proof.
  intros x y Fx Fy X Y. pose proof (Bminus_correct 53 1024 _ _ mode_NE x y Fx Fy) as M. fold (f64_sub x y) in M.
  assert (U : rnd64 (B2R x - B2R y) <= B2R x) by (rewrite <- (rnd64_B2R x) at 2; apply rnd64_le; lra).
  assert (L : - B2R y <= rnd64 (B2R x - B2R y)).
  { rewrite <- B2R_Bopp. rewrite <- rnd64_B2R. apply rnd64_le. rewrite B2R_Bopp. lra. }
  rewrite Rlt_bool_true in M.
  - destruct M as (M1 & M2 & _). split; [exact M2|]. rewrite M1. exact U.
  - change (Rabs (rnd64 (B2R x - B2R y)) < bpow radix2 1024).
    pose proof (abs_B2R_lt_emax 53 1024 x) as Bx. pose proof (abs_B2R_lt_emax 53 1024 y) as By. rewrite Rabs_pos_eq in Bx, By by assumption.
    apply Rabs_def1; lra.
Qed.

(** ** Sums *)
Fixpoint Zsum (l : list Z) : Z := match l with [] => 0%Z | x :: l => (x + Zsum l)%Z end.

Lemma fold_small : forall (l : list (b64 * Z)) e (a : b64) k, (-1074 <= e <= 970)%Z ->
  (forall p, In p l -> is_finite (fst p) = true /\ 0 <= B2R (fst p) <= IZR (snd p) * bpow radix2 e /\ (0 <= snd p)%Z) ->
  is_finite a = true -> 0 <= B2R a <= IZR k * bpow radix2 e -> (0 <= k)%Z -> (k + Zsum (map snd l) <= 2 ^ 53)%Z ->
  is_finite (fold_left f64_add (map fst l) a) = true /\ 0 <= B2R (fold_left f64_add (map fst l) a) <= IZR (k + Zsum (map snd l)) * bpow radix2 e.
Proof.
  induction l as [|[x m] l IH]; intros e a k E H F A K S0; cbn [map fold_left Zsum fst snd] in *.
  - rewrite Z.add_0_r. auto.
  - destruct (H (x, m) (or_introl eq_refl)) as (Fx & X & M). cbn [fst snd] in *.
    assert (Sp : (0 <= Zsum (map snd l))%Z).
    { assert (G : forall p, In p l -> (0 <= snd p)%Z) by (intros p Hp; apply (H p); right; exact Hp). clear - G.
      induction l as [|p l IH]; cbn [map Zsum]; [lia|]. pose proof (G p (or_introl eq_refl)). assert (0 <= Zsum (map snd l))%Z by (apply IH; intros; apply G; right; auto). lia. }
    destruct (add_small a x k m e F Fx A X ltac:(lia) E) as [F' A']. rewrite Z.add_assoc. apply IH; auto; try lia.
    intros p Hp. apply H. right. exact Hp.
Qed.

(** ** How many of the nodes upstream hold water *)
Lemma Zsum_nonneg : forall l, (forall x, In x l -> 0 <= x)%Z -> (0 <= Zsum l)%Z.
Proof.
  induction l as [|x l IH]; intros H; cbn [Zsum]; [lia|]. pose proof (H x (or_introl eq_refl)).
  assert (0 <= Zsum l)%Z by (apply IH; intros; apply H; right; auto). lia.
Qed.

Lemma Qsum_Zsum : forall l, (Qsum (map inject_Z l) == inject_Z (Zsum l))%Q.
Proof. induction l as [|x l IH]; cbn [map Qsum Zsum]; [reflexivity|]. rewrite IH, inject_Z_plus. reflexivity. Qed.

Lemma Zsum_app : forall a b, Zsum (a ++ b) = (Zsum a + Zsum b)%Z.
Proof. induction a as [|x a IH]; intros b; cbn [app Zsum]; [lia|]. rewrite IH. lia. Qed.

Lemma Zsum_incl : forall {A} (f : A -> Z) l m, (forall x, 0 <= f x)%Z -> NoDup l -> incl l m -> (Zsum (map f l) <= Zsum (map f m))%Z.
Proof.
  intros A f l. induction l as [|x l IH]; intros m P N I; cbn [map Zsum].
  - apply Zsum_nonneg. intros y Hy. apply in_map_iff in Hy. destruct Hy as (z & <- & _). apply P.
  - inversion N; subst. destruct (in_split x m) as (m1 & m2 & ->); [apply I; left; auto|].
    rewrite map_app, Zsum_app. cbn [map Zsum]. assert (X : (Zsum (map f l) <= Zsum (map f (m1 ++ m2)))%Z).
    { apply IH; auto. intros y Hy. assert (Y : In y (m1 ++ x :: m2)) by (apply I; right; auto).
      apply in_app_iff in Y. apply in_app_iff. destruct Y as [Y|[<-|Y]]; auto. contradiction. }
    rewrite map_app, Zsum_app in X. lia.
Qed.

Lemma pysum_Z : forall l, pysum ZOps l = Zsum l.
Proof.
  intros l. unfold pysum. cbn [nadd nofZ ZOps]. assert (G : forall l a, fold_left Z.add l a = (a + Zsum l)%Z); [|rewrite G; lia].
  clear. induction l as [|x l IH]; intros a; cbn [fold_left Zsum]; [lia|]. rewrite IH. lia.
Qed.

Section Counts.
Variable fs : list (@node b64).
Hypothesis UI : unique_ids fs.
Hypothesis AC : acyclic_closed fs.
Variable weight : @node b64 -> Z.
Hypothesis Wp : forall n, (0 <= weight n)%Z.

Lemma counts : exists cnt : Z -> Z, forall n, In n fs ->
  cnt (n_id n) = (weight n + Zsum (map (fun u => cnt (n_id u)) (direct_upstream fs (n_id n))))%Z /\
  (0 <= cnt (n_id n) <= Zsum (map weight fs))%Z.
Proof.
  set (zs := map (fun n => mkNode (n_id n) (n_dstr n) (weight n) 0%Z) fs).
  assert (SP : Forall2 same_place fs zs).
  { unfold zs. clear. induction fs as [|n l IH]; cbn [map]; constructor; auto. split; reflexivity. }
  assert (UI' : unique_ids zs) by (unfold unique_ids in *; rewrite <- (same_ids _ _ SP); exact UI).
  assert (AC' : acyclic_closed zs).
  { intros m Hm. unfold zs in Hm. apply in_map_iff in Hm. destruct Hm as (n & <- & Hn). destruct (AC n Hn) as (r & R). exists r.
    cbn [n_id]. eapply same_root; eauto. }
  destruct (process_total ZOps zs (length zs) (Nat.le_refl _)) as (out & H).
  destruct (out_events ZOps zs _ out UI' AC' H) as (M & Ev & l & Ol & Al).
  set (cnt := fun k => match find (fun p => (n_id (fst p) =? k)%Z) out with Some (_, Some e) => e_spill e | _ => 0%Z end).
  assert (NDo : NoDup (map (fun p => n_id (fst p)) out)) by (rewrite <- (map_map fst n_id), M; exact UI').
  assert (Look : forall m e, In (m, Some e) out -> cnt (n_id m) = e_spill e).
  { intros m e Hm. unfold cnt. destruct (find (fun p => (n_id (fst p) =? n_id m)%Z) out) as [[m' o']|] eqn:F.
    - apply find_some in F. destruct F as [F1 F2]. apply Z.eqb_eq in F2.
      assert (X : (m', o') = (m, Some e)) by (apply (NoDup_map_inj _ _ _ _ NDo F1 Hm); exact F2). injection X as -> ->. reflexivity.
    - pose proof (find_none _ _ F _ Hm) as X. cbn in X. rewrite Z.eqb_refl in X. discriminate. }
  assert (Nonneg : forall m e, In (m, Some e) out -> (0 <= e_spill e)%Z).
  { intros m e Hm. destruct (Ev m _ Hm) as (e' & ue & Ee & _ & Es). injection Ee as <-. rewrite Es. unfold settle, pymax. cbn [e_spill nltb nofZ ZOps].
    destruct (Z.ltb_spec 0 (nsub ZOps (nadd ZOps (n_water m) (pysum ZOps (map e_spill ue))) (n_cap m))); lia. }
  assert (Rec : forall n, In n fs -> cnt (n_id n) = (weight n + Zsum (map (fun u => cnt (n_id u)) (direct_upstream fs (n_id n))))%Z /\ (0 <= cnt (n_id n))%Z).
  { intros n Hn. set (z := mkNode (n_id n) (n_dstr n) (weight n) 0%Z).
    assert (Hz : In z (map fst out)) by (rewrite M; unfold zs; apply in_map_iff; exists n; auto).
    apply in_map_iff in Hz. destruct Hz as ((z' & o) & Ez & Hz). cbn [fst] in Ez. subst z'.
    destruct (Ev z o Hz) as (e & ue & -> & F & Es). pose proof (Look z e Hz) as L. pose proof (Nonneg z e Hz) as P.
    change (n_id z) with (n_id n) in *. split; [|lia]. rewrite L, Es. unfold settle. cbn [e_spill]. rewrite pysum_Z.
    assert (Su : Zsum (map e_spill ue) = Zsum (map (fun u => cnt (n_id u)) (direct_upstream fs (n_id n)))).
    { pose proof (same_direct fs zs (n_id n) SP) as SD. clear - F SD Look. revert ue F.
      induction SD as [|u u' us us' [E _] SD IH]; intros ue F; inversion F; subst; cbn [map Zsum]; [reflexivity|].
      rewrite (IH _ H3). rewrite E, (Look _ _ H1). reflexivity. }
    rewrite Su. unfold pymax. cbn [nltb nsub nadd nofZ ZOps]. change (n_water z) with (weight n). change (n_cap z) with 0%Z.
    assert (0 <= Zsum (map (fun u => cnt (n_id u)) (direct_upstream fs (n_id n))))%Z.
    { rewrite <- Su. apply Zsum_nonneg. intros x Hx. apply in_map_iff in Hx. destruct Hx as (a & <- & Ha).
      clear - F Ha Nonneg. induction F as [|? ? ? ? Q F IH]; [destruct Ha|]. destruct Ha as [<-|Ha]; [eapply Nonneg; exact Q|auto]. }
    pose proof (Wp n). destruct (Z.ltb_spec 0 (weight n + Zsum (map (fun u => cnt (n_id u)) (direct_upstream fs (n_id n))) - 0)); lia. }
  exists cnt. intros n Hn. destruct (Rec n Hn) as [R1 R2]. split; [exact R1|]. split; [exact R2|].
  assert (All : forall x, In x fs <-> exists n, In n fs /\ n_id n = n_id x /\ In x fs).
  { intros x. split; [intros Hx; exists x; auto|intros (_ & _ & _ & Hx); exact Hx]. }
  destruct (process_total F64Ops fs (length fs) (Nat.le_refl _)) as (outf & Hf).
  destruct (out_events F64Ops fs _ outf UI AC Hf) as (_ & _ & lf & Olf & Alf).
  destruct (graph_bound fs UI AC _ n_id fs (fun n => inject_Z (weight n)) (fun k => inject_Z (cnt k)) UI All) with (l := lf) (x := n)
    as (us & U1 & U2 & U3); auto.
  - intros m Hm. exists m. auto.
  - intros m Hm. destruct (Rec m Hm) as [E _]. rewrite E at 1. rewrite inject_Z_plus, <- Qsum_Zsum, map_map. apply Qle_refl.
  - rewrite <- (map_map weight inject_Z), Qsum_Zsum in U3. rewrite <- Zle_Qle in U3. eapply Z.le_trans; [exact U3|].
    apply Zsum_incl; auto. intros y Hy. apply U2 in Hy. apply Hy.
Qed.
End Counts.

(** ** Spills do not overflow *)
Lemma b64_Q_bpow : forall x e, (0 <= e)%Z -> (b64_Q x <= inject_Z (2 ^ e))%Q -> B2R x <= bpow radix2 e.
Proof.
  intros x e E H. apply Qle_Rle in H. rewrite b64_Q_R, Q2R_ofZ in H. rewrite <- (IZR_Zpower radix2) by exact E. exact H.
Qed.

Lemma nonneg64_R : forall x, nonneg64 x -> is_finite x = true /\ 0 <= B2R x.
Proof.
  intros x [F P]. split; [exact F|]. apply pos64_R; [exact F|]. apply le64_rank in P; [exact P|reflexivity|]. destruct x; try discriminate F; reflexivity.
Qed.

Definition holds (n : @node b64) : Z := if Qeq_bool (b64_Q (n_water n)) 0 then 0%Z else 1%Z.

Theorem spills_finite : forall (fs : list (@node b64)) fuel out, unique_ids fs -> acyclic_closed fs ->
  (forall n, In n fs -> nonneg64 (n_water n) /\ nonneg64 (n_cap n) /\ (b64_Q (n_water n) <= inject_Z (2 ^ 970))%Q) ->
  (Zsum (map holds fs) <= 2 ^ 53)%Z ->
  process F64Ops fuel fs = Ok out -> forall n e, In (n, Some e) out -> finite64 (e_spill e).
Proof.
  intros fs fuel out UI AC W C H. destruct (counts fs UI AC holds) as (cnt & Cn).
  { intros n. unfold holds. destruct (Qeq_bool _ _); lia. }
  destruct (out_events F64Ops fs fuel out UI AC H) as (M & Ev & l & Ol & Al).
  assert (G : forall k, In k l -> forall n e, In (n, Some e) out -> n_id n = k ->
    is_finite (e_spill e) = true /\ 0 <= B2R (e_spill e) <= IZR (cnt k) * bpow radix2 970).
  { clear Al. induction Ol as [|l k Ol IH Up]; intros k' Hk n e Hn En; [destruct Hk|].
    apply in_app_iff in Hk. destruct Hk as [Hk|[<-|[]]]; [eapply IH; eauto|]. subst k.
    assert (Hf : In n fs) by (rewrite <- M; apply in_map_iff; exists (n, Some e); auto).
    destruct (Ev n _ Hn) as (e' & ue & Ee & F & Es). injection Ee as <-. destruct (W n Hf) as (Pw & Pc & Ub).
    destruct (nonneg64_R _ Pw) as [Fw Rw], (nonneg64_R _ Pc) as [Fc Rc]. destruct (Cn n Hf) as [C1 C2].
    assert (Hw : B2R (n_water n) <= IZR (holds n) * bpow radix2 970).
    { unfold holds. destruct (Qeq_bool (b64_Q (n_water n)) 0) eqn:Z0.
      - apply Qeq_bool_iff, Qeq_eqR in Z0. rewrite b64_Q_R in Z0. rewrite Z0, Rmult_0_l. unfold Q2R. cbn. lra.
      - rewrite Rmult_1_l. apply b64_Q_bpow; [lia|exact Ub]. }
    assert (Hh : (0 <= holds n)%Z) by (unfold holds; destruct (Qeq_bool _ _); lia).
    (* the spills from upstream, each with its bound *)
    assert (X : exists ps : list (b64 * Z), map fst ps = map e_spill ue /\
        map snd ps = map (fun u => cnt (n_id u)) (direct_upstream fs (n_id n)) /\
        forall p, In p ps -> is_finite (fst p) = true /\ 0 <= B2R (fst p) <= IZR (snd p) * bpow radix2 970 /\ (0 <= snd p)%Z).
    { assert (Su : forall u, In u (direct_upstream fs (n_id n)) -> In (n_id u) l /\ In u fs).
      { intros u Hu. split; [apply Up; exact Hu|]. apply (in_direct fs) in Hu. apply Hu. }
      clear - F Su IH Cn. induction F as [|u e' us es Q F IH2].
      - exists []. split; [reflexivity|]. split; [reflexivity|]. intros p [].
      - destruct IH2 as (ps & P1 & P2 & P3); [intros v Hv; apply Su; right; exact Hv|].
        exists ((e_spill e', cnt (n_id u)) :: ps). cbn [map fst snd]. rewrite P1, P2. split; [reflexivity|]. split; [reflexivity|].
        intros p [<-|Hp]; [|auto]. cbn [fst snd]. destruct (Su u (or_introl eq_refl)) as [S1 S2].
        destruct (IH _ S1 u e' Q eq_refl) as [I1 I2]. split; [exact I1|]. split; [exact I2|]. apply (Cn u S2). }
    destruct X as (ps & P1 & P2 & P3).
    destruct (fold_small ps 970 (f64_ofZ 0) 0 ltac:(lia) P3) as [Fs Rs].
    { rewrite f64_ofZ0. reflexivity. }
    { rewrite f64_ofZ0. change (B2R f64_zero) with 0. lra. }
    { lia. }
    { rewrite P2. lia. }
    rewrite P1, P2, Z.add_0_l in *.
    destruct (add_small (n_water n) (pysum F64Ops (map e_spill ue)) (holds n)
      (Zsum (map (fun u => cnt (n_id u)) (direct_upstream fs (n_id n)))) 970 Fw Fs (conj Rw Hw) Rs ltac:(lia) ltac:(lia)) as [Ft Rt].
    rewrite <- C1 in Rt. destruct (sub_small _ _ Ft Fc (proj1 Rt) Rc) as [Fd Rd].
    rewrite Es. unfold settle. cbn [e_spill nadd nsub nofZ F64Ops]. unfold pymax. cbn [nltb F64Ops]. rewrite f64_ofZ0.
    set (d := f64_sub (f64_add (n_water n) (pysum F64Ops (map e_spill ue))) (n_cap n)) in *.
    rewrite Bltb_correct by (auto; reflexivity). change (B2R f64_zero) with 0. destruct (Rlt_bool_spec 0 (B2R d)) as [L|L].
    - split; [exact Fd|]. lra.
    - split; [reflexivity|]. change (B2R f64_zero) with 0. lra. }
  intros n e Hn. assert (Hf : In n fs) by (rewrite <- M; apply in_map_iff; exists (n, Some e); auto).
  apply (G (n_id n) (Al n Hf) n e Hn eq_refl).
Qed.
