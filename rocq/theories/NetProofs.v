(** * Proofs about net.py *)

From Coq Require Import Permutation.
From Verif Require Import Base BaseProofs Dict DictProofs FlowModel FlowSpec FlowProofs FlowDirProofs
  AccumProofs LabelModel LabelSpec LabelProofs BluespotSpec NetModel NetSpec UntangleProofs UntangleFacts.

(** ** C30 *)
Section Walk.
Variables f lab : raster Z.
Hypothesis Sh : same_shape f lab.
Notation ins := (inside (nrows f) (ncols f)).

Lemma lab_rd : forall c, ins c -> rd lab (fst c) (snd c) = Ok (at_ lab c).
Proof. intros c I. apply rd_at. destruct Sh as [E1 E2]. rewrite <- E1, <- E2. auto. Qed.

Definition foreignb (src : Z) (bg : option Z) (lbl : Z) : bool :=
  negb (lbl =? src) && match bg with None => true | Some b => negb (lbl =? b) end.

Lemma foreignb_spec : forall src bg c, reflect (foreign_cell lab src bg c) (foreignb src bg (at_ lab c)).
Proof.
  intros src bg c. unfold foreignb, foreign_cell. destruct (Z.eqb_spec (at_ lab c) src) as [E|E]; cbn [negb andb].
  - constructor. tauto.
  - destruct bg as [b|]; [destruct (Z.eqb_spec (at_ lab c) b)|]; cbn [negb]; constructor; intuition congruence.
Qed.

Lemma label_loop_trace : forall src bg fuel c tr, trace_downstream fuel f c = Ok tr ->
  exists l path, first_foreign lab src bg tr l path /\
  forall (g : bool) geom, label_loop fuel f lab src bg g c geom = Ok (l, if g then geom ++ path else geom).
Proof.
  intros src bg. induction fuel as [|fuel IH]; intros c tr H; cbn [trace_downstream label_loop] in *;
    destruct (cell_in_raster_spec (nrows f) (ncols f) c) as [I|I]; try discriminate H.
  1,3: inversion H; subst; exists None, []; split; [left; split; [reflexivity|]; split; [reflexivity|]; intros ? [] |
       intros [|] geom; rewrite ?app_nil_r; reflexivity].
  apply bind_ok in H. destruct H as (dir & E1 & H). apply bind_ok in H. destruct H as (delta & E2 & H).
  rewrite lab_rd by auto. cbn [bind]. fold (foreignb src bg (at_ lab c)).
  assert (Hd : exists t, tr = c :: t).
  { destruct delta as [[dr dc]|]; [apply bind_ok in H; destruct H as (rest & _ & H)|]; inversion H; eauto. }
  destruct (foreignb_spec src bg c) as [Fc|Fc].
  - destruct Hd as (t & ->). exists (Some (at_ lab c)), [c]. split.
    + right. exists [], c, t. split; [reflexivity|]. split; [reflexivity|]. split; [reflexivity|]. split; [exact Fc | intros x []].
    + intros [|] geom; reflexivity.
  - rewrite E1. cbn [bind]. rewrite E2. cbn [bind]. destruct delta as [[dr dc]|].
    + apply bind_ok in H. destruct H as (rest & E3 & H). inversion H; subst tr; clear H.
      destruct (IH _ _ E3) as (l & path & FF & L). exists l, (c :: path). split.
      * destruct FF as [(-> & -> & N)|(b & d & aft & -> & -> & El & Fd & N)].
        -- left. split; [reflexivity|]. split; [reflexivity|]. intros d [<-|Hd']; auto.
        -- right. exists (c :: b), d, aft. split; [reflexivity|]. split; [reflexivity|]. split; [exact El|]. split; [exact Fd|]. intros x [<-|Hx]; auto.
      * intros g geom. rewrite L. destruct g; rewrite <- ?app_assoc; reflexivity.
    + inversion H; subst tr. exists None, [c]. split.
      * left. split; [reflexivity|]. split; [reflexivity|]. intros d [<-|[]]; auto.
      * intros [|] geom; reflexivity.
Qed.

Theorem next_label : forall fuel c bg (g : bool) tr, ins c -> trace_downstream fuel f c = Ok tr ->
  exists l path, next_downstream_label fuel f lab c bg g = Ok (l, if g then path else []) /\
    first_foreign lab (at_ lab c) bg tr l path.
Proof.
  intros fuel c bg g tr I H. unfold next_downstream_label. rewrite lab_rd by auto. cbn [bind].
  destruct (label_loop_trace (at_ lab c) bg fuel c tr H) as (l & path & FF & L). exists l, path.
  split; auto. rewrite L. destruct g; reflexivity.
Qed.

(** ** The walk as a relation *)
Inductive walk (src : Z) : cell -> option Z -> list cell -> Prop :=
| wk_here : forall c, ins c -> foreign_cell lab src (Some 0) c -> walk src c (Some (at_ lab c)) [c]
| wk_step : forall c d l p, ~ foreign_cell lab src (Some 0) c -> flows f c d -> walk src d l p -> walk src c l (c :: p)
| wk_end : forall c, ~ foreign_cell lab src (Some 0) c -> ins c -> (forall d, target f c = Some d -> ~ ins d) ->
    walk src c None [c].

Lemma foreign0 : forall src x, foreign_cell lab src (Some 0) x <-> at_ lab x <> src /\ at_ lab x <> 0.
Proof. intros src x. unfold foreign_cell. intuition congruence. Qed.

Hypothesis Dr : fully_draining f.

Lemma walk_total : forall src n c, end_in f n c -> exists l p, walk src c l p /\
  forall fuel, (n < fuel)%nat -> forall (g : bool) geom,
  label_loop fuel f lab src (Some 0) g c geom = Ok (l, if g then geom ++ p else geom).
Proof.
  intros src n c H. destruct Dr as [OK _].
  induction H as [c I N|n c d F H IH]; [|pose proof (proj1 F) as I].
  - destruct (foreignb_spec src (Some 0) c) as [Fc|Fc].
    + exists (Some (at_ lab c)), [c]. split; [constructor; auto|]. intros [|fuel] L g geom; [lia|].
      cbn [label_loop]. destruct (cell_in_raster_spec (nrows f) (ncols f) c); [|tauto].
      rewrite lab_rd by auto. cbn [bind]. fold (foreignb src (Some 0) (at_ lab c)).
      destruct (foreignb_spec src (Some 0) c); [|tauto]. destruct g; reflexivity.
    + exists None, [c]. split; [constructor; auto|]. intros [|fuel] L g geom; [lia|].
      cbn [label_loop]. destruct (cell_in_raster_spec (nrows f) (ncols f) c); [|tauto].
      rewrite lab_rd by auto. cbn [bind]. fold (foreignb src (Some 0) (at_ lab c)).
      destruct (foreignb_spec src (Some 0) c); [tauto|]. rewrite rd_at by auto. cbn [bind].
      rewrite delta_offset by (apply OK; auto). cbn [bind].
      destruct (offset (at_ f c)) as [[a b]|] eqn:O; [|destruct g; reflexivity].
      assert (X : ~ ins (fst c + a, snd c + b)) by (apply N; unfold target; rewrite O; reflexivity).
      destruct fuel; cbn [label_loop]; destruct (cell_in_raster_spec (nrows f) (ncols f) (fst c + a, snd c + b));
        try tauto; destruct g; reflexivity.
  - destruct (foreignb_spec src (Some 0) c) as [Fc|Fc].
    + exists (Some (at_ lab c)), [c]. split; [constructor; auto|]. intros [|fuel] L g geom; [lia|].
      cbn [label_loop]. destruct (cell_in_raster_spec (nrows f) (ncols f) c); [|tauto].
      rewrite lab_rd by auto. cbn [bind]. fold (foreignb src (Some 0) (at_ lab c)).
      destruct (foreignb_spec src (Some 0) c); [|tauto]. destruct g; reflexivity.
    + destruct IH as (l & p & W & L). exists l, (c :: p). split; [econstructor; eauto|].
      intros [|fuel] Lf g geom; [lia|].
      cbn [label_loop]. destruct (cell_in_raster_spec (nrows f) (ncols f) c); [|tauto].
      rewrite lab_rd by auto. cbn [bind]. fold (foreignb src (Some 0) (at_ lab c)).
      destruct (foreignb_spec src (Some 0) c); [tauto|]. rewrite rd_at by auto. cbn [bind].
      rewrite delta_offset by (apply OK; auto). cbn [bind].
      destruct F as (_ & _ & T). unfold target in T. destruct (offset (at_ f c)) as [[a b]|]; [|discriminate].
      inversion T; subst d. unfold shift in L. cbn [fst snd] in L. rewrite L by lia.
      destruct g; rewrite <- ?app_assoc; reflexivity.
Qed.

Lemma walk_hd : forall src c l p, walk src c l p -> ins c /\ exists t, p = c :: t.
Proof. intros src c l p H. destruct H as [|? ? ? ? ? F|]; split; eauto. apply F. Qed.

Lemma walk_in : forall src c l p, walk src c l p -> forall x, In x p -> passes f c x /\
  (foreign_cell lab src (Some 0) x -> l = Some (at_ lab x)).
Proof.
  intros src c l p H. induction H as [c I Fc|c d l p Fc F W IH|c Fc I N]; intros x Hx.
  - destruct Hx as [<-|[]]. split; [constructor; auto | auto].
  - destruct Hx as [<-|Hx]; [split; [constructor; apply F | tauto]|]. destruct (IH x Hx). split; auto. econstructor; eauto.
  - destruct Hx as [<-|[]]. split; [constructor; auto | tauto].
Qed.

Lemma walk_label : forall src c l p, walk src c (Some l) p -> l <> src /\ l <> 0 /\
  exists x, In x p /\ at_ lab x = l /\ passes f c x.
Proof.
  intros src c l p H. remember (Some l) as o eqn:Eo. induction H as [c I Fc|c d l' p Fc F W IH|c Fc I N]; subst.
  - inversion Eo; subst. apply foreign0 in Fc. destruct Fc. split; auto. split; auto.
    exists c. split; [left; auto|]. split; auto. constructor; auto.
  - destruct (IH eq_refl) as (A & B & x & X & Y & Z). split; auto. split; auto. exists x. split; [right; auto|].
    split; auto. econstructor; eauto.
  - discriminate.
Qed.

Lemma walk_det : forall src c l p, walk src c l p -> forall l' p', walk src c l' p' -> l = l' /\ p = p'.
Proof.
  intros src c l p H. induction H as [c I Fc|c d l p Fc F W IH|c Fc I N]; intros l' p' H';
    inversion H' as [c' I' Fc'|c' d' l1 p1 Fc' F' W'|c' Fc' I' N']; subst; try tauto.
  - destruct F as (_ & _ & E1), F' as (_ & _ & E2). rewrite E1 in E2. inversion E2; subst.
    destruct (IH _ _ W') as [-> ->]. auto.
  - destruct F as (_ & I2 & E). exfalso. eapply N'; eauto.
  - destruct F' as (_ & I2 & E). exfalso. eapply N; eauto.
Qed.

(** Streams as runs. *)
Definition nxt (c : cell) : option cell :=
  match target f c with Some d => if cell_in_raster (nrows f) (ncols f) d then Some d else None | None => None end.

Definition ends (D : option Z) (x : cell) : Prop :=
  match D with Some l => at_ lab x = l | None => forall d, target f x = Some d -> ~ ins d end.

Lemma walk_run : forall src c l p, walk src c l p -> run nxt (ends l) p.
Proof.
  intros src c l p H. induction H as [c I Fc|c d l p Fc F W IH|c Fc I N].
  - constructor. reflexivity.
  - destruct (walk_hd _ _ _ _ W) as (Id & t & ->). constructor; auto.
    + intros E. destruct l as [l|]; cbn [ends] in E.
      * apply walk_label in W. destruct W as (A & B & _). apply Fc. apply foreign0. subst l. auto.
      * destruct F as (_ & _ & T). apply (E d T). exact Id.
    + unfold nxt. destruct F as (_ & _ & ->). destruct (cell_in_raster_spec (nrows f) (ncols f) d); tauto.
  - constructor. exact N.
Qed.

Lemma walk_body : forall src c l p, walk src c l p -> forall x, In x (removelast p) ->
  ~ foreign_cell lab src (Some 0) x /\ exists q, walk src x l q.
Proof.
  intros src c l p H. induction H as [c I Fc|c d l p Fc F W IH|c Fc I N]; intros x Hx; try (destruct Hx; fail).
  destruct (walk_hd _ _ _ _ W) as (_ & t & ->). cbn [removelast] in Hx. destruct Hx as [<-|Hx].
  - split; auto. eexists. econstructor; eauto.
  - apply IH; auto.
Qed.

(** Once clear of both bluespots, two walks meet the same label. *)
Lemma walk_merge : forall a b x l p, walk a x l p -> forall l' p', walk b x l' p' ->
  (forall y, passes f x y -> at_ lab y <> a /\ at_ lab y <> b) -> l = l'.
Proof.
  intros a b x l p H. induction H as [c I Fc|c d l p Fc F W IH|c Fc I N]; intros l' p' H' Ny;
    inversion H' as [c' I' Fc'|c' d' l1 p1 Fc' F' W'|c' Fc' I' N']; subst; auto.
  - exfalso. assert (X := Ny c ltac:(constructor; auto)). apply foreign0 in Fc. apply Fc'. apply foreign0. tauto.
  - exfalso. assert (X := Ny c ltac:(constructor; auto)). apply foreign0 in Fc. apply Fc'. apply foreign0. tauto.
  - exfalso. assert (X := Ny c ltac:(constructor; auto)). apply foreign0 in Fc'. apply Fc. apply foreign0. tauto.
  - destruct F as (I1 & I2 & E1), F' as (_ & _ & E2). rewrite E1 in E2. inversion E2; subst d'.
    eapply IH; eauto. intros y Py. apply Ny. econstructor; eauto. split; auto.
  - exfalso. destruct F as (_ & I2 & E). eapply N'; eauto.
  - exfalso. assert (X := Ny c ltac:(constructor; auto)). apply foreign0 in Fc'. apply Fc. apply foreign0. tauto.
  - exfalso. destruct F' as (_ & I2 & E). eapply N; eauto.
Qed.

Lemma passes_same_end : forall a b n, passes f a b -> end_in f n a -> end_in f n b -> a = b.
Proof.
  intros a b n P Ea Eb. destruct P as [|a b c F P]; auto. exfalso.
  destruct (flows_end_inv f n a b F Ea) as (m & -> & Em).
  destruct (passes_end f b c P _ Eb) as (k & Lk & Ek). pose proof (end_in_det f _ _ Em _ Ek). lia.
Qed.

Lemma passes_antisym : forall a b, passes f a b -> passes f b a -> a = b.
Proof.
  intros a b P Q. pose proof (passes_inside_r f a b P) as I. destruct Dr as [_ DR].
  destruct (drains_end f b (DR b I)) as (n & Eb). destruct (passes_end f a b P n Eb) as (m & L & Ea).
  destruct (passes_end f b a Q m Ea) as (k & L2 & Ek). pose proof (end_in_det f _ _ Eb _ Ek).
  assert (m = n) by lia. subst m. apply passes_same_end with n; auto.
Qed.

Lemma passes_trans : forall a b c, passes f a b -> passes f b c -> passes f a c.
Proof. intros a b c P. induction P; intros Q; auto. econstructor; eauto. Qed.

(** ** The nodes before junction insertion *)
Definition from_walk (n : gnode) : Prop :=
  g_junction n = false /\ at_ lab (g_pix n) = g_id n /\ walk (g_id n) (g_pix n) (g_dstr n) (g_geom n).

Variable pps : list cell.
Hypothesis PPne : pps <> [].
Hypothesis PP : pourpoints_ok f lab pps.

Lemma pp_at : forall k c, nth_error pps k = Some c -> ins c /\ at_ lab c = Z.of_nat k.
Proof.
  intros k c H. destruct PP as [_ P]. destruct (P k c H) as [[[I E] _] _]. destruct Sh as [E1 E2]. split; auto.
  rewrite E1, E2. auto.
Qed.

Definition ncell : nat := length (rcells f).

Lemma inside_end : forall c, ins c -> exists n, end_in f n c.
Proof. intros c I. destruct Dr as [_ D]. apply drains_end. auto. Qed.

Definition strip (n : gnode) : gnode := mkG (g_id n) (g_dstr n) (g_junction n) (g_pix n) [].

Lemma enum_spec : forall l (a : Z), map fst (pourpoint_enumerator a l) = zseq a (length l) /\ map snd (pourpoint_enumerator a l) = l.
Proof.
  induction l as [|c l IH]; intros a; cbn [pourpoint_enumerator map length zseq fst snd]; auto.
  destruct (IH (a + 1)) as [-> ->]. auto.
Qed.

Lemma enum_nth : forall l (a : Z) ip, In ip (pourpoint_enumerator a l) -> exists k, nth_error l k = Some (snd ip) /\ fst ip = a + Z.of_nat k.
Proof.
  induction l as [|c l IH]; intros a ip H; [destruct H|]. cbn [pourpoint_enumerator] in H. destruct H as [<-|H].
  - exists 0%nat. split; auto. cbn [fst]. lia.
  - destruct (IH _ _ H) as (k & E1 & E2). exists (S k). split; auto. lia.
Qed.

Lemma nodes_of : forall l, (forall ip, In ip l -> ins (snd ip) /\ at_ lab (snd ip) = fst ip) ->
  exists N, map g_id N = map fst l /\ map g_pix N = map snd l /\
  (forall n, In n N -> from_walk n) /\
  forall fuel, (ncell <= fuel)%nat ->
    mmap (fun ip =>
          '(down_lbl, _) <- next_downstream_label fuel f lab (snd ip) (Some 0) false ;;
          Ok (mkG (fst ip) down_lbl false (snd ip) [])) l = Ok (map strip N) /\
    forall d, mfold (fun d ip =>
             '(down_lbl, geom) <- next_downstream_label fuel f lab (snd ip) (Some 0) true ;;
             Ok (push d (mkG (fst ip) down_lbl false (snd ip) geom)))
      l d = Ok (fold_left push N d).
Proof.
  induction l as [|ip l IH]; intros Hin.
  - exists []. split; auto. split; auto. split; [intros ? []|]. intros fuel _. split; auto.
  - destruct IH as (N & A & B & C & D); [intros; apply Hin; right; auto|].
    destruct (Hin ip (or_introl eq_refl)) as [I La]. destruct (inside_end _ I) as (n & En).
    destruct (walk_total (fst ip) n (snd ip) En) as (lb & p & W & L).
    exists (mkG (fst ip) lb false (snd ip) p :: N). cbn [map g_id g_pix]. rewrite A, B. split; auto. split; auto. split.
    { intros m [<-|Hm]; auto. split; auto. }
    intros fuel Fu. specialize (D fuel Fu). destruct D as [D1 D2].
    assert (X : forall g : bool, next_downstream_label fuel f lab (snd ip) (Some 0) g = Ok (lb, if g then p else [])).
    { intros g. unfold next_downstream_label. rewrite lab_rd by auto. cbn [bind]. rewrite La, L.
      - destruct g; reflexivity.
      - pose proof (end_in_bound f n (snd ip) En) as LB. unfold ncell in Fu. unfold ncells in LB. lia. }
    split.
    + cbn [mmap]. rewrite X. cbn [bind]. rewrite D1. reflexivity.
    + intros d. cbn [mfold]. rewrite X. cbn [bind]. apply D2.
Qed.

Lemma nodes_exist : exists N, map g_id N = zseq 0 (length pps) /\ map g_pix N = pps /\
  (forall n, In n N -> from_walk n) /\
  forall fuel, (ncell <= fuel)%nat ->
    pourpoint_network fuel f lab pps (Some 0) = Ok (map strip N) /\
    forall d, mfold (fun d ip =>
             '(down_lbl, geom) <- next_downstream_label fuel f lab (snd ip) (Some 0) true ;;
             Ok (push d (mkG (fst ip) down_lbl false (snd ip) geom)))
      (pourpoint_enumerator 0 pps) d = Ok (fold_left push N d).
Proof.
  destruct (enum_spec pps 0) as [E1 E2].
  destruct (nodes_of (pourpoint_enumerator 0 pps)) as (N & A & B & C & D).
  { intros ip H. destruct (enum_nth _ _ _ H) as (k & Ek & Ef). destruct (pp_at k _ Ek). split; auto. lia. }
  exists N. rewrite A, B. split; auto.
Qed.

Definition from_pp (n : gnode) : Prop :=
  from_walk n /\ 0 <= g_id n /\ pour_ok f lab (g_id n) (g_pix n) /\ (g_id n = 0 -> flows_off f (g_pix n)).

Lemma node_at : forall N l (a : Z), map g_id N = zseq a (length l) -> map g_pix N = l -> forall n, In n N ->
  exists k, nth_error l k = Some (g_pix n) /\ g_id n = a + Z.of_nat k.
Proof.
  induction N as [|m N IH]; intros l a A B n Hn; [destruct Hn|].
  destruct l as [|c l]; [discriminate|]. cbn [map length zseq] in A, B. inversion A; inversion B; subst.
  destruct Hn as [<-|Hn].
  - exists 0%nat. split; auto. lia.
  - destruct (IH (map g_pix N) (g_id m + 1)) with (n := n) as (k & Ek & Ei); auto. exists (S k). split; auto. lia.
Qed.

Lemma at_node : forall N l (a : Z), map g_id N = zseq a (length l) -> map g_pix N = l -> forall k c,
  nth_error l k = Some c -> exists n, In n N /\ g_pix n = c /\ g_id n = a + Z.of_nat k.
Proof.
  induction N as [|m N IH]; intros l a A B k c Hk.
  - cbn in B. subst l. destruct k; discriminate.
  - destruct l as [|c' l]; [destruct k; discriminate|]. cbn [map length zseq] in A, B. inversion A; inversion B; subst.
    destruct k as [|k]; cbn [nth_error] in Hk.
    + inversion Hk. exists m. split; [left; auto|]. split; auto. lia.
    + destruct (IH _ (g_id m + 1) H1 eq_refl k c Hk) as (n & Hn & E1 & E2). exists n. split; [right; auto|]. split; auto. lia.
Qed.

Lemma from_pp_all : forall N, map g_id N = zseq 0 (length pps) -> map g_pix N = pps ->
  (forall n, In n N -> from_walk n) -> forall n, In n N -> from_pp n.
Proof.
  intros N A B C n Hn. destruct (node_at N pps 0 A B n Hn) as (k & Ek & Ei). destruct PP as [_ P].
  destruct (P k _ Ek) as [P1 P2]. split; auto. split; [lia|]. replace (g_id n) with (Z.of_nat k) by lia.
  split; auto. intros E. apply P2. lia.
Qed.

Lemma off_single : forall n, from_pp n -> g_id n = 0 -> g_geom n = [g_pix n] /\ g_dstr n = None.
Proof.
  intros n ((J & La & W) & _ & _ & O) E. specialize (O E). destruct O as (I & d & T & Nd).
  assert (W' : walk (g_id n) (g_pix n) None [g_pix n]).
  { constructor; auto.
    - intros Fc. apply foreign0 in Fc. rewrite La in Fc. tauto.
    - intros d' T'. rewrite T in T'. inversion T'. subst. auto. }
  destruct (walk_det _ _ _ _ W _ _ W'). auto.
Qed.

Lemma group_tidy : forall D l, NoDup (map g_id l) -> (forall n, In n l -> from_pp n /\ g_dstr n = D) ->
  tidy nxt (ends D) D l.
Proof.
  intros D l ND H. split; auto.
  - intros n Hn. destruct (H n Hn) as [[(_ & _ & W) _] <-]. eapply walk_run; eauto.
  - intros n Hn. apply H; auto.
  - intros a b x Ha Hb N L Hd Hin.
    destruct (H a Ha) as [Fa Da], (H b Hb) as [[(_ & Lb & Wb) _] Db].
    destruct (Z.eq_dec (g_id a) 0) as [E0|E0].
    { destruct (off_single a Fa E0) as [Eg _]. rewrite Eg in L. cbn in L. lia. }
    destruct Fa as [(_ & La & Wa) _]. destruct (walk_hd _ _ _ _ Wa) as (_ & t & Et). rewrite Et in Hd.
    cbn in Hd. inversion Hd; subst x.
    destruct (walk_in _ _ _ _ Wb _ Hin) as [_ X].
    assert (Fx : foreign_cell lab (g_id b) (Some 0) (g_pix a)) by (apply foreign0; rewrite La; auto).
    specialize (X Fx). rewrite Db, <- Da, La in X. rewrite X in Wa. apply walk_label in Wa. tauto.
Qed.

Lemma groups_apart : forall a b, from_pp a -> from_pp b -> g_id a <> g_id b -> g_dstr a <> g_dstr b -> apart a b.
Proof.
  intros a b Fa Fb Ei N x Xa Xb. unfold body in *.
  assert (Ea : g_id a <> 0).
  { intros E. destruct (off_single a Fa E) as [Eg _]. rewrite Eg in Xa. destruct Xa. }
  assert (Eb : g_id b <> 0).
  { intros E. destruct (off_single b Fb E) as [Eg _]. rewrite Eg in Xb. destruct Xb. }
  destruct Fa as ((_ & La & Wa) & Pa0 & Pa & _), Fb as ((_ & Lb & Wb) & Pb0 & Pb & _).
  destruct (walk_body _ _ _ _ Wa x Xa) as (Na & qa & Wxa). destruct (walk_body _ _ _ _ Wb x Xb) as (Nb & qb & Wxb).
  rewrite foreign0 in Na, Nb.
  assert (L0 : at_ lab x = 0) by lia.
  apply N. apply (walk_merge _ _ _ _ _ Wxa _ _ Wxb).
  assert (K : forall n y, at_ lab (g_pix n) = g_id n -> walk (g_id n) (g_pix n) (g_dstr n) (g_geom n) ->
    pour_ok f lab (g_id n) (g_pix n) -> g_id n <> 0 -> In x (removelast (g_geom n)) -> passes f x y -> at_ lab y <> g_id n).
  { intros n y Ln Wn [_ Pn] En Xn Py E. apply removelast_in in Xn. destruct (walk_in _ _ _ _ Wn x Xn) as [Pc _].
    assert (y = g_pix n) by (apply Pn; auto; eapply passes_trans; eauto). subst y.
    assert (x = g_pix n) by (apply passes_antisym; auto). subst x. lia. }
  intros y Py. split; eapply K; eauto.
Qed.

(** ** Grouping by downstream label *)
Definition grouped (d : list (option Z * list gnode)) : Prop :=
  NoDup (map fst d) /\ forall k l, In (k, l) d -> l <> [] /\ forall n, In n l -> g_dstr n = k.

Lemma dset_flat : forall d k (n : gnode),
  Permutation (flat_map snd (dset optZ_eqb d k (match dget optZ_eqb d k with Some l => l | None => [] end ++ [n])))
    (flat_map snd d ++ [n]).
Proof.
  induction d as [|[k' l'] d IH]; intros k n; cbn [dset dget flat_map snd app].
  - reflexivity.
  - destruct (optZ_eqb k' k); cbn [flat_map snd].
    + rewrite <- !app_assoc. apply Permutation_app_head. apply Permutation_app_comm.
    + rewrite IH, app_assoc. reflexivity.
Qed.

Lemma push_grouped : forall d n, grouped d -> grouped (push d n).
Proof.
  intros d n [ND H]. unfold push. split; [apply dset_nodup; auto; apply optZ_eqb_spec'|].
  intros k l Hin.
  pose proof (dset_nodup optZ_eqb optZ_eqb_spec' d (g_dstr n) (match dget optZ_eqb d (g_dstr n) with Some l => l | None => [] end ++ [n]) ND) as ND2.
  pose proof (dget_nodup optZ_eqb optZ_eqb_spec' _ _ _ ND2 Hin) as G.
  destruct (optZ_eqb_spec' (g_dstr n) k) as [E|E].
  - subst k. rewrite dget_dset_same in G by apply optZ_eqb_spec'. inversion G; subst l. split.
    + intros X. apply app_eq_nil in X. destruct X; discriminate.
    + intros m Hm. apply in_app_or in Hm. destruct Hm as [Hm|[<-|[]]]; auto.
      destruct (dget optZ_eqb d (g_dstr n)) as [l|] eqn:Eg; [|destruct Hm].
      apply (dget_in optZ_eqb optZ_eqb_spec') in Eg. apply (H _ _ Eg); auto.
  - rewrite dget_dset_other in G by (auto; apply optZ_eqb_spec'). apply (dget_in optZ_eqb optZ_eqb_spec') in G.
    apply (H _ _ G).
Qed.

Lemma pushes : forall N d, grouped d -> grouped (fold_left push N d) /\
  Permutation (flat_map snd (fold_left push N d)) (flat_map snd d ++ N).
Proof.
  induction N as [|n N IH]; intros d G; cbn [fold_left].
  - rewrite app_nil_r. auto.
  - destruct (IH (push d n) (push_grouped d n G)) as [A B]. split; auto. rewrite B. unfold push.
    rewrite dset_flat. rewrite <- app_assoc. reflexivity.
Qed.

Lemma group_length : forall ns gs, groups_of ns gs -> forall g, In g gs -> (length g <= length ns)%nat.
Proof.
  intros ns gs H. induction H as [|n rest gs H IH]; intros g []; subst.
  - pose proof (filter_length_le (same n) rest). cbn [length]. lia.
  - pose proof (filter_length_le (fun o => negb (same n o)) rest). specialize (IH g H0). cbn [length]. lia.
Qed.

Lemma NoDup_app_parts : forall {A} (a b : list A), NoDup (a ++ b) -> NoDup a /\ NoDup b /\ forall x, In x a -> In x b -> False.
Proof. intros A a b H. apply NoDup_app_l. auto. Qed.

Lemma final_fold : forall d fuel, grouped d -> NoDup (map g_id (flat_map snd d)) ->
  (forall n, In n (flat_map snd d) -> from_pp n) -> (length (flat_map snd d) <= fuel)%nat ->
  forall out0 a, exists out b,
    mfold (fun st (kv : option Z * list gnode) =>
             let '(final_nodes, next_available_label) := st in
             '(ns, next_available_label) <- untangle fuel (snd kv) next_available_label ;;
             Ok (final_nodes ++ ns, next_available_label)) d (out0, a) = Ok (out0 ++ out, b) /\
    unt (flat_map snd d) a out b.
Proof.
  intros d fuel. induction d as [|[k l] d IH]; intros [NK G] ND FP Fu out0 a; cbn [mfold flat_map snd] in *.
  - exists [], a. rewrite app_nil_r. split; [reflexivity | constructor].
  - rewrite map_app in ND. apply NoDup_app_parts in ND. destruct ND as (ND1 & ND2 & NX).
    destruct (G k l (or_introl eq_refl)) as [NE Dk]. rewrite app_length in Fu.
    destruct (untangle_ok nxt (pred (length l)) l (ends k) k a NE) with (fuel := fuel) as (o1 & b & E1 & U1).
    + apply group_tidy; auto. intros n Hn. split; [apply FP; apply in_or_app; auto | auto].
    + intros gs g Hg Hin. pose proof (group_length _ _ Hg g Hin). destruct l; [congruence|]. cbn [length pred] in *. lia.
    + destruct l; [congruence|]. cbn [length pred] in *. lia.
    + rewrite E1. cbn [bind]. inversion NK as [|? ? K1 K2]; subst.
      destruct (IH) with (out0 := out0 ++ o1) (a := b) as (o2 & c & E2 & U2); auto.
      * split; auto. intros k' l' Hin. apply G. right; auto.
      * intros n Hn. apply FP. apply in_or_app; auto.
      * lia.
      * exists (o1 ++ o2), c. split; [rewrite E2, app_assoc; reflexivity|]. eapply unt_app; eauto.
        intros n m Hn Hm. apply groups_apart.
        -- apply FP. apply in_or_app; auto.
        -- apply FP. apply in_or_app; auto.
        -- intros E. apply (NX (g_id n)); [apply in_map; auto|]. rewrite E. apply in_map; auto.
        -- apply in_flat_map in Hm. destruct Hm as ([k' l'] & Hkl & Hm). cbn [snd] in Hm.
           destruct (G k' l' (or_intror Hkl)) as [_ Dk']. rewrite (Dk n Hn), (Dk' m Hm). intros ->.
           apply K1. apply in_map_iff. exists (k', l'). auto.
Qed.

(** ** The whole function *)
Lemma max_label : np_max lab = Ok (Z.of_nat (length pps) - 1).
Proof.
  destruct pps as [|c0 t] eqn:Ep; [congruence|]. rewrite <- Ep in *.
  assert (L : exists c, nth_error pps (length pps - 1) = Some c).
  { destruct (nth_error pps (length pps - 1)) eqn:E; [eauto|]. apply nth_error_None in E. rewrite Ep in E. cbn [length] in E. lia. }
  destruct L as (c & Hc). destruct (pp_at _ _ Hc) as [I La].
  destruct (np_max lab) as [m| |] eqn:Em.
  - apply np_max_spec in Em. destruct Em as [(x & Hx & Ex) M]. f_equal.
    destruct Sh as [E1 E2]. specialize (M c ltac:(rewrite <- E1, <- E2; exact I)).
    destruct PP as [LI _]. specialize (LI x Hx). rewrite Ep in *. cbn [length] in *. lia.
  - exfalso. unfold np_max in Em. destruct (ravel lab) eqn:Er; [|discriminate].
    unfold ravel in Er. apply map_eq_nil in Er. destruct Sh as [E1 E2].
    assert (X : In c (rcells lab)) by (apply in_cells_of; rewrite <- E1, <- E2; exact I). rewrite Er in X. destruct X.
  - exfalso. unfold np_max in Em. destruct (ravel lab); discriminate.
Qed.

Theorem network_shape : exists N,
  map g_id N = zseq 0 (length pps) /\ map g_pix N = pps /\ (forall n, In n N -> from_pp n) /\
  forall fuel, (ncell <= fuel)%nat -> (length pps <= fuel)%nat -> exists out b,
    pourpoint_network fuel f lab pps (Some 0) = Ok (map strip N) /\
    geometric_pourpoint_network fuel f lab pps (Some 0) = Ok out /\
    unt N (Z.of_nat (length pps)) out b.
Proof.
  destruct nodes_exist as (N & A & B & C & D).
  pose proof (from_pp_all N A B C) as FP.
  destruct (pushes N []) as [G P]; [split; [constructor | intros ? ? []]|]. cbn [flat_map app] in P.
  assert (LN : length N = length pps) by (rewrite <- B, map_length; auto).
  assert (ND : NoDup (map g_id (flat_map snd (fold_left push N [])))).
  { eapply Permutation_NoDup; [apply Permutation_map; apply Permutation_sym; exact P|]. rewrite A. apply zseq_NoDup. }
  assert (FQ : forall n, In n (flat_map snd (fold_left push N [])) -> from_pp n).
  { intros n Hn. apply FP. eapply Permutation_in; eauto. }
  assert (LF : length (flat_map snd (fold_left push N [])) = length pps) by (rewrite (Permutation_length P); auto).
  exists N. split; auto. split; auto. split; auto.
  intros fuel F1 F2. destruct (D fuel F1) as [D1 D2].
  destruct (final_fold _ fuel G ND FQ ltac:(lia) [] (Z.of_nat (length pps))) as (out & b & E & U).
  exists out, b. split; auto. split.
  - unfold geometric_pourpoint_network. rewrite D2. cbn [bind]. rewrite max_label. cbn [bind].
    replace (Z.of_nat (length pps) - 1 + 1) with (Z.of_nat (length pps)) by lia.
    rewrite E. reflexivity.
  - eapply un_perm; [apply Permutation_sym; exact P | exact U].
Qed.
End Walk.
