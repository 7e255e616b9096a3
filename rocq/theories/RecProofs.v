(** * Proofs about the recursion of [_untangle] *)

From Verif Require Import Base BaseProofs Dict FlowModel LabelModel LabelSpec LabelProofs NetModel UntangleProofs RecModel RecSpec.
Local Open Scope Z_scope.

(** ** Members of groups *)
Lemma list_remove_in : forall l x l', list_remove l x = Ok l' -> incl l' l.
Proof.
  induction l as [|y t IH]; intros x l' H; cbn [list_remove] in H; [discriminate|].
  destruct (gnode_eqb y x).
  - inversion H; subst. intros z Hz. right; auto.
  - apply bind_ok in H. destruct H as (t' & E & H). inversion H; subst. intros z [<-|Hz]; [left; auto|].
    right. eapply IH; eauto.
Qed.

Lemma split_loop_in : forall fuel ns gs, split_loop fuel 2 ns = Ok gs -> forall g, In g gs -> incl g ns.
Proof.
  induction fuel as [|fuel IH]; intros [|n rest] gs H g Hg; cbn [split_loop] in H.
  - inversion H; subst. destruct Hg.
  - discriminate.
  - inversion H; subst. destruct Hg.
  - apply bind_ok in H. destruct H as (un & E & H). apply list_remove_in in E.
    apply bind_ok in H. destruct H as ([tg un2] & E2 & H).
    apply bind_ok in H. destruct H as (gs2 & E3 & H). inversion H; subst; clear H.
    assert (X : incl tg (n :: rest) /\ incl un2 (n :: rest)).
    { destruct (2 <? Z.of_nat (length (g_geom n))).
      2:{ inversion E2; subst. split; auto. intros z [<-|[]]. left; auto. }
      assert (Y : forall todo, incl todo (n :: rest) -> forall st st', mfold (fun st other_n =>
                        let '(this_group, unhandled) := st in
                        let other_geom := g_geom other_n in
                        if 2 <? Z.of_nat (length other_geom) then
                          a <- list_rd (g_geom n) (-1 * 2) ;;
                          b <- list_rd other_geom (-1 * 2) ;;
                          if cell_eqb a b then
                            unhandled <- list_remove unhandled other_n ;;
                            Ok (this_group ++ [other_n], unhandled)
                          else Ok st
                        else Ok st) todo st = Ok st' ->
        incl (fst st) (n :: rest) /\ incl (snd st) (n :: rest) -> incl (fst st') (n :: rest) /\ incl (snd st') (n :: rest)).
      { induction todo as [|o todo IHt]; intros It [g1 u1] st' Hs [I1 I2]; cbn [mfold] in Hs.
        - inversion Hs; subst. auto.
        - apply bind_ok in Hs. destruct Hs as ([g2 u2] & Es & Hs). apply IHt in Hs; auto.
          + intros z Hz. apply It. right; auto.
          + cbn [fst snd] in *. destruct (2 <? Z.of_nat (length (g_geom o))); [|inversion Es; subst; auto].
            apply bind_ok in Es. destruct Es as (a & _ & Es). apply bind_ok in Es. destruct Es as (b & _ & Es).
            destruct (cell_eqb a b); [|inversion Es; subst; auto].
            apply bind_ok in Es. destruct Es as (u3 & Er & Es). inversion Es; subst. apply list_remove_in in Er.
            split.
            * intros z Hz. apply in_app_or in Hz. destruct Hz as [Hz|[<-|[]]]; auto. apply It. left; auto.
            * intros z Hz. auto. }
      apply Y in E2; auto. split; auto. cbn [fst]. intros z [<-|[]]. left; auto. }
    destruct X as [X1 X2]. destruct Hg as [<-|Hg]; auto.
    intros z Hz. apply X2. eapply IH; eauto.
Qed.

Lemma split_in : forall ns gs, split_into_common_flow_groups ns 2 = Ok gs -> forall g, In g gs -> incl g ns.
Proof.
  intros ns gs H g Hg. unfold split_into_common_flow_groups in H. destruct (Z.of_nat (length ns) <=? 1).
  - inversion H; subst. destruct Hg as [<-|[]]. intros z Hz; auto.
  - eapply split_loop_in; eauto.
Qed.

Lemma prune_facts : forall g a us j, prune_common_flow g a = Ok (us, j) ->
  g_id j = a /\ g_junction j = true /\ (exists n, In n g /\ g_dstr j = g_dstr n) /\
  forall u, In u us -> g_dstr u = Some a /\ exists n, In n g /\ g_junction u = g_junction n.
Proof.
  intros [|n0 tl] a us j H; cbn [prune_common_flow] in H; [discriminate|].
  match type of H with (if ?b then _ else _) = _ => destruct b; [discriminate|] end.
  apply bind_ok in H. destruct H as (x & _ & H). apply bind_ok in H. destruct H as (bs & _ & H).
  match type of H with (if ?b then _ else _) = _ => destruct b; [discriminate|] end.
  apply bind_ok in H. destruct H as ([sh geoms] & _ & H). apply bind_ok in H. destruct H as (pix & _ & H).
  inversion H; subst; clear H. cbn [g_id g_junction g_dstr]. split; auto. split; auto. split.
  - exists n0. split; [left; auto|auto].
  - intros u Hu. apply in_map_iff in Hu. destruct Hu as ([n r] & <- & Hin). cbn. split; auto.
    exists n. split; auto. apply (in_combine_l (n0 :: tl) geoms) in Hin. auto.
Qed.

(** ** Junctions in a row stay within the output of one call *)

(** Junctions with ids from [lo] to [hi] leading to each other or to P. *)
Definition closed (P : option Z -> Prop) (lo hi : Z) (out : list gnode) : Prop :=
  lo <= hi /\ forall j, In j out -> g_junction j = true -> lo <= g_id j < hi /\
    (P (g_dstr j) \/ exists d, g_dstr j = Some d /\ lo <= d < hi).

Lemma row_incl : forall o o' js, junctions_in_a_row o js -> incl o o' -> junctions_in_a_row o' js.
Proof. intros o o' js [A B] I. split; auto. intros j Hj. destruct (A j Hj). split; auto. Qed.

Lemma row_tail : forall o j js, junctions_in_a_row o (j :: js) -> junctions_in_a_row o js.
Proof.
  intros o j js [A B]. split; [intros; apply A; right; auto|]. destruct js; cbn in *; tauto.
Qed.

Lemma row_cons : forall o j k js, In j o -> g_junction j = true -> g_dstr j = Some (g_id k) ->
  junctions_in_a_row o (k :: js) -> junctions_in_a_row o (j :: k :: js).
Proof.
  intros o j k js I J D [A B]. split.
  - intros x [<-|Hx]; auto.
  - cbn [linked]. cbn [linked] in B. split; auto.
Qed.

Lemma row_app : forall P o1 o2 lo mid hi js, closed P lo mid o1 -> closed P mid hi o2 -> (forall d, P (Some d) -> d < lo) ->
  junctions_in_a_row (o1 ++ o2) js -> junctions_in_a_row o1 js \/ junctions_in_a_row o2 js.
Proof.
  intros P o1 o2 lo mid hi js [L1 C1] [L2 C2] HP. induction js as [|j js IH]; intros R.
  - left. split; [intros ? []|exact I].
  - pose proof (row_tail _ _ _ R) as R'. destruct R as [A B]. destruct (A j (or_introl eq_refl)) as [Hj Jj].
    destruct js as [|k js].
    + apply in_app_or in Hj. destruct Hj; [left|right]; split; try exact I; intros x [<-|[]]; auto.
    + cbn [linked] in B. destruct B as [D _]. specialize (IH R').
      destruct (A k (or_intror (or_introl eq_refl))) as [Hk Jk].
      apply in_app_or in Hj. destruct Hj as [Hj|Hj].
      * destruct (C1 j Hj Jj) as [I1 X]. rewrite D in X. destruct X as [Y|(d & Ed & Y)]; [|inversion Ed; subst d].
        -- exfalso. specialize (HP _ Y). apply in_app_or in Hk. destruct Hk as [Hk|Hk]; [specialize (C1 k Hk Jk)|specialize (C2 k Hk Jk)]; lia.
        -- destruct IH as [IH|IH]; [left; apply row_cons; auto|]. exfalso.
           destruct IH as [IA _]. destruct (IA k (or_introl eq_refl)) as [Hk2 _]. specialize (C2 k Hk2 Jk). lia.
      * destruct (C2 j Hj Jj) as [I1 X]. rewrite D in X. destruct X as [Y|(d & Ed & Y)]; [|inversion Ed; subst d].
        -- exfalso. specialize (HP _ Y). apply in_app_or in Hk. destruct Hk as [Hk|Hk]; [specialize (C1 k Hk Jk)|specialize (C2 k Hk Jk)]; lia.
        -- destruct IH as [IH|IH]; [|right; apply row_cons; auto]. exfalso.
           destruct IH as [IA _]. destruct (IA k (or_introl eq_refl)) as [Hk2 _]. specialize (C1 k Hk2 Jk). lia.
Qed.

(** Below a junction: the row may end in it. *)
Lemma row_under : forall j0 o hi js, g_junction j0 = true -> (forall d, g_dstr j0 = Some d -> d < g_id j0) ->
  closed (eq (Some (g_id j0))) (g_id j0 + 1) hi o ->
  junctions_in_a_row (j0 :: o) js -> exists js', junctions_in_a_row o js' /\ (length js <= S (length js'))%nat /\
    (js <> [] -> (forall k, hd_error js = Some k -> In k o) -> hd_error js' = hd_error js).
Proof.
  intros j0 o hi js J0 D0 [L C]. induction js as [|j js IH]; intros R.
  - exists []. split; [split; [intros ? []|exact I]|]. split; [cbn; lia|]. congruence.
  - pose proof (row_tail _ _ _ R) as R'. destruct R as [A B]. destruct (A j (or_introl eq_refl)) as [Hj Jj].
    destruct js as [|k js].
    + destruct Hj as [<-|Hj].
      * exists []. split; [split; [intros ? []|exact I]|]. split; [cbn; lia|]. intros _ H.
        specialize (H j0 eq_refl). destruct (C j0 H Jj). lia.
      * exists [j]. split; [split; [intros x [<-|[]]; auto|exact I]|]. split; [cbn; lia|]. auto.
    + cbn [linked] in B. destruct B as [D _]. destruct (IH R') as (js' & R2 & Len & Hd).
      destruct (A k (or_intror (or_introl eq_refl))) as [Hk Jk].
      destruct Hj as [<-|Hj].
      * exfalso. specialize (D0 _ D). destruct Hk as [<-|Hk]; [lia|]. specialize (C k Hk Jk). lia.
      * destruct Hk as [<-|Hk].
        -- destruct js as [|k2 js].
           ++ exists [j]. split; [split; [intros x [<-|[]]; auto|exact I]|]. split; [cbn; lia|]. auto.
           ++ exfalso. destruct R' as [A' [D' _]]. specialize (D0 _ D').
              destruct (A' k2 (or_intror (or_introl eq_refl))) as [[<-|H2] J2]; [lia|]. specialize (C k2 H2 J2). lia.
        -- specialize (Hd ltac:(discriminate) ltac:(intros k' E; inversion E; subst; auto)).
           destruct js' as [|k' js']; [discriminate|]. inversion Hd; subst k'.
           exists (j :: k :: js'). split; [apply row_cons; auto|]. split; [cbn [length] in *; lia|]. auto.
Qed.

Lemma row_snoc : forall o js j, junctions_in_a_row o js -> In j o -> g_junction j = true ->
  (forall p k, js = p ++ [k] -> g_dstr k = Some (g_id j)) -> junctions_in_a_row o (js ++ [j]).
Proof.
  intros o js j R Hj Jj. induction js as [|k js IH]; intros T.
  - split; [intros x [<-|[]]; auto|exact I].
  - pose proof (row_tail _ _ _ R) as R'. destruct R as [A B]. destruct (A k (or_introl eq_refl)) as [Hk Jk].
    destruct js as [|k2 js].
    + apply row_cons; auto. apply (T []); auto. split; [intros x [<-|[]]; auto|exact I].
    + cbn [app]. apply row_cons; auto.
      * destruct B; auto.
      * apply IH; auto. intros p x E. apply (T (k :: p)). rewrite E. reflexivity.
Qed.

Lemma row_single : forall n o js, g_junction n = false -> junctions_in_a_row (n :: o) js -> junctions_in_a_row o js.
Proof.
  intros n o js N [A B]. split; auto. intros j Hj. destruct (A j Hj) as [[<-|H] J]; [congruence|auto].
Qed.

Definition rec_step (k : nat) (st : list gnode * Z) (group : list gnode) : res (list gnode * Z) :=
  let '(out, next_available_label) := st in
  if 1 <? Z.of_nat (length group) then
    '(untangled_nodes, new_node) <- prune_common_flow group next_available_label ;;
    '(ns, next_available_label) <- untangle_rec k untangled_nodes (next_available_label + 1) ;;
    Ok (out ++ new_node :: ns, next_available_label)
  else
    n <- list_rd group 0 ;;
    Ok (out ++ [n], next_available_label).

Lemma untangle_rec_eq : forall k ns a, untangle_rec (S k) ns a =
  (groups <- split_into_common_flow_groups ns 2 ;; mfold (rec_step k) groups ([], a)).
Proof. reflexivity. Qed.

(** With limited room: the same, or an error, according to the longest row of junctions. *)
Definition fits {A} (P : option Z -> Prop) (room : nat) (out : list gnode) (r : res A) (full : A) : Prop :=
  (r = Ok full /\ forall js, junctions_in_a_row out js -> (length js < room)%nat) \/
  (r = Exc RecursionError /\ exists js, junctions_in_a_row out js /\ length js = room /\
     forall p j, js = p ++ [j] -> P (g_dstr j)).

Lemma list_rd_in : forall (l : list gnode) i x, list_rd l i = Ok x -> In x l.
Proof.
  intros l i x H. unfold list_rd in H. destruct (pyidx _ _); [|discriminate].
  destruct (nth_error l (Z.to_nat z)) eqn:E; [|discriminate]. inversion H; subst. eapply nth_error_In; eauto.
Qed.

Lemma fold_rows : forall {G : Type} (step : nat -> list gnode * Z -> G -> res (list gnode * Z)) (full : list gnode * Z -> G -> res (list gnode * Z)) (P : option Z -> Prop) a gs,
  (forall d, P (Some d) -> d < a) ->
  (forall g out0 a0 r b, In g gs -> a <= a0 -> full (out0, a0) g = Ok (r, b) -> exists out, r = out0 ++ out /\
     closed P a0 b out /\ forall room, fits P (S room) out (step room (out0, a0) g) (r, b)) ->
  forall out0 a0 r b, a <= a0 -> mfold full gs (out0, a0) = Ok (r, b) -> exists out, r = out0 ++ out /\
     closed P a0 b out /\ forall room, fits P (S room) out (mfold (step room) gs (out0, a0)) (r, b).
Proof.
  intros G step full P a gs HP. induction gs as [|g gs IH]; intros HS out0 a0 r b La H; cbn [mfold] in H.
  - inversion H; subst. exists []. rewrite app_nil_r. split; auto. split.
    + split; [lia|intros ? []].
    + intros room. left. split; [reflexivity|]. intros [|j js] [A _]; [cbn; lia|]. destruct (A j (or_introl eq_refl)) as [[] _].
  - apply bind_ok in H. destruct H as ([o1 a1] & E & H).
    destruct (HS g out0 a0 o1 a1 (or_introl eq_refl) La E) as (x1 & -> & C1 & F1).
    assert (La1 : a <= a1) by (destruct C1; lia).
    destruct (IH ltac:(intros; apply HS; auto; right; auto) _ _ _ _ La1 H) as (x2 & -> & C2 & F2).
    exists (x1 ++ x2). rewrite app_assoc. split; auto. split.
    + destruct C1 as [L1 C1], C2 as [L2 C2]. split; [lia|]. intros j Hj Jj. apply in_app_or in Hj.
      destruct Hj as [Hj|Hj]; [destruct (C1 j Hj Jj) as [U V]|destruct (C2 j Hj Jj) as [U V]]; (split; [lia|]);
        destruct V as [V|(d & Ed & V)]; auto; right; exists d; split; auto; lia.
    + intros room. cbn [mfold]. destruct (F1 room) as [[Q1 S1]|[Q1 (js & R1 & E1 & T1)]]; rewrite Q1; cbn [bind].
      * destruct (F2 room) as [[Q2 S2]|[Q2 (js & R2 & E2 & T2)]]; rewrite Q2.
        -- left. split; auto. intros js R.
           apply (row_app P x1 x2 a0 a1 b) in R; auto; [destruct R; auto|]. intros d Hd. specialize (HP d Hd). lia.
        -- right. split; auto. exists js. split; [eapply row_incl; eauto; intros z Hz; apply in_or_app; auto|]. split; auto.
      * right. split; auto. exists js. split; [eapply row_incl; eauto; intros z Hz; apply in_or_app; auto|]. split; auto.
Qed.

Theorem untangle_rows : forall fuel ns (P : option Z -> Prop) a out b,
  (forall n, In n ns -> g_junction n = false /\ P (g_dstr n)) -> (forall d, P (Some d) -> d < a) ->
  untangle fuel ns a = Ok (out, b) ->
  closed P a b out /\ forall room, fits P room out (untangle_rec room ns a) (out, b).
Proof.
  induction fuel as [|fuel IH]; intros ns P a out b HN HP H; [discriminate|].
  rewrite untangle_eq in H. apply bind_ok in H. destruct H as (gs & Es & H).
  pose proof (split_in _ _ Es) as Sub.
  assert (X : exists o, out = [] ++ o /\ closed P a b o /\ forall room, fits P (S room) o (mfold (rec_step room) gs ([], a)) (out, b)).
  { apply (fold_rows rec_step (unt_step fuel) P a gs HP); [|lia|exact H].
    clear H out b Es. intros g out0 a0 r b Hg La H. specialize (Sub g Hg). unfold unt_step in H. unfold rec_step.
    destruct (1 <? Z.of_nat (length g)).
    - apply bind_ok in H. destruct H as ([us j] & Ep & H). rewrite Ep. cbn [bind].
      apply bind_ok in H. destruct H as ([o1 b1] & Eu & H). inversion H; subst; clear H.
      destruct (prune_facts _ _ _ _ Ep) as (Ij & Jj & (n & Hn & Dj) & Hu).
      assert (DP : P (g_dstr j)) by (rewrite Dj; apply (HN n (Sub n Hn))).
      destruct (IH us (eq (Some a0)) (a0 + 1) o1 b) as [C F]; [| |exact Eu|].
      { intros u Hu'. destruct (Hu u Hu') as [D (n' & Hn' & Ju)]. split.
        - rewrite Ju. apply (HN n' (Sub n' Hn')).
        - auto. }
      { intros d E. inversion E. lia. }
      exists (j :: o1). split; auto. split.
      + destruct C as [L C]. split; [lia|]. intros k [<-|Hk] Jk.
        * split; [lia|]. left; auto.
        * destruct (C k Hk Jk) as [U V]. split; [lia|]. right. destruct V as [V|(d & Ed & V)]; [exists a0; split; auto; lia|exists d; split; auto; lia].
      + intros room. destruct (F room) as [[Q S1]|[Q (js & R & E & T)]]; rewrite Q; cbn [bind].
        * left. split; auto. intros js R.
          destruct (row_under j o1 b js) as (js' & R' & Len & _); auto.
          { intros d Hd. rewrite Hd in DP. specialize (HP d DP). lia. }
          { rewrite Ij. exact C. }
          specialize (S1 _ R'). lia.
        * right. split; auto. destruct C as [L C].
          exists (js ++ [j]). split; [|split].
          -- apply row_snoc; auto.
             ++ eapply row_incl; eauto. intros z Hz; right; auto.
             ++ left; auto.
             ++ intros p k Ek. rewrite Ij. symmetry. eapply T; eauto.
          -- rewrite app_length. cbn [length]. lia.
          -- intros p k Ek. apply app_inj_tail in Ek. destruct Ek as [_ <-]. exact DP.
    - apply bind_ok in H. destruct H as (n & En & H). rewrite En. cbn [bind]. inversion H; subst; clear H.
      apply list_rd_in in En. destruct (HN n (Sub n En)) as [Jn _].
      exists [n]. split; auto. split.
      + split; [lia|]. intros j [<-|[]] Jj. congruence.
      + intros room. left. split; auto. intros js R. apply row_single in R; auto.
        destruct js as [|j js]; [cbn; lia|]. destruct R as [A _]. destruct (A j (or_introl eq_refl)) as [[] _]. }
  destruct X as (o & E & C & F). cbn [app] in E. subst o. split; auto.
  intros [|room].
  - right. split; [reflexivity|]. exists []. split; [split; [intros ? []|exact I]|]. split; auto. intros p j Ej. destruct p; discriminate.
  - rewrite untangle_rec_eq, Es. cbn [bind]. apply F.
Qed.
