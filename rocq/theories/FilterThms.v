(** * Proofs about filter expressions *)

From Coq Require Import Ascii String ZifyBool.
From Verif Require Import Base BaseProofs FilterModel FilterSpec.
Local Open Scope Z_scope.

(** ** Removing words removes nothing else *)

Lemma prefix_firstn : forall w s, prefix w s = true -> firstn (List.length w) s = w.
Proof.
  induction w as [|a w IH]; intros [|b s] H; cbn in *; try reflexivity; try discriminate.
  apply andb_true_iff in H. destruct H as (E & H). apply Z.eqb_eq in E. subst. f_equal. auto.
Qed.

Lemma replace_keeps : forall w s skip, w <> [] -> (forall c, In c (firstn skip s) -> In c w) ->
  forall c, In c s -> In c (replace_from w [] s skip) \/ In c w.
Proof.
  intros w s. induction s as [|x s IH]; intros skip W F c Hc; [destruct Hc|]. cbn [replace_from].
  destruct skip as [|k].
  - destruct (prefix w (x :: s)) eqn:P.
    + apply prefix_firstn in P. destruct w as [|a w]; [congruence|]. cbn [List.length firstn] in P. injection P as <- P.
      cbn [app List.length Nat.pred]. destruct Hc as [<-|Hc]; [right; left; auto|].
      apply IH; auto. rewrite P. intros; right; auto.
    + destruct Hc as [<-|Hc]; [left; left; auto|].
      assert (F0 : forall d, In d (firstn 0 s) -> In d w) by (intros d []).
      destruct (IH 0%nat W F0 c Hc) as [H|H]; auto. left. right. auto.
  - destruct Hc as [<-|Hc].
    + right. apply F. left. auto.
    + apply (IH k W); auto. intros d Hd. apply F. right. auto.
Qed.

Lemma replace_keeps_0 : forall w s c, w <> [] -> In c s -> In c (replace w [] s) \/ In c w.
Proof. intros w s c W H. apply replace_keeps; auto. intros d Hd. destruct Hd. Qed.

Lemma fold_keeps : forall {A} (f : A -> str) l s c, (forall x, In x l -> f x <> []) -> In c s ->
  In c (fold_left (fun s x => replace (f x) [] s) l s) \/ exists x, In x l /\ In c (f x).
Proof.
  intros A f. induction l as [|x l IH]; intros s c N H; cbn [fold_left]; auto.
  destruct (replace_keeps_0 (f x) s c) as [K|K]; auto.
  - apply N. left. auto.
  - destruct (IH _ c (fun y Hy => N y (or_intror Hy)) K) as [G|(y & Hy & G)]; auto. right. exists y. split; auto. right; auto.
  - right. exists x. split; auto. left. auto.
Qed.

Lemma lstrip_nil : forall s, lstrip s = [] <-> forall c, In c s -> is_space c = true.
Proof.
  induction s as [|c s IH]; cbn [lstrip]; [split; auto; intros _ d []|]. destruct (is_space c) eqn:E.
  - rewrite IH. split; intros H d; [intros [<-|Hd]; auto | intros Hd; apply H; right; auto].
  - split; [discriminate|]. intros H. rewrite (H c) in E; [discriminate|left; auto].
Qed.

Lemma lstrip_suffix : forall s, exists p, s = p ++ lstrip s /\ forall c, In c p -> is_space c = true.
Proof.
  induction s as [|c s IH]; cbn [lstrip]; [exists []; split; [reflexivity|intros d []]|]. destruct (is_space c) eqn:E.
  - destruct IH as (p & E' & F). exists (c :: p). split; [change (c :: s = c :: (p ++ lstrip s)); congruence|]. intros d [<-|Hd]; auto.
  - exists []. split; [reflexivity|]. intros d [].
Qed.

Lemma strip_nil : forall s, strip s = [] <-> forall c, In c s -> is_space c = true.
Proof.
  intros s. unfold strip. split; intros H.
  - assert (R : lstrip (rev (lstrip s)) = []). { rewrite <- (rev_involutive (lstrip (rev (lstrip s)))), H. reflexivity. }
    rewrite lstrip_nil in R. destruct (lstrip_suffix s) as (p & E & F). intros c Hc. rewrite E in Hc.
    apply in_app_or in Hc. destruct Hc as [Hc|Hc]; auto. apply R. apply in_rev in Hc. exact Hc.
  - apply lstrip_nil in H. rewrite H. reflexivity.
Qed.

Theorem filter_charset : forall s, check_filter s = Ok tt ->
  forall c, In c s -> In c (List.concat allowed_words) \/ In c allowedchars \/ is_space c = true.
Proof.
  intros s H c Hc. unfold check_filter in H.
  assert (N1 : forall x, In x allowed_words -> (fun w : str => w) x <> []).
  { intros x Hx. vm_compute in Hx. repeat (destruct Hx as [<-|Hx]; [discriminate|]). destruct Hx. }
  assert (N2 : forall x, In x allowedchars -> (fun c : Z => [c]) x <> []) by discriminate.
  generalize dependent allowedchars. intros chars H N2.
  destruct (fold_keeps (fun w : str => w) allowed_words s c N1 Hc) as [K|(w & Hw & K)].
  - destruct (fold_keeps (fun c : Z => [c]) chars _ c N2 K) as [G|(w & Hw & G)].
    + right. right. destruct (strip _) eqn:E in H; [|discriminate H]. rewrite strip_nil in E. exact (E c G).
    + right. left. destruct G as [<-|[]]. exact Hw.
  - left. apply in_concat. exists w. split; assumption.
Qed.

(** ** Words between symbols are replaced one by one *)

Lemma prefix_app : forall w c t rest, ~ In c w -> prefix w (t ++ c :: rest) = prefix w t.
Proof.
  induction w as [|a w IH]; intros c t rest N; [reflexivity|]. destruct t as [|x t]; cbn [app prefix].
  - destruct (Z.eqb_spec a c) as [->|]; [exfalso; apply N; left; auto|reflexivity].
  - rewrite IH; auto. intros X. apply N. right. auto.
Qed.

Lemma prefix_length : forall w s, prefix w s = true -> (List.length w <= List.length s)%nat.
Proof.
  intros w s H. apply prefix_firstn in H. rewrite <- H. rewrite firstn_length. lia.
Qed.

Lemma replace_from_app : forall w v c rest, w <> [] -> ~ In c w -> forall t skip, (skip <= List.length t)%nat ->
  replace_from w v (t ++ c :: rest) skip = replace_from w v t skip ++ c :: replace_from w v rest 0.
Proof.
  intros w v c rest W N. induction t as [|x t IH]; intros skip L.
  - cbn [List.length] in L. assert (skip = 0%nat) by lia. subst. cbn [app]. cbn [replace_from].
    pose proof (prefix_app w c [] rest N) as P. cbn [app] in P. rewrite P. destruct w; [congruence|reflexivity].
  - destruct skip as [|k].
    + change ((x :: t) ++ c :: rest) with (x :: (t ++ c :: rest)). cbn [replace_from].
      pose proof (prefix_app w c (x :: t) rest N) as P. cbn [app] in P. rewrite P.
      destruct (prefix w (x :: t)) eqn:E.
      * rewrite <- app_assoc. f_equal. apply IH. apply prefix_length in E. cbn [List.length] in E. lia.
      * cbn [app]. f_equal. apply IH. lia.
    + cbn [app replace_from]. apply IH. cbn [List.length] in L. lia.
Qed.

Lemma replace_app : forall w v t c rest, w <> [] -> ~ In c w ->
  replace w v (t ++ c :: rest) = replace w v t ++ c :: replace w v rest.
Proof. intros. unfold replace. apply replace_from_app; auto. lia. Qed.

(** A prefix without characters of w stays. *)
Lemma replace_sep : forall w v sep rest, w <> [] -> (forall c, In c sep -> ~ In c w) ->
  replace w v (sep ++ rest) = sep ++ replace w v rest.
Proof.
  intros w v. induction sep as [|c sep IH]; intros rest W N; [reflexivity|]. cbn [app].
  pose proof (replace_app w v [] c (sep ++ rest) W (N c (or_introl eq_refl))) as R. cbn [app] in R. rewrite R.
  cbn [app]. unfold replace at 1. cbn [replace_from app]. f_equal. apply IH; auto. intros; apply N; right; auto.
Qed.

(** ** Expressions *)

(** The model's words and characters are the documented ones. *)
Lemma words_are : words = allowed_words. Proof. reflexivity. Qed.

Lemma symbols_are : forall c, In c symbols <-> In c allowedchars.
Proof.
  assert (A : forallb (fun c => existsb (Z.eqb c) allowedchars) symbols = true) by (vm_compute; reflexivity).
  assert (B : forallb (fun c => existsb (Z.eqb c) symbols) allowedchars = true) by (vm_compute; reflexivity).
  rewrite forallb_forall in A, B. intros c. split; intros H; [apply A in H|apply B in H];
    apply existsb_exists in H; destruct H as (d & Hd & E); apply Z.eqb_eq in E; subst; exact Hd.
Qed.

Lemma blank_is : forall c, blank c <-> is_space c = true.
Proof. intros c. unfold blank, is_space. cbn [In]. lia. Qed.

Lemma symbol_is : forall c, symbol c <-> In c allowedchars \/ is_space c = true.
Proof. intros c. unfold symbol. rewrite symbols_are, blank_is. reflexivity. Qed.

Lemma replace_render : forall w v tr last ps, w <> [] -> (forall c, In c last -> ~ In c w) ->
  (forall sep u, In (sep, u) ps -> forall c, In c sep -> ~ In c w) -> spaced ps ->
  replace w v (render tr ps last) = render (fun u => replace w v (tr u)) ps last.
Proof.
  intros w v tr last. induction ps as [|[sep u] ps IH]; intros W L F Sp; cbn [render].
  - pose proof (replace_sep w v last [] W L) as R. rewrite !app_nil_r in R. exact R.
  - rewrite replace_sep; auto; [|apply (F sep u); left; auto]. f_equal.
    assert (Sp' : spaced ps). { intros s w' H. apply (Sp s w'). cbn [tl]. destruct ps; [destruct H|right; auto]. }
    specialize (IH W L (fun s w' H => F s w' (or_intror H)) Sp').
    destruct ps as [|[sep' u'] ps].
    + cbn [render] in *. destruct last as [|c last]; [rewrite !app_nil_r; reflexivity|].
      rewrite replace_app; auto; [|apply L; left; auto]. f_equal. f_equal.
      pose proof (replace_sep w v last [] W (fun d H => L d (or_intror H))) as R. rewrite !app_nil_r in R. exact R.
    + destruct sep' as [|c sep'].
      { exfalso. apply (Sp [] u'); [left; auto|reflexivity]. }
      assert (Nc : ~ In c w) by (apply (F (c :: sep') u'); [right; left; auto|left; auto]).
      cbn [render] in *. cbn [app] in *. rewrite replace_app; auto. f_equal.
      pose proof (replace_app w v [] c (sep' ++ tr u' ++ render tr ps last) W Nc) as R. cbn [app] in R.
      rewrite R in IH. unfold replace at 1 in IH. cbn [replace_from app] in IH. exact IH.
Qed.

Lemma render_ext : forall tr tr' last ps, (forall sep w, In (sep, w) ps -> tr w = tr' w) -> render tr ps last = render tr' ps last.
Proof.
  intros tr tr' last. induction ps as [|[sep w] ps IH]; intros H; cbn [render]; auto.
  rewrite (H sep w) by (left; auto). rewrite IH; auto. intros; eapply H; right; eauto.
Qed.

Definition letter_b (c : Z) : bool := (97 <=? c) && (c <=? 122).

Lemma words_letters : forall w c, In w allowed_words -> In c w -> letter_b c = true.
Proof.
  intros w c Hw Hc.
  assert (A : forallb (fun w => forallb letter_b w) allowed_words = true) by (vm_compute; reflexivity).
  rewrite forallb_forall in A. specialize (A w Hw). rewrite forallb_forall in A. auto.
Qed.

Lemma symbol_not_letter : forall c, symbol c -> letter_b c = false.
Proof.
  intros c S. apply symbol_is in S. destruct S as [H|H].
  - assert (A : forallb (fun c => negb (letter_b c)) allowedchars = true) by (vm_compute; reflexivity).
    rewrite forallb_forall in A. specialize (A c H). destruct (letter_b c); auto.
  - unfold is_space, letter_b in *. lia.
Qed.

Lemma symbol_not_in : forall c w, symbol c -> In w allowed_words -> ~ In c w.
Proof. intros c w S W H. apply symbol_not_letter in S. rewrite (words_letters w c W H) in S. discriminate. Qed.

Lemma replace_expression : forall w v tr ps last, In w allowed_words -> expression ps last ->
  replace w v (render tr ps last) = render (fun u => replace w v (tr u)) ps last.
Proof.
  intros w v tr ps last W (P & Sp & L). apply replace_render; auto.
  - intros ->. vm_compute in W. repeat (destruct W as [W|W]; [discriminate|]). destruct W.
  - intros c Hc. apply symbol_not_in; auto.
  - intros sep u H c Hc. apply symbol_not_in; auto. eapply P; eauto.
Qed.

Lemma replace_single : forall c s, replace [c] [] s = filter (fun d => negb (c =? d)) s.
Proof.
  intros c s. unfold replace. induction s as [|d s IH]; [reflexivity|]. cbn [replace_from filter].
  cbn [prefix List.length Nat.pred]. rewrite andb_true_r. destruct (c =? d); cbn [negb app]; rewrite IH; reflexivity.
Qed.

Lemma in_fold_single : forall l s d, In d (fold_left (fun s c => replace [c] [] s) l s) -> In d s /\ ~ In d l.
Proof.
  induction l as [|c l IH]; intros s d H; cbn [fold_left] in H; [auto|].
  apply IH in H. destruct H as (H & N). rewrite replace_single in H. apply filter_In in H. destruct H as (H & E).
  split; auto. intros [<-|X]; [|auto]. rewrite Z.eqb_refl in E. discriminate.
Qed.

Lemma render_nil_in : forall tr last ps c, (forall sep w, In (sep, w) ps -> tr w = []) ->
  In c (render tr ps last) -> In c last \/ exists sep w, In (sep, w) ps /\ In c sep.
Proof.
  intros tr last. induction ps as [|[sep w] ps IH]; intros c T H; cbn [render] in H; auto.
  rewrite (T sep w) in H by (left; auto). cbn [app] in H. apply in_app_or in H. destruct H as [H|H].
  - right. exists sep, w. split; auto. left. auto.
  - destruct (IH c (fun s u X => T s u (or_intror X)) H) as [X|(s & u & X & Y)]; auto. right. exists s, u. split; auto. right. auto.
Qed.

Theorem check_accepts : forall ps last, expression ps last -> check_filter (render (fun w => w) ps last) = Ok tt.
Proof.
  intros ps last E. unfold check_filter.
  replace (fold_left (fun s w => replace w [] s) allowed_words (render (fun w => w) ps last))
    with (render (fun u => fold_left (fun s w => replace w [] s) allowed_words u) ps last).
  2:{ assert (G : forall l tr, (forall w, In w l -> In w allowed_words) ->
        render (fun u => fold_left (fun s w => replace w [] s) l (tr u)) ps last =
        fold_left (fun s w => replace w [] s) l (render tr ps last)).
      { induction l as [|w l IH]; intros tr I; cbn [fold_left]; [reflexivity|].
        rewrite replace_expression by (auto; apply I; left; auto). apply (IH (fun u => replace w [] (tr u))).
        intros; apply I; right; auto. }
      apply (G allowed_words (fun u => u)). auto. }
  destruct E as (P & Sp & L).
  assert (T : forall w, In w allowed_words -> fold_left (fun s w => replace w [] s) allowed_words w = []).
  { intros w W. assert (A : forallb (fun w => match fold_left (fun s w => replace w [] s) allowed_words w with [] => true | _ => false end) allowed_words = true)
      by (vm_compute; reflexivity).
    rewrite forallb_forall in A. specialize (A w W). destruct (fold_left _ _ w); auto. discriminate. }
  assert (ST : strip (fold_left (fun s c => replace [c] [] s) allowedchars
     (render (fun u => fold_left (fun s w => replace w [] s) allowed_words u) ps last)) = []).
  { apply strip_nil. intros c Hc. apply in_fold_single in Hc. destruct Hc as (Hc & N).
    apply render_nil_in in Hc.
    - assert (S : symbol c). { destruct Hc as [H|(sep & w & H & H')]; auto. eapply P; eauto. }
      apply symbol_is in S. destruct S as [S|S]; [contradiction|exact S].
    - intros sep w H. apply T. eapply P; eauto. }
  rewrite ST. reflexivity.
Qed.

Theorem parse_expression : forall ps last, expression ps last -> render (fun w => w) ps last <> [] ->
  parse_filter (Some (render (fun w => w) ps last)) =
  Ok (Some (lit "lambda stats: " ++ render translate ps last)).
Proof.
  intros ps last E N. pose proof (check_accepts ps last E) as C. unfold parse_filter.
  destruct (render (fun w => w) ps last) as [|c0 s0] eqn:R; [congruence|].
  rewrite C. cbn [bind]. rewrite <- R.
  rewrite !replace_expression; auto; try (vm_compute; tauto).
  do 3 f_equal. apply render_ext. intros sep w H. destruct E as (P & _). destruct (P sep w H) as (W & _).
  vm_compute in W. repeat (destruct W as [<-|W]; [vm_compute; reflexivity|]). destruct W.
Qed.

(** ** Accepted although not an expression *)

Theorem reassembled_refuted : exists s, check_filter s = Ok tt /\
  ~ (exists ps last, expression ps last /\ s = render (fun w => w) ps last) /\
  parse_filter (Some s) = Ok (Some (lit "lambda stats: o" ++ entry "area" ++ lit "r")).
Proof.
  exists (lit "oarear"). split; [reflexivity|]. split; [|reflexivity].
  intros (ps & last & (P & Sp & L) & E).
  (* the first character is a letter, so the first separator is empty and a word starts with o *)
  assert (NS : forall c, In c (lit "oarear") -> letter_b c = true).
  { intros c Hc. assert (A : forallb letter_b (lit "oarear") = true) by reflexivity. rewrite forallb_forall in A. auto. }
  rewrite E in NS. destruct ps as [|[sep w] ps].
  - cbn [render] in *. subst last. specialize (L 111 (or_introl eq_refl)). apply symbol_not_letter in L. discriminate.
  - cbn [render] in *. destruct sep as [|c sep].
    + destruct (P [] w (or_introl eq_refl)) as (W & _). cbn [app] in E.
      vm_compute in W. repeat (destruct W as [<-|W]; [discriminate E|]). destruct W.
    + destruct (P _ _ (or_introl eq_refl)) as (_ & S). specialize (S c (or_introl eq_refl)).
      apply symbol_not_letter in S. rewrite NS in S; [discriminate|left; auto].
Qed.

Theorem parse_charset : forall s t, parse_filter (Some s) = Ok (Some t) ->
  forall c, In c s -> In c (List.concat allowed_words) \/ In c allowedchars \/ is_space c = true.
Proof.
  intros s t H. apply filter_charset. unfold parse_filter in H. destruct s as [|c s]; [discriminate H|].
  destruct (check_filter (c :: s)) as [[]|e|]; [reflexivity|discriminate H|discriminate H].
Qed.

Theorem charset : forall s, check_filter s = Ok tt -> forall c, In c s -> In c (List.concat words) \/ symbol c.
Proof. intros s H c Hc. rewrite words_are, symbol_is. destruct (filter_charset s H c Hc) as [X|[X|X]]; auto. Qed.

Theorem passed_charset : forall s t, parse_filter (Some s) = Ok (Some t) ->
  forall c, In c s -> In c (List.concat words) \/ symbol c.
Proof. intros s t H c Hc. rewrite words_are, symbol_is. destruct (parse_charset s t H c Hc) as [X|[X|X]]; auto. Qed.

Theorem ex_expression :
  let ps := [(lit "(", lit "area"); (lit " > 10.5) ", lit "and"); (lit " ", lit "maxdepth")] in
  let last := lit "<=3" in
  expression ps last /\ render (fun w => w) ps last = lit "(area > 10.5) and maxdepth<=3" /\
  render translate ps last = lit "(" ++ entry "area" ++ lit " > 10.5) and " ++ entry "max" ++ lit "<=3" /\
  check_filter (lit "import os") = Exc PlainException.
Proof.
  assert (D : forall s, forallb (fun c => existsb (Z.eqb c) allowedchars || is_space c) s = true -> forall c, In c s -> symbol c).
  { intros s H c Hc. rewrite forallb_forall in H. specialize (H c Hc). apply symbol_is. apply orb_true_iff in H. destruct H as [H|H]; [left|right; exact H].
    apply existsb_exists in H. destruct H as (d & Hd & E). apply Z.eqb_eq in E. subst. exact Hd. }
  cbn zeta. split; [|split; [reflexivity|split; reflexivity]].
  split; [|split].
  - intros sep w [E|[E|[E|[]]]]; injection E as <- <-; (split; [vm_compute; tauto|apply D; reflexivity]).
  - intros sep w [E|[E|[]]]; injection E as <- <-; discriminate.
  - apply D. reflexivity.
Qed.
