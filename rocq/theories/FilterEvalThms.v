(** * Filters mean what they say *)

From Coq Require Import Reals Lra String.
From Flocq Require Import Core.Core IEEE754.BinarySingleNaN.
From Verif Require Import Base BaseProofs Num Float64 BluespotModel FilterModel FilterSpec FilterThms FilterEvalModel FilterEvalSpec FilterNumbers.
Local Open Scope Z_scope.
Local Open Scope list_scope.

(** ** Words and signs as a type *)
Inductive tok := Op (a : operand) | Sg (o : operator) | Open | Close | AndW | OrW.
Definition spell (t : tok) : str :=
  match t with Op a => spelled a | Sg o => sign o | Open => lit "(" | Close => lit ")" | AndW => lit "and" | OrW => lit "or" end.
(** In the text handed to eval. *)
Definition tspell (t : tok) : str := match t with Op (Of p) => translate (name p) | _ => spell t end.

Inductive sp : nat -> formula -> list tok -> Prop :=
| s_compare : forall a rest, rest <> [] -> proper_row a rest -> sp 2 (Compare a rest) (Op a :: flat_map (fun p => [Sg (fst p); Op (snd p)]) rest)
| s_paren : forall f ts, sp 0 f ts -> sp 2 f (Open :: ts ++ [Close])
| s_and : forall f g ts us, sp 2 f ts -> sp 1 g us -> sp 1 (Both f g) (ts ++ AndW :: us)
| s_or : forall f g ts us, sp 1 f ts -> sp 0 g us -> sp 0 (Either f g) (ts ++ OrW :: us)
| s_up : forall k f ts, sp (S k) f ts -> sp k f ts.

Lemma spells_sp : forall k f ts, spells k f ts -> exists l, ts = map spell l /\ sp k f l.
Proof.
  intros k f ts H. induction H as [a rest N P|f ts H (l & -> & IH)|f g ts us H (l & -> & IH) H' (m & -> & IH')|f g ts us H (l & -> & IH) H' (m & -> & IH')|k f ts H (l & -> & IH)].
  - eexists. split; [|apply s_compare; assumption]. cbn [map spell]. f_equal. clear. induction rest as [|[o b] rest IH]; [reflexivity|].
    cbn [flat_map app map fst snd spell]. do 2 f_equal. exact IH.
  - eexists. split; [|apply s_paren; exact IH]. cbn [map]. rewrite map_app. reflexivity.
  - eexists. split; [|apply s_and; eassumption]. rewrite map_app. reflexivity.
  - eexists. split; [|apply s_or; eassumption]. rewrite map_app. reflexivity.
  - eexists. split; [reflexivity|]. apply s_up. exact IH.
Qed.

(** A sign is followed by an operand; operands are proper. *)
Fixpoint seq_ok (l : list tok) : Prop :=
  match l with
  | [] => True
  | Sg o :: t => (exists x t', t = Op x :: t') /\ seq_ok t
  | Op x :: t => proper x /\ seq_ok t
  | _ :: t => seq_ok t
  end.

Lemma seq_app : forall a b, seq_ok a -> seq_ok b -> seq_ok (a ++ b).
Proof.
  induction a as [|x a IH]; intros b A B; [exact B|]. cbn [app]. destruct x; cbn [seq_ok] in *; try (apply IH; assumption).
  - destruct A. auto.
  - destruct A as ((y & t & ->) & A). split; [|apply IH; assumption]. exists y, (t ++ b). reflexivity.
Qed.

Lemma proper_row_head : forall a rest, proper_row a rest -> proper a.
Proof. intros a [|[o b] t] H; cbn [proper_row] in H; apply H. Qed.

Lemma row_seq : forall rest a, proper_row a rest -> seq_ok (Op a :: flat_map (fun p => [Sg (fst p); Op (snd p)]) rest).
Proof.
  induction rest as [|[o b] rest IH]; intros a P.
  - cbn in *. exact P.
  - cbn [flat_map app fst snd seq_ok]. cbn [proper_row] in P. destruct P as (P & _ & P'). split; [exact P|]. split; [eauto|].
    apply IH in P'. exact P'.
Qed.

Lemma sp_seq : forall k f l, sp k f l -> seq_ok l.
Proof.
  intros k f l H. induction H as [a rest N P|f ts H IH|f g ts us H IH H' IH'|f g ts us H IH H' IH'|k f ts H IH].
  - apply row_seq. exact P.
  - cbn [seq_ok]. apply seq_app; [exact IH|exact I].
  - apply seq_app; [exact IH|exact IH'].
  - apply seq_app; [exact IH|exact IH'].
  - exact IH.
Qed.

Lemma sp_nonempty : forall k f l, sp k f l -> l <> [].
Proof. intros k f l H. induction H; try discriminate; auto; destruct ts; discriminate. Qed.

(** ** The text as words between symbols *)
Definition starts_gap (s : str) : Prop := exists c, hd_error s = Some c /\ (c = 32 \/ c = 9).

Inductive lays : list tok -> str -> Prop :=
| l_nil : forall b, gap b -> lays [] b
| l_cons : forall b t ts s, gap b -> lays ts s ->
    (forall u, hd_error ts = Some u -> wordy (spell t) -> wordy (spell u) -> starts_gap s) -> lays (t :: ts) (b ++ tspell t ++ s).

Lemma gap_symbol : forall b c, gap b -> In c b -> symbol c.
Proof. intros b c G H. right. unfold blank. destruct (G c H) as [->| ->]; cbn; auto 35. Qed.

Lemma digits_symbol : forall ds c, (forall d, In d ds -> 0 <= d <= 9) -> In c (digits ds) -> symbol c.
Proof.
  intros ds c D H. apply in_map_iff in H. destruct H as (d & <- & Hd). apply D in Hd. left.
  assert (X : d = 0 \/ d = 1 \/ d = 2 \/ d = 3 \/ d = 4 \/ d = 5 \/ d = 6 \/ d = 7 \/ d = 8 \/ d = 9) by lia.
  repeat (destruct X as [->|X]; [vm_compute; auto 30|]). subst. vm_compute. auto 30.
Qed.

Lemma tok_cases : forall t, seq_ok [t] \/ (exists o, t = Sg o) -> (In (spell t) words /\ tspell t = translate (spell t)) \/
  ((forall c, In c (spell t) -> symbol c) /\ tspell t = spell t).
Proof.
  intros t P. destruct t as [[p|ip fp]|o| | | |].
  - left. split; [|reflexivity]. destruct p; vm_compute; auto 10.
  - right. split; [|reflexivity]. destruct P as [P|(o & P)]; [|discriminate]. cbn [seq_ok] in P. destruct P as ((D & _) & _).
    cbn [spell spelled]. destruct fp as [fp|]; intros c Hc.
    + apply in_app_or in Hc. destruct Hc as [Hc|Hc]; [|apply in_app_or in Hc; destruct Hc as [Hc|Hc]].
      * eapply digits_symbol; [|exact Hc]. intros; apply D; apply in_or_app; auto.
      * destruct Hc as [<-|[]]. left. vm_compute. auto.
      * eapply digits_symbol; [|exact Hc]. intros; apply D; apply in_or_app; auto.
    + eapply digits_symbol; [|exact Hc]. intros; apply D; apply in_or_app; auto.
  - right. split; [|reflexivity]. intros c Hc. left. destruct o; vm_compute in Hc |- *; intuition auto 20.
  - right. split; [|reflexivity]. intros c [<-|[]]. left. vm_compute. auto.
  - right. split; [|reflexivity]. intros c [<-|[]]. left. vm_compute. auto.
  - left. split; vm_compute; auto 10.
  - left. split; vm_compute; auto 10.
Qed.

Lemma word_wordy : forall w, In w words -> wordy w /\ (forall c, hd_error w = Some c -> 97 <= c <= 122) /\ w <> [].
Proof.
  intros w W. vm_compute in W. repeat (destruct W as [<-|W]; [split; [eexists; split; [reflexivity|lia]|split; [intros c E; injection E as <-; lia|discriminate]]|]). destruct W.
Qed.

Lemma letter_not_symbol : forall c, 97 <= c <= 122 -> ~ symbol c.
Proof. intros c L S. apply symbol_not_letter in S. unfold letter_b in S. lia. Qed.

Lemma seq_head : forall t l, seq_ok (t :: l) -> (seq_ok [t] \/ exists o, t = Sg o) /\ seq_ok l.
Proof. intros t l H. destruct t; cbn [seq_ok] in *; destruct H || idtac; split; eauto; try (left; tauto). Qed.

Lemma layout : forall l s, laid_out (map spell l) s -> seq_ok l -> exists s' ps last,
  lays l s' /\ (starts_gap s -> starts_gap s') /\ expression ps last /\ s = render (fun w => w) ps last /\ s' = render translate ps last.
Proof.
  induction l as [|t l IH]; intros s H Q; cbn [map] in H; inversion H as [b G E1 E2|b t' ts s0 G H' C E1 E2]; subst.
  - exists s, [], s. split; [constructor; exact G|]. split; [auto|]. split; [|split; reflexivity].
    split; [intros ? ? []|]. split; [intros ? ? []|]. intros c Hc. eapply gap_symbol; eauto.
  - apply seq_head in Q. destruct Q as (Q1 & Q). destruct (IH s0 H' Q) as (s' & ps & last & L & SG & (X1 & X2 & X3) & E & E').
    assert (C' : forall u, hd_error l = Some u -> wordy (spell t) -> wordy (spell u) -> starts_gap s0).
    { intros u Hu Wt Wu. apply (C (spell u)); auto. destruct l; [discriminate|]. cbn in *. congruence. }
    assert (SG' : starts_gap (b ++ spell t ++ s0) -> starts_gap (b ++ tspell t ++ s')).
    { intros (c & Ec & Hc). destruct b as [|x b]; [|exists x; cbn in Ec |- *; split; congruence || auto; injection Ec as ->; auto].
      exfalso. cbn [app] in Ec. assert (N : spell t <> []).
      { destruct t as [[[]|ip [fp|]]|[]| | | |]; try discriminate; cbn [spell spelled].
        - destruct ip; discriminate.
        - destruct Q1 as [Q1|(o & Q1)]; [|discriminate]. destruct Q1 as ((_ & Q1 & _) & _). rewrite app_nil_r in Q1. destruct ip; [congruence|discriminate]. }
      destruct (spell t) as [|x w] eqn:Es; [congruence|]. cbn in Ec. injection Ec as ->.
      destruct (tok_cases t Q1) as [(W & _)|(W & _)].
      - rewrite Es in W. destruct (word_wordy _ W) as (_ & F & _). specialize (F c eq_refl). lia.
      - clear - Es Hc Q1. destruct t as [[[]|ip [fp|]]|[]| | | |]; cbn [spell spelled] in Es; try (vm_compute in Es; injection Es as <- <-; lia).
        + destruct Q1 as [Q1|(o & Q1)]; [|discriminate]. destruct Q1 as ((D & _) & _). destruct ip as [|d ip]; [vm_compute in Es; injection Es as <- <-; lia|].
          cbn [digits map app] in Es. apply (f_equal (hd 0)) in Es; cbn [hd] in Es. specialize (D d (or_introl eq_refl)). lia.
        + destruct Q1 as [Q1|(o & Q1)]; [|discriminate]. destruct Q1 as ((D & _) & _). destruct ip as [|d ip]; [discriminate|].
          cbn [digits map app] in Es. apply (f_equal (hd 0)) in Es; cbn [hd] in Es. specialize (D d (or_introl eq_refl)). lia. }
    destruct (tok_cases t Q1) as [(W & T)|(W & T)].
    + exists (b ++ tspell t ++ s'), ((b, spell t) :: ps), last. split; [constructor; auto; intros; apply SG; eauto|]. split; [exact SG'|].
      split; [|split; [cbn [render]; rewrite E; reflexivity|cbn [render]; rewrite T, E'; reflexivity]].
      split; [intros sep w [Ew|Hw]; [injection Ew as <- <-; split; [exact W|intros c Hc; eapply gap_symbol; eauto]|apply X1; exact Hw]|].
      split; [|exact X3]. cbn [tl]. intros sep w Hw Es. subst sep. destruct ps as [|[sep0 w0] ps]; [destruct Hw|].
      destruct Hw as [Ew|Hw]; [injection Ew as -> ->|apply (X2 [] w); [exact Hw|reflexivity]].
      destruct (X1 [] w (or_introl eq_refl)) as (Ww & _). destruct (word_wordy _ Ww) as (_ & F & N).
      destruct w as [|c w]; [congruence|]. specialize (F c eq_refl). cbn [render app] in E.
      (* s0 starts with a letter: so does the next word *)
      inversion H' as [b0 G0 Y1 Y2|b0 t0 ts0 s1 G0 H1 C1 Y1 Y2].
      * rewrite E in G0. specialize (G0 c (or_introl eq_refl)). lia.
      * destruct l as [|t1 l]; [discriminate|]. cbn [map] in Y1. injection Y1 as Y1 Y3.
        assert (b0 = []) as ->. { destruct b0 as [|x b0]; [reflexivity|]. rewrite E in Y2. cbn in Y2. injection Y2 as -> _. specialize (G0 c (or_introl eq_refl)). lia. }
        assert (Wt1 : wordy (spell t1)).
        { apply seq_head in Q. destruct Q as (Q2 & _). destruct (tok_cases t1 Q2) as [(W1 & _)|(W1 & _)]; [apply word_wordy; exact W1|].
          rewrite <- Y1 in W1. cbn [app] in Y2. rewrite E in Y2. destruct t0 as [|x t0].
          - exfalso. clear - Y1 Q2. destruct t1 as [[[]|ip [fp|]]|[]| | | |]; try discriminate; cbn [spell spelled] in Y1.
            + destruct ip; discriminate.
            + destruct Q2 as [Q1|(o & Q1)]; [|discriminate]. destruct Q1 as ((_ & Q1 & _) & _). rewrite app_nil_r in Q1. destruct ip; [congruence|discriminate].
          - cbn in Y2. injection Y2 as -> _. exfalso. apply (letter_not_symbol c F). apply W1. left. reflexivity. }
        destruct (C' t1 eq_refl (proj1 (word_wordy _ W)) Wt1) as (d & Ed & Hd). rewrite E in Ed. cbn in Ed. injection Ed as ->. lia.
    + assert (Lc : lays (t :: l) (b ++ tspell t ++ s')) by (constructor; auto; intros; apply SG; eauto).
      destruct ps as [|[sep w] ps].
      * exists (b ++ tspell t ++ s'), [], (b ++ spell t ++ last). cbn [render] in *. subst s0 s'. rewrite T in *. split; [exact Lc|]. split; [exact SG'|].
        split; [|split; reflexivity]. split; [intros ? ? []|]. split; [intros ? ? []|].
        intros c Hc. apply in_app_or in Hc. destruct Hc as [Hc|Hc]; [eapply gap_symbol; eauto|]. apply in_app_or in Hc. destruct Hc as [Hc|Hc]; auto.
      * exists (b ++ tspell t ++ s'), ((b ++ spell t ++ sep, w) :: ps), last. cbn [render] in *. subst s0 s'. split; [exact Lc|]. split; [exact SG'|].
        split; [|split; [rewrite <- !app_assoc; reflexivity|rewrite T, <- !app_assoc; reflexivity]].
        split; [intros sep' w' [Ew|Hw]; [injection Ew as <- <-|apply X1; right; exact Hw]|].
        { destruct (X1 sep w (or_introl eq_refl)) as (Ww & S). split; [exact Ww|]. intros c Hc. apply in_app_or in Hc.
          destruct Hc as [Hc|Hc]; [eapply gap_symbol; eauto|]. apply in_app_or in Hc. destruct Hc as [Hc|Hc]; auto. }
        split; [|exact X3]. intros sep' w' Hw. apply (X2 sep' w' Hw).
Qed.

(** ** Lexing *)
Definition L (s : str) (ts : list token) : Prop := forall n, (length s <= n)%nat -> lex n s = Ok ts.

Lemma L_nil : L [] [].
Proof. intros [|n] _; reflexivity. Qed.

Lemma L_gap : forall b s ts, gap b -> L s ts -> L (b ++ s) ts.
Proof.
  induction b as [|c b IH]; intros s ts G H; [exact H|]. intros n Hn. destruct n as [|n]; [cbn in Hn; lia|].
  cbn [app lex]. assert (is_gap c = true) as ->. { unfold is_gap. destruct (G c (or_introl eq_refl)); lia. }
  apply IH; [intros x Hx; apply G; right; exact Hx|exact H|cbn in Hn; lia].
Qed.

Lemma span_all : forall p w r, (forall c, In c w -> p c = true) -> (forall c, hd_error r = Some c -> p c = false) -> span p (w ++ r) = (w, r).
Proof.
  induction w as [|c w IH]; intros r W R.
  - destruct r as [|c r]; [reflexivity|]. cbn [app span]. rewrite (R c eq_refl). reflexivity.
  - cbn [app span]. rewrite (W c (or_introl eq_refl)), IH; [reflexivity| |exact R]. intros x Hx. apply W. right. exact Hx.
Qed.

Definition ends (s : str) : Prop := forall c, hd_error s = Some c -> is_letter c = false /\ is_digit c = false /\ c <> 46.

Lemma L_word : forall w s ts, w <> [] -> (forall c, In c w -> 97 <= c <= 122) -> ends s \/ hd_error s = Some 91 -> L s ts -> L (w ++ s) (TName w :: ts).
Proof.
  intros w s ts N W E H n Hn. destruct w as [|c w]; [congruence|]. destruct n as [|n]; [cbn in Hn; lia|].
  assert (Sp : span (fun c => is_letter c || is_digit c) (c :: w ++ s) = (c :: w, s)).
  { apply (span_all _ (c :: w) s).
    - intros x Hx. specialize (W x Hx). unfold is_letter. lia.
    - intros x Hx. destruct E as [E|E]; [destruct (E x Hx) as (-> & -> & _); reflexivity|]. rewrite E in Hx. injection Hx as <-. reflexivity. }
  cbn [app lex]. specialize (W c (or_introl eq_refl)).
  assert (is_gap c = false) as -> by (unfold is_gap; lia). assert (is_letter c = true) as -> by (unfold is_letter; lia).
  rewrite Sp. rewrite H; [reflexivity|]. cbn in Hn. rewrite app_length in Hn. lia.
Qed.

Lemma L_bracket : forall c s ts, In c [40; 41; 91; 93] -> L s ts -> L (c :: s) (TSym [c] :: ts).
Proof.
  intros c s ts C H n Hn. destruct n as [|n]; [cbn in Hn; lia|]. cbn [length] in Hn.
  repeat (destruct C as [<-|C]; [cbn [lex is_gap is_letter is_digit Z.eqb Z.leb Z.compare Pos.compare Pos.compare_cont Pos.eqb andb orb]; rewrite H by lia; reflexivity|]). destruct C.
Qed.

Lemma L_text : forall w s ts, ~ In 34 w -> L s ts -> L (34 :: w ++ 34 :: s) (TText w :: ts).
Proof.
  intros w s ts W H n Hn. destruct n as [|n]; [cbn in Hn; lia|]. cbn [length] in Hn. rewrite app_length in Hn. cbn [length] in Hn.
  cbn [lex is_gap is_letter is_digit Z.eqb Z.leb Z.compare Pos.compare Pos.compare_cont Pos.eqb andb orb].
  rewrite span_all.
  - rewrite H by lia. reflexivity.
  - intros c Hc. destruct (Z.eqb_spec c 34) as [->|]; [contradiction|reflexivity].
  - intros c Hc. injection Hc as <-. reflexivity.
Qed.

Lemma L_sign : forall o s ts c, hd_error s = Some c -> c <> 60 -> c <> 61 -> c <> 62 -> L s ts -> L (sign o ++ s) (TSym (sign o) :: ts).
Proof.
  intros o s ts c E N1 N2 N3 H n Hn. destruct s as [|d s]; [discriminate|]. injection E as ->. destruct n as [|n]; [destruct o; cbn in Hn; lia|].
  assert (B1 : (c =? 60) = false) by lia. assert (B2 : (c =? 62) = false) by lia.
  assert (T : forall A (x : str -> A) (y : A), (match c with 61 => x s | _ => y end) = y).
  { intros A x y. destruct c as [|p|p]; try reflexivity. do 6 (destruct p as [p|p|]; try reflexivity). congruence. }
  assert (LE : lex n (c :: s) = Ok ts) by (apply H; destruct o; cbn [sign lit app length] in *; lia).
  destruct o; cbn [sign lit app length] in *; cbn.
  - rewrite B1, B2. cbn [orb]. rewrite LE. destruct c as [|p|p]; try reflexivity. do 6 (destruct p as [p|p|]; try reflexivity). congruence.
  - rewrite H by (cbn [length]; lia). reflexivity.
  - rewrite B1, B2. cbn [orb]. rewrite LE. destruct c as [|p|p]; try reflexivity. do 6 (destruct p as [p|p|]; try reflexivity). congruence.
  - rewrite H by (cbn [length]; lia). reflexivity.
  - rewrite H by (cbn [length]; lia). reflexivity.
  - rewrite H by (cbn [length]; lia). reflexivity.
Qed.

Definition literal (ip fp : list Z) : b64 := match fp with [] => float_literal (digits ip) [48] | _ => float_literal (digits ip) (digits fp) end.
Definition lx (t : tok) : list token :=
  match t with
  | Op (Of p) => [TName (lit "stats"); TSym [91]; TText (match p with Area => lit "area" | Maxdepth => lit "max" | Volume => lit "volume" end); TSym [93]]
  | Op (Number ip None) => [TInt (natural ip)]
  | Op (Number ip (Some fp)) => [TFloat (literal ip fp)]
  | Sg o => [TSym (sign o)] | Open => [TSym [40]] | Close => [TSym [41]] | AndW => [TName (lit "and")] | OrW => [TName (lit "or")]
  end.

Lemma digits_digit : forall ds, (forall d, In d ds -> 0 <= d <= 9) -> forall c, In c (digits ds) -> is_digit c = true.
Proof. intros ds D c Hc. apply in_map_iff in Hc. destruct Hc as (d & <- & Hd). apply D in Hd. unfold is_digit. lia. Qed.

Lemma number_int : forall ip s, proper (Number ip None) -> ends s -> number (digits ip ++ s) = Ok (TInt (natural ip), s).
Proof.
  intros ip s (D & NE & _ & Z0) E. rewrite app_nil_r in D, NE. unfold number. rewrite span_all.
  - assert (G : goes_on s = false).
    { destruct s as [|c s]; [reflexivity|]. destruct (E c eq_refl) as (A & B & C). unfold goes_on. rewrite A, B. cbn. lia. }
    assert (X : forall A (x : str -> A) (y : A), (match s with 46 :: r => x r | _ => y end) = y).
    { intros A x y. destruct s as [|c s]; [reflexivity|]. destruct (E c eq_refl) as (_ & _ & C).
      destruct c as [|p|p]; try reflexivity. do 6 (destruct p as [p|p|]; try reflexivity). congruence. }
    rewrite X, G. rewrite <- (dec_digits ip). destruct ip as [|d ip]; [congruence|]. cbn [digits map]. change (map (Z.add 48) ip) with (digits ip).
    destruct (Z.eq_dec d 0) as [->|Nd].
    + destruct (proj1 (Z0 eq_refl)) as [Z1|Z1]; [injection Z1 as ->; reflexivity|cbn in Z1; congruence].
    + specialize (D d (or_introl eq_refl)). assert (48 + d <> 48) by lia. generalize dependent (48 + d). intros c Hc. clear - Hc.
      destruct c as [|p|p]; try reflexivity. do 6 (destruct p as [p|p|]; try reflexivity). congruence.
  - apply digits_digit. exact D.
  - intros c Hc. apply E in Hc. tauto.
Qed.

Lemma number_float : forall ip fp s, proper (Number ip (Some fp)) -> ends s -> number (digits ip ++ 46 :: digits fp ++ s) = Ok (TFloat (literal ip fp), s).
Proof.
  intros ip fp s (D & NE & _) E. unfold number. rewrite span_all.
  - rewrite span_all.
    + assert (G : goes_on s = false).
      { destruct s as [|c s]; [reflexivity|]. destruct (E c eq_refl) as (A & B & C). unfold goes_on. rewrite A, B. cbn. lia. }
      rewrite <- digits_app. destruct (ip ++ fp) as [|d t] eqn:EA; [congruence|]. cbn [digits map]. rewrite G.
      unfold literal. destruct fp; reflexivity.
    + apply digits_digit. intros d Hd. apply D. apply in_or_app. auto.
    + intros c Hc. apply E in Hc. tauto.
  - apply digits_digit. intros d Hd. apply D. apply in_or_app. auto.
  - intros c Hc. injection Hc as <-. reflexivity.
Qed.

Lemma L_number : forall s w k ts, number (w ++ s) = Ok (k, s) -> (exists c w', w = c :: w' /\ (is_digit c = true \/ c = 46)) -> L s ts -> L (w ++ s) (k :: ts).
Proof.
  intros s w k ts N (c & w' & -> & C) H n Hn. destruct n as [|n]; [cbn in Hn; lia|]. cbn [app lex].
  assert (is_gap c = false) as -> by (unfold is_gap, is_digit in *; lia). assert (is_letter c = false) as -> by (unfold is_letter, is_digit in *; lia).
  assert (is_digit c || (c =? 46) = true) as -> by lia. cbn [app] in N. rewrite N. cbn [bind]. rewrite H; [reflexivity|].
  cbn [app length] in Hn. rewrite app_length in Hn. lia.
Qed.

(** The first character of an operand. *)
Lemma operand_head : forall x, proper x -> exists c w, tspell (Op x) = c :: w /\ (97 <= c <= 122 \/ is_digit c = true \/ c = 46) /\ (is_number x -> is_digit c = true \/ c = 46).
Proof.
  intros [p|ip [fp|]] P.
  - exists 115. destruct p; (eexists; split; [vm_compute; reflexivity|]; split; [lia|intros []]).
  - destruct P as (D & _). destruct ip as [|d ip].
    + exists 46. eexists. split; [reflexivity|]. auto.
    + exists (48 + d). eexists. split; [reflexivity|]. specialize (D d (or_introl eq_refl)). assert (is_digit (48 + d) = true) by (unfold is_digit; lia). auto.
  - destruct P as (D & NE & _). rewrite app_nil_r in *. destruct ip as [|d ip]; [congruence|].
    exists (48 + d). eexists. split; [reflexivity|]. specialize (D d (or_introl eq_refl)). assert (is_digit (48 + d) = true) by (unfold is_digit; lia). auto.
Qed.

Lemma wordy_op : forall x, proper x -> wordy (spell (Op x)).
Proof.
  intros x P. destruct (operand_head x P) as (c & w & E & C & Cn). destruct x as [p|ip fp].
  - destruct p; (eexists; split; [reflexivity|left; vm_compute; split; discriminate]).
  - exists c. change (spell (Op (Number ip fp))) with (tspell (Op (Number ip fp))). rewrite E. split; [reflexivity|].
    destruct (Cn I) as [X|X]; unfold is_digit in *; lia.
Qed.

Lemma gap_ends : forall b s c, gap b -> hd_error (b ++ s) = Some c -> (c = 32 \/ c = 9) \/ b = [] /\ hd_error s = Some c.
Proof. intros [|x b] s c G H; [auto|]. cbn in H. injection H as ->. left. apply G. left. reflexivity. Qed.

(** After a word comes a blank, a sign or the end. *)
Lemma after_word : forall t ts s, seq_ok (t :: ts) -> lays ts s ->
  (forall u, hd_error ts = Some u -> wordy (spell t) -> wordy (spell u) -> starts_gap s) -> wordy (spell t) -> ends s.
Proof.
  intros t ts s Q H C W c Hc. apply seq_head in Q. destruct Q as (_ & Q).
  assert (Blank : c = 32 \/ c = 9 -> is_letter c = false /\ is_digit c = false /\ c <> 46) by (intros [->| ->]; repeat split; congruence || reflexivity).
  destruct H as [b G|b u ts s G H C'].
  - apply Blank. apply G. destruct b; [discriminate|]. injection Hc as ->. left. reflexivity.
  - assert (SG : wordy (spell u) -> c = 32 \/ c = 9).
    { intros Wu. destruct (C u eq_refl W Wu) as (d & Ed & Hd). rewrite Hc in Ed. injection Ed as ->. exact Hd. }
    destruct (gap_ends _ _ _ G Hc) as [X|(-> & X)]; [auto|].
    destruct u as [x|o| | | |].
    + apply Blank, SG, wordy_op. cbn in Q. tauto.
    + destruct o; vm_compute in X; injection X as <-; repeat split; congruence || reflexivity.
    + injection X as <-; repeat split; congruence || reflexivity.
    + injection X as <-; repeat split; congruence || reflexivity.
    + apply Blank, SG. eexists. split; [reflexivity|left; vm_compute; split; discriminate].
    + apply Blank, SG. eexists. split; [reflexivity|left; vm_compute; split; discriminate].
Qed.

Lemma L_entry : forall w s ts, (forall c, In c w -> 97 <= c <= 122) -> L s ts ->
  L (lit "stats" ++ 91 :: 34 :: w ++ 34 :: 93 :: s) (TName (lit "stats") :: TSym [91] :: TText w :: TSym [93] :: ts).
Proof.
  intros w s ts W H. apply L_word; [discriminate| |right; reflexivity|].
  - intros c Hc. vm_compute in Hc. intuition lia.
  - apply L_bracket; [right; right; left; reflexivity|]. apply (L_text w (93 :: s)); [intros X; apply W in X; lia|].
    apply L_bracket; [right; right; right; left; reflexivity|exact H].
Qed.

Lemma lays_lex : forall l s, lays l s -> seq_ok l -> L s (flat_map lx l).
Proof.
  intros l s H. induction H as [b G|b t ts s G H IH C]; intros Q.
  - rewrite <- (app_nil_r b). apply L_gap; [exact G|exact L_nil].
  - apply L_gap; [exact G|]. pose proof (seq_head _ _ Q) as (_ & Q'). specialize (IH Q'). cbn [flat_map].
    destruct t as [[p|ip [fp|]]|o| | | |].
    + destruct p; cbn [lx app].
      * change (tspell (Op (Of Area)) ++ s) with (lit "stats" ++ 91 :: 34 :: lit "area" ++ 34 :: 93 :: s). apply L_entry; [|exact IH]. intros c Hc. vm_compute in Hc. intuition lia.
      * change (tspell (Op (Of Maxdepth)) ++ s) with (lit "stats" ++ 91 :: 34 :: lit "max" ++ 34 :: 93 :: s). apply L_entry; [|exact IH]. intros c Hc. vm_compute in Hc. intuition lia.
      * change (tspell (Op (Of Volume)) ++ s) with (lit "stats" ++ 91 :: 34 :: lit "volume" ++ 34 :: 93 :: s). apply L_entry; [|exact IH]. intros c Hc. vm_compute in Hc. intuition lia.
    + assert (P : proper (Number ip (Some fp))) by (cbn [seq_ok] in Q; exact (proj1 Q)).
      apply L_number; [|destruct (operand_head _ P) as (c & w & E & _ & X); exists c, w; split; [exact E|apply X; exact I]|exact IH].
      cbn [tspell spell spelled]. rewrite <- !app_assoc. apply number_float; [exact P|].
      eapply after_word; [exact Q|exact H|exact C|]. apply wordy_op. exact P.
    + assert (P : proper (Number ip None)) by (cbn [seq_ok] in Q; exact (proj1 Q)).
      apply L_number; [|destruct (operand_head _ P) as (c & w & E & _ & X); exists c, w; split; [exact E|apply X; exact I]|exact IH].
      cbn [tspell spell spelled]. apply number_int; [exact P|].
      eapply after_word; [exact Q|exact H|exact C|]. apply wordy_op. exact P.
    + cbn [lx app tspell spell]. cbn [seq_ok] in Q. destruct Q as ((x & ts' & ->) & Q). inversion H as [|b' t' ts2 s' G' H' C' E1 E2]; subst.
      cbn [seq_ok] in Q. destruct (operand_head x (proj1 Q)) as (c & w & E & X & _).
      destruct b' as [|c' b'].
      * rewrite E in *. cbn [app] in *. apply (L_sign o _ _ c); [reflexivity| | | |exact IH]; unfold is_digit in X; lia.
      * pose proof (G' c' (or_introl eq_refl)). apply (L_sign o _ _ c'); [reflexivity| | | |exact IH]; lia.
    + apply L_bracket; [left; reflexivity|exact IH].
    + apply L_bracket; [right; left; reflexivity|exact IH].
    + apply (L_word (lit "and")); [discriminate| | |exact IH].
      * intros c Hc. vm_compute in Hc. intuition lia.
      * left. eapply after_word; [exact Q|exact H|exact C|]. eexists. split; [reflexivity|left; vm_compute; split; discriminate].
    + apply (L_word (lit "or")); [discriminate| | |exact IH].
      * intros c Hc. vm_compute in Hc. intuition lia.
      * left. eapply after_word; [exact Q|exact H|exact C|]. eexists. split; [reflexivity|left; vm_compute; split; discriminate].
Qed.

(** ** Parsing *)
Definition co (o : operator) : cmp := match o with Less => Lt | AtMost => Le | Greater => Gt | AtLeast => Ge | Equal => Eq | Unequal => Ne end.
Definition exo (a : operand) : expr :=
  match a with
  | Of Area => EStats KArea | Of Maxdepth => EStats KMax | Of Volume => EStats KVolume
  | Number ip None => EInt (natural ip) | Number ip (Some fp) => EFloat (literal ip fp)
  end.
Fixpoint ex (f : formula) : expr :=
  match f with
  | Compare a rest => ECompare (exo a) (map (fun p => (co (fst p), exo (snd p))) rest)
  | Both f g => EAnd (ex f) (ex g)
  | Either f g => EOr (ex f) (ex g)
  end.

Lemma p_operand : forall a n r, (1 <= n)%nat -> p_atom n (lx (Op a) ++ r) = Ok (exo a, r).
Proof. intros a [|n] r H; [lia|]. destruct a as [[]|ip [fp|]]; reflexivity. Qed.

Lemma sp_level : forall k f l, sp k f l -> (k <= 2)%nat.
Proof. intros k f l H. induction H; lia. Qed.

(** What may follow an expression of level k. *)
Definition stop (k : nat) (ts : list token) : Prop :=
  ts = [] \/ (exists r, ts = TSym [41] :: r) \/ ((1 <= k)%nat /\ exists r, ts = TName (lit "or") :: r) \/ ((2 <= k)%nat /\ exists r, ts = TName (lit "and") :: r).

Lemma stop_up : forall k ts, stop k ts -> stop (S k) ts.
Proof. intros k ts [H|[H|[(L & H)|(L & H)]]]; unfold stop; auto 6. Qed.

Lemma chain_stops : forall n r, (1 <= n)%nat -> stop 2 r -> p_chain n r = Ok ([], r).
Proof. intros [|n] r H [->|[(x & ->)|[(_ & x & ->)|(_ & x & ->)]]]; try lia; reflexivity. Qed.

Lemma p_row : forall rest n r, (length rest + 2 <= n)%nat -> stop 2 r ->
  p_chain n (flat_map lx (flat_map (fun p => [Sg (fst p); Op (snd p)]) rest) ++ r) = Ok (map (fun p => (co (fst p), exo (snd p))) rest, r).
Proof.
  induction rest as [|[o b] rest IH]; intros n r H St.
  - cbn. apply chain_stops; [cbn in H; lia|exact St].
  - destruct n as [|n]; [cbn in H; lia|]. cbn [length] in H. cbn [flat_map app fst snd map].
    change (lx (Sg o)) with [TSym (sign o)]. cbn [app p_chain]. assert (cmp_of (sign o) = Some (co o)) as -> by (destruct o; reflexivity).
    rewrite <- app_assoc. rewrite p_operand by lia. cbn [bind]. rewrite IH by (auto; lia). reflexivity.
Qed.

Definition pk (k : nat) : nat -> list token -> res (expr * list token) := match k with O => p_or | 1%nat => p_and | _ => p_cmp end.

Lemma parses : forall k f l, sp k f l -> forall n r, (5 * length l + (3 - k) <= n)%nat -> stop k r -> pk k n (flat_map lx l ++ r) = Ok (ex f, r).
Proof.
  intros k f l H. induction H as [a rest N P|f ts H IH|f g ts us H IH H' IH'|f g ts us H IH H' IH'|k f ts H IH]; intros n r Hn St.
  - cbn [length] in Hn. assert (length rest <= length (flat_map (fun p : operator * operand => [Sg (fst p); Op (snd p)]) rest))%nat.
    { clear. induction rest; cbn in *; lia. }
    destruct n as [|n]; [lia|]. cbn [flat_map pk p_cmp]. rewrite <- app_assoc. rewrite p_operand by lia. cbn [bind].
    rewrite p_row by (auto; lia). cbn [bind ex]. destruct rest as [|p rest]; [congruence|]. reflexivity.
  - cbn [length] in Hn. rewrite app_length in Hn. cbn [length] in Hn. destruct n as [|[|n]]; [lia|lia|].
    cbn [flat_map pk]. rewrite flat_map_app. cbn [p_cmp lx app]. cbn [p_atom].
    replace ((flat_map lx ts ++ flat_map lx [Close]) ++ r) with (flat_map lx ts ++ TSym [41] :: r) by (rewrite <- app_assoc; reflexivity).
    change p_or with (pk 0). rewrite IH; [|lia|right; left; eauto]. cbn [bind]. rewrite chain_stops; [reflexivity|lia|exact St].
  - rewrite app_length in Hn. cbn [length] in Hn. destruct n as [|n]; [lia|]. rewrite flat_map_app. cbn [flat_map]. rewrite <- !app_assoc. cbn [pk p_and].
    change p_cmp with (pk 2). rewrite IH; [|lia|right; right; right; split; [lia|eexists; reflexivity]]. cbn [bind lx app].
    change (str_eqb (lit "and") (lit "and")) with true. cbn iota. change p_and with (pk 1). rewrite IH' by (auto; lia). reflexivity.
  - rewrite app_length in Hn. cbn [length] in Hn. destruct n as [|n]; [lia|]. rewrite flat_map_app. cbn [flat_map]. rewrite <- !app_assoc. cbn [pk p_or].
    change p_and with (pk 1). rewrite IH; [|lia|right; right; left; split; [lia|eexists; reflexivity]]. cbn [bind lx app].
    change (str_eqb (lit "or") (lit "or")) with true. cbn iota. change p_or with (pk 0). rewrite IH' by (auto; lia). reflexivity.
  - apply sp_level in H. destruct n as [|n]; [lia|]. destruct k as [|[|k]]; [| |lia].
    + cbn [pk p_or]. change p_and with (pk 1). rewrite IH; [|lia|apply stop_up; exact St]. cbn [bind].
      destruct St as [->|[(x & ->)|[(X & _)|(X & _)]]]; [reflexivity|reflexivity|lia|lia].
    + cbn [pk p_and]. change p_cmp with (pk 2). rewrite IH; [|lia|apply stop_up; exact St]. cbn [bind].
      destruct St as [->|[(x & ->)|[(_ & x & ->)|(X & _)]]]; [reflexivity|reflexivity|reflexivity|lia].
Qed.

(** ** Meaning *)
Lemma decimal_point : forall ip, decimal ip (Some []) = decimal ip (Some [0]).
Proof. intros ip. unfold decimal. cbn. lra. Qed.

Lemma denotes_value : forall st a, proper a -> denotes st a (f_of (value st (exo a))).
Proof.
  intros st [[]|ip [fp|]] P; try reflexivity.
  - destruct P as (D & _ & B & _). cbn [exo value f_of denotes]. unfold literal. destruct fp as [|d fp].
    + rewrite decimal_point in *. change [48] with (digits [0]). apply closest_literal; [|discriminate|exact B].
      intros d Hd. apply in_app_or in Hd. destruct Hd as [Hd|[<-|[]]]; [|lia]. apply D. apply in_or_app. auto.
    + apply closest_literal; [exact D|discriminate|exact B].
  - destruct P as (D & _ & B & _). rewrite app_nil_r in D. cbn [exo value f_of denotes decimal] in *. apply closest_int; [apply natural_pos; exact D|exact B].
Qed.

Lemma denotes_unique : forall st a x y, denotes st a x -> denotes st a y -> x = y \/ exists s s', x = B754_zero s /\ y = B754_zero s'.
Proof.
  intros st [[]|ip fp] x y X Y; cbn [denotes] in *; try (left; congruence).
  destruct X as (Fx & X), Y as (Fy & Y). apply same_value; [exact Fx|exact Fy|congruence].
Qed.

Lemma compare_means : forall st o a b, ~ (is_number a /\ is_number b) ->
  (compare (co o) (value st (exo a)) (value st (exo b)) = true <-> compares o (f_of (value st (exo a))) (f_of (value st (exo b)))).
Proof.
  intros st o a b N.
  assert (E : z_of (value st (exo a)) = None \/ z_of (value st (exo b)) = None).
  { destruct a as [[]|ip fp]; [left; reflexivity..|]. destruct b as [[]|jp gp]; [right; reflexivity..|]. exfalso. apply N. split; exact I. }
  unfold compare. generalize (value st (exo a)) (value st (exo b)) E. intros x y E'.
  assert (F : forall p q : bool, (match z_of x, z_of y with Some _, Some _ => p | _, _ => q end) = q) by (intros; destruct E' as [-> | ->]; [reflexivity|destruct (z_of x); reflexivity]).
  destruct E' as [Ex|Ey]; [rewrite Ex|rewrite Ey; destruct (z_of x)];
    (destruct o; cbn [co compares]; unfold lt64, le64, eq64; try reflexivity; rewrite negb_true_iff; destruct (Beqb (f_of x) (f_of y)); intuition congruence).
Qed.

Lemma row_means : forall st rest a, proper_row a rest ->
  (((fix chain (x : pyval) (rest : list (cmp * expr)) : bool :=
       match rest with [] => true | (o, b) :: t => let y := value st b in compare o x y && chain y t end)
      (value st (exo a)) (map (fun p => (co (fst p), exo (snd p))) rest)) = true <-> in_a_row st a rest).
Proof.
  intros st. induction rest as [|[o b] rest IH]; intros a P; [split; auto; reflexivity|].
  cbn [map fst snd in_a_row]. cbv zeta. rewrite andb_true_iff. cbn [proper_row] in P. destruct P as (Pa & N & P).
  rewrite (IH b P), (compare_means st o a b N). pose proof (proper_row_head b rest P) as Pb.
  pose proof (denotes_value st a Pa) as Da. pose proof (denotes_value st b Pb) as Db.
  split; intros (H & T); (split; [|exact T]).
  - eauto.
  - destruct H as (x & y & Hx & Hy & C). eapply compares_same; [eapply denotes_unique; [exact Hx|exact Da]|eapply denotes_unique; [exact Hy|exact Db]|exact C].
Qed.

Lemma ex_means : forall k f l, sp k f l -> forall st, truth (value st (ex f)) = true <-> holds st f.
Proof.
  intros k f l H st. induction H as [a rest N P|f ts H IH|f g ts us H IH H' IH'|f g ts us H IH H' IH'|k f ts H IH]; auto.
  - cbn [ex value truth holds]. apply row_means. exact P.
  - cbn [ex value holds]. cbv zeta. rewrite <- IH, <- IH'. destruct (truth (value st (ex f))) eqn:E; [intuition|rewrite E; intuition congruence].
  - cbn [ex value holds]. cbv zeta. rewrite <- IH, <- IH'. destruct (truth (value st (ex f))) eqn:E; [rewrite E; intuition|intuition congruence].
Qed.

(** ** The filter function *)
Lemma lx_length : forall l, (length l <= length (flat_map lx l))%nat.
Proof. induction l as [|t l IH]; [apply le_n|]. cbn [flat_map]. rewrite app_length. destruct t as [[[]|ip [fp|]]|[]| | | |]; cbn [lx length]; lia. Qed.

Theorem filter_meaning : forall text f, means text f ->
  exists g, filter_function (Some text) = Ok g /\ forall st, g st = true <-> holds st f.
Proof.
  intros text f (ts & SpT & Lay). destruct (spells_sp _ _ _ SpT) as (l & -> & S). pose proof (sp_seq _ _ _ S) as Q.
  destruct (layout l text Lay Q) as (s' & ps & last & La & _ & E & -> & ->).
  exists (fun st => truth (value st (ex f))). split; [|intros st; eapply ex_means; exact S].
  unfold filter_function. rewrite parse_expression.
  - cbn [bind]. change (skipn (length (lit "lambda stats: ")) (lit "lambda stats: " ++ render translate ps last)) with (render translate ps last).
    rewrite (lays_lex _ _ La Q); [|apply le_n]. cbn [bind]. pose proof (lx_length l) as LL.
    pose proof (parses _ _ _ S (5 * length (flat_map lx l) + 5)%nat [] ltac:(lia) (or_introl eq_refl)) as P. rewrite app_nil_r in P. cbn [pk] in P.
    rewrite P. reflexivity.
  - exact E.
  - intros X. assert (Z : length (render (fun w => w) ps last) = 0%nat) by (rewrite X; reflexivity).
    destruct l as [|t l]; [exact (sp_nonempty _ _ _ S eq_refl)|]. cbn [map] in Lay. rewrite X in Lay. clear - Lay Q.
    apply seq_head in Q. destruct Q as (Q & _). inversion Lay as [|b t' ts' s G H C E1 E2].
    apply app_eq_nil in E2. destruct E2 as (_ & E2). apply app_eq_nil in E2. destruct E2 as (E2 & _). subst t'.
    destruct t as [[[]|ip [fp|]]|[]| | | |]; try discriminate; cbn [spell spelled] in E2.
    + destruct ip; discriminate.
    + destruct Q as [Q|(o & Q)]; [|discriminate]. destruct Q as ((_ & Q & _) & _). rewrite app_nil_r in Q. destruct ip; [congruence|discriminate].
Qed.

Theorem no_filter : forall st, exists g, filter_function None = Ok g /\ g st = true.
Proof. intros st. eexists. split; reflexivity. Qed.
