(** * What a filter selects *)

From Coq Require Import Reals Lra String.
From Flocq Require Import Core.Core IEEE754.BinarySingleNaN.
From Verif Require Import Base BaseProofs Num Float64 LabelModel LabelSpec VectorModel BluespotModel BluespotSpec BluespotProofs BluespotThms CompSpec CompProofs FilterModel
  FilterSpec FilterThms FilterEvalModel FilterEvalSpec FilterNumbers FilterEvalThms.
Local Open Scope Z_scope.
Local Open Scope list_scope.

Theorem filter_selects : forall cc, labels_components cc ->
  forall text f g sp fuel t depths flowdir accum dem out, means text f -> filter_function (Some text) = Ok g ->
  1 <= nrows depths -> 1 <= ncols depths ->
  bluespot_process sp cc fuel t depths flowdir (Some g) accum dem = Ok out ->
  forall c, inside (nrows depths) (ncols depths) c ->
    (at_ (bo_labeled out) c <> 0 <-> at_ (nonzero depths) c = true /\
       exists s, describes depths (bluespot depths c) (cell_area F64Ops t) s /\ holds s f).
Proof.
  intros cc Hcc text f g sp fuel t depths flowdir accum dem out M FF R C H c Hc.
  destruct (filter_meaning text f M) as (g' & E & G). rewrite FF in E. injection E as <-.
  destruct (process_filter cc Hcc sp _ _ _ _ _ _ _ _ R C H) as (_ & _ & K & _). rewrite (K c Hc).
  split; intros (N & s & D & X); (split; [exact N|]); exists s; (split; [exact D|]); apply G; exact X.
Qed.

Theorem stricter_filter : forall cc, labels_components cc ->
  forall text f g text' f' g' sp fuel t depths flowdir accum dem out sp' fuel' accum' dem' out',
  means text f -> filter_function (Some text) = Ok g -> means text' f' -> filter_function (Some text') = Ok g' ->
  (forall s, holds s f' -> holds s f) -> 1 <= nrows depths -> 1 <= ncols depths ->
  bluespot_process sp cc fuel t depths flowdir (Some g) accum dem = Ok out ->
  bluespot_process sp' cc fuel' t depths flowdir (Some g') accum' dem' = Ok out' ->
  forall c, inside (nrows depths) (ncols depths) c -> at_ (bo_labeled out') c <> 0 -> at_ (bo_labeled out) c <> 0.
Proof.
  intros cc Hcc text f g text' f' g' sp fuel t depths flowdir accum dem out sp' fuel' accum' dem' out' M F M' F' I R C H H' c Hc N.
  apply (filter_selects cc Hcc text' f' g' sp' fuel' t depths flowdir accum' dem' out' M' F' R C H' c Hc) in N.
  apply (filter_selects cc Hcc text f g sp fuel t depths flowdir accum dem out M F R C H c Hc).
  destruct N as (N & s & D & X). split; [exact N|]. exists s. split; [exact D|]. apply I. exact X.
Qed.

(** ** Thresholds *)

Lemma closest_le : forall r s x y, closest r x -> closest s y -> (r <= s)%R -> (B2R x <= B2R y)%R.
Proof. intros r s x y (_ & X) (_ & Y) H. rewrite X, Y. apply round_le; auto with typeclass_instances. Qed.


Lemma Bltb_real : forall x y : b64, finite64 x -> finite64 y -> (lt64 x y <-> (B2R x < B2R y)%R).
Proof.
  intros x y X Y. unfold lt64. rewrite (Bltb_correct _ _ x y X Y). split; [intros H|intros H; apply Rlt_bool_true; exact H].
  destruct (Rlt_bool_spec (B2R x) (B2R y)); [assumption|discriminate].
Qed.
Lemma Bleb_real : forall x y : b64, finite64 x -> finite64 y -> (le64 x y <-> (B2R x <= B2R y)%R).
Proof.
  intros x y X Y. unfold le64. rewrite (Bleb_correct _ _ x y X Y). split; [intros H|intros H; apply Rle_bool_true; exact H].
  destruct (Rle_bool_spec (B2R x) (B2R y)); [assumption|discriminate].
Qed.

Lemma holds_above : forall st p o ip fp, holds st (above p o ip fp) <-> exists y, closest (decimal ip fp) y /\ compares o (figure st p) y.
Proof.
  intros st p o ip fp. unfold above. cbn [holds in_a_row]. split.
  - intros ((x & y & X & Y & C) & _). exists y. split; [exact Y|]. destruct p; cbn [denotes] in X; subst x; exact C.
  - intros (y & Y & C). split; [|exact I]. exists (figure st p), y. split; [destruct p; reflexivity|]. split; [exact Y|exact C].
Qed.

(** NaN and infinities compare like on the line: from a double y below z, x > z gives x > y. *)
Lemma lt64_below : forall x y z : b64, finite64 y -> finite64 z -> (B2R y <= B2R z)%R -> lt64 z x -> lt64 y x.
Proof.
  intros x y z Y Z H L. destruct (is_finite x) eqn:X.
  - apply Bltb_real; auto. apply Bltb_real in L; auto. lra.
  - destruct x as [s|s| |s m e B]; try discriminate.
    + destruct s; destruct y as [sy|sy| |sy my ey By]; try discriminate; destruct z as [sz|sz| |sz mz ez Bz]; try discriminate; try reflexivity; try discriminate L; try (destruct sy, sz; cbn in *; discriminate || reflexivity).
    + destruct z as [sz|sz| |sz mz ez Bz]; try discriminate; destruct sz; discriminate L.
Qed.
Lemma le64_below : forall x y z : b64, finite64 y -> finite64 z -> (B2R y <= B2R z)%R -> le64 z x -> le64 y x.
Proof.
  intros x y z Y Z H L. destruct (is_finite x) eqn:X.
  - apply Bleb_real; auto. apply Bleb_real in L; auto. lra.
  - destruct x as [s|s| |s m e B]; try discriminate.
    + destruct s; destruct y as [sy|sy| |sy my ey By]; try discriminate; destruct z as [sz|sz| |sz mz ez Bz]; try discriminate; try reflexivity; try discriminate L; try (destruct sy, sz; cbn in *; discriminate || reflexivity).
    + destruct z as [sz|sz| |sz mz ez Bz]; try discriminate; destruct sz; discriminate L.
Qed.

Definition nothing : @unit_stats b64 := mkUnit f64_zero f64_zero f64_zero 0 f64_zero f64_zero.
Lemma closest_exists : forall ip fp, proper (Number ip fp) -> exists y, closest (decimal ip fp) y.
Proof.
  intros ip fp P. exists (f_of (value nothing (exo (Number ip fp)))).
  exact (denotes_value _ _ P).
Qed.

Lemma threshold_monotone : forall st p o ip fp ip' fp', o = Greater \/ o = AtLeast -> proper (Number ip fp) ->
  (decimal ip fp <= decimal ip' fp')%R -> holds st (above p o ip' fp') -> holds st (above p o ip fp).
Proof.
  intros st p o ip fp ip' fp' O P H. rewrite !holds_above. intros (z & Z & C). destruct (closest_exists ip fp P) as (y & Y).
  exists y. split; [exact Y|]. pose proof (closest_le _ _ _ _ Y Z H) as LE.
  destruct O as [-> | ->]; cbn [compares] in *; [eapply lt64_below|eapply le64_below]; try exact C; try exact LE; [apply Y|apply Z|apply Y|apply Z].
Qed.

Lemma sp_row : forall k f l, FilterEvalThms.sp k f l -> forall a rest, f = Compare a rest -> proper_row a rest.
Proof. intros k f l H. induction H as [a rest N P|f ts H IH|f g ts us H IH H' IH'|f g ts us H IH H' IH'|k f ts H IH]; intros b r E; try discriminate; auto. congruence. Qed.

Lemma means_proper : forall text p o ip fp, means text (above p o ip fp) -> proper (Number ip fp).
Proof.
  intros text p o ip fp (ts & S & _). destruct (spells_sp _ _ _ S) as (l & _ & S'). pose proof (sp_row _ _ _ S' _ _ eq_refl) as P.
  cbn [proper_row] in P. tauto.
Qed.

Theorem higher_threshold : forall cc, labels_components cc ->
  forall p o text ip fp g text' ip' fp' g' sp fuel t depths flowdir accum dem out sp' fuel' accum' dem' out',
  o = Greater \/ o = AtLeast ->
  means text (above p o ip fp) -> filter_function (Some text) = Ok g ->
  means text' (above p o ip' fp') -> filter_function (Some text') = Ok g' ->
  (decimal ip fp <= decimal ip' fp')%R -> 1 <= nrows depths -> 1 <= ncols depths ->
  bluespot_process sp cc fuel t depths flowdir (Some g) accum dem = Ok out ->
  bluespot_process sp' cc fuel' t depths flowdir (Some g') accum' dem' = Ok out' ->
  forall c, inside (nrows depths) (ncols depths) c -> at_ (bo_labeled out') c <> 0 -> at_ (bo_labeled out) c <> 0.
Proof.
  intros cc Hcc p o text ip fp g text' ip' fp' g' sp fuel t depths flowdir accum dem out sp' fuel' accum' dem' out' O M F M' F' D R C H H'.
  eapply (stricter_filter cc Hcc text _ g text' _ g' sp fuel t depths flowdir accum dem out sp' fuel' accum' dem' out' M F M' F'); try assumption. intros s. apply threshold_monotone; [exact O|exact (means_proper _ _ _ _ _ M)|exact D].
Qed.

Theorem threshold_real : forall st p ip fp, proper (Number ip fp) -> finite64 (figure st p) ->
  (forall y, closest (decimal ip fp) y -> B2R y = decimal ip fp \/ B2R y <> B2R (figure st p)) ->
  (holds st (above p Greater ip fp) <-> (decimal ip fp < B2R (figure st p))%R) /\
  (holds st (above p AtLeast ip fp) <-> (decimal ip fp <= B2R (figure st p))%R).
Proof.
  intros st p ip fp P X E. destruct (closest_exists ip fp P) as (y & Y). pose proof (E y Y) as Ey. clear E.
  set (x := figure st p) in *. set (d := decimal ip fp) in *.
  assert (Up : (d <= B2R x)%R -> (B2R y <= B2R x)%R).
  { intros H. destruct Y as (_ & ->). rewrite <- (round_generic radix2 (FLT_exp (-1074) 53) (Znearest (fun n => negb (Z.even n))) (B2R x)) by exact (generic_format_B2R 53 1024 x).
    apply round_le; auto with typeclass_instances. }
  assert (Dn : (B2R x <= d)%R -> (B2R x <= B2R y)%R).
  { intros H. destruct Y as (_ & ->). rewrite <- (round_generic radix2 (FLT_exp (-1074) 53) (Znearest (fun n => negb (Z.even n))) (B2R x)) by exact (generic_format_B2R 53 1024 x).
    apply round_le; auto with typeclass_instances. }
  rewrite !holds_above. fold x d.
  assert (U : forall z, closest d z -> z = y \/ exists s s', z = B754_zero s /\ y = B754_zero s').
  { intros z (Fz & Z). apply same_value; [exact Fz|apply Y|]. destruct Y as (_ & Y). congruence. }
  split; split.
  - intros (z & Z & C). cbn [compares] in C. apply Bltb_real in C; [|apply Z|exact X].
    assert (B2R z = B2R y) by (destruct (U z Z) as [->|(s & s' & -> & ->)]; reflexivity).
    destruct (Rlt_or_le d (B2R x)) as [L|L]; [exact L|]. apply Dn in L. lra.
  - intros H. exists y. split; [exact Y|]. cbn [compares]. apply Bltb_real; [apply Y|exact X|]. specialize (Up (Rlt_le _ _ H)). destruct Ey; lra.
  - intros (z & Z & C). cbn [compares] in C. apply Bleb_real in C; [|apply Z|exact X].
    assert (B2R z = B2R y) by (destruct (U z Z) as [->|(s & s' & -> & ->)]; reflexivity).
    destruct (Rle_or_lt d (B2R x)) as [L|L]; [exact L|]. specialize (Dn (Rlt_le _ _ L)). destruct Ey; lra.
  - intros H. exists y. split; [exact Y|]. cbn [compares]. apply Bleb_real; [apply Y|exact X|]. exact (Up H).
Qed.

(** The double closest to 0.1 is above 0.1, but not > 0.1. *)
Definition tenth : @unit_stats b64 := mkUnit f64_zero f64_zero f64_zero 0 (float_literal [48] [49]) f64_zero.
Lemma tenth_value : (B2R (float_literal [48%Z] [49%Z]) > 1 / 10)%R.
Proof.
  replace (B2R (float_literal [48%Z] [49%Z])) with (F2R (Float radix2 7205759403792794 (-56))).
  - unfold F2R. cbn. lra.
  - rewrite <- (SF2R_B2SF 53 1024). replace (B2SF (float_literal [48] [49])) with (SpecFloat.S754_finite false 7205759403792794 (-56)) by (vm_compute; reflexivity). reflexivity.
Qed.

Theorem threshold_real_refuted : exists st p ip fp, proper (Number ip fp) /\ finite64 (figure st p) /\
  (decimal ip fp < B2R (figure st p))%R /\ ~ holds st (above p Greater ip fp).
Proof.
  exists tenth, Volume, [0], (Some [1]).
  assert (P : proper (Number [0] (Some [1]))).
  { split; [cbn; intros d [<-|[<-|[]]]; lia|]. split; [discriminate|]. split; [|discriminate]. cbn [decimal natural length]. apply Rlt_trans with 1%R; [cbn; lra|apply IZR_lt; reflexivity]. }
  split; [exact P|]. split; [vm_compute; reflexivity|]. cbn [figure tenth u_volume]. split.
  - pose proof tenth_value. cbn [decimal natural length]. cbn. cbn in H. lra.
  - rewrite holds_above. intros (y & Y & C). cbn [figure tenth u_volume compares] in C.
    pose proof (denotes_value tenth (Number [0] (Some [1])) P) as D. cbn [denotes exo value f_of] in D.
    assert (B2R y = B2R (float_literal [48] [49])). { destruct Y as (_ & ->), D as (_ & <-). reflexivity. }
    apply Bltb_real in C; [lra|apply Y|vm_compute; reflexivity].
Qed.

(** ** An example *)
Fixpoint lay (l : list (str * str)) (last : str) : str := match l with [] => last | (b, t) :: r => b ++ t ++ lay r last end.
Definition gapb (b : str) : bool := forallb (fun c => (c =? 32) || (c =? 9)) b.
Definition wordyb (t : str) : bool := match t with c :: _ => ((97 <=? c) && (c <=? 122)) || ((48 <=? c) && (c <=? 57)) || (c =? 46) | [] => false end.
Fixpoint lay_ok (l : list (str * str)) (last : str) : bool :=
  match l with
  | [] => gapb last
  | (b, t) :: r => gapb b && match r with ([], u) :: _ => negb (wordyb t && wordyb u) | _ => true end && lay_ok r last
  end.

Lemma gapb_gap : forall b, gapb b = true -> gap b.
Proof. intros b H c Hc. unfold gapb in H. rewrite forallb_forall in H. specialize (H c Hc). lia. Qed.
Lemma wordyb_wordy : forall t, wordy t -> wordyb t = true.
Proof. intros t (c & E & H). destruct t as [|d t]; [discriminate|]. injection E as ->. unfold wordyb. lia. Qed.

Lemma lay_laid : forall l last, lay_ok l last = true -> laid_out (map snd l) (lay l last).
Proof.
  induction l as [|[b t] l IH]; intros last H; cbn [lay_ok lay map snd] in *; [constructor; apply gapb_gap; exact H|].
  apply andb_true_iff in H. destruct H as (H & H3). apply andb_true_iff in H. destruct H as (H1 & H2).
  constructor; [apply gapb_gap; exact H1|apply IH; exact H3|]. intros u Hu Wt Wu. destruct l as [|[b' u'] l]; [discriminate|]. cbn in Hu. injection Hu as ->.
  destruct b' as [|c b'].
  - rewrite (wordyb_wordy _ Wt), (wordyb_wordy _ Wu) in H2. discriminate.
  - exists c. split; [reflexivity|]. cbn [lay_ok] in H3. apply andb_true_iff in H3. destruct H3 as (H3 & _). apply andb_true_iff in H3. destruct H3 as (H3 & _).
    apply gapb_gap in H3. apply H3. left. reflexivity.
Qed.

Definition ex_text : str := lit "maxdepth > 0.05 and (area>=8 or volume > 8.5)".
Definition ex_formula : formula :=
  Both (above Maxdepth Greater [0] (Some [0; 5])) (Either (above Area AtLeast [8] None) (above Volume Greater [8] (Some [5]))).

Lemma small : forall r, (r <= 100)%R -> (r < IZR (10 ^ 300))%R.
Proof. intros r H. eapply Rle_lt_trans; [exact H|]. apply IZR_lt. reflexivity. Qed.
Lemma digit_proper : forall ip fp, forallb (fun d => (0 <=? d) && (d <=? 9)) (ip ++ match fp with Some fp => fp | None => [] end) = true ->
  ip <> [] -> hd_error ip <> Some 0 \/ fp <> None -> (decimal ip fp <= 100)%R -> natural ip <= 2 ^ 53 -> proper (Number ip fp).
Proof.
  intros ip fp D N Z S B. split; [intros d Hd; rewrite forallb_forall in D; specialize (D d Hd); lia|]. split; [destruct ip; [congruence|discriminate]|].
  split; [apply small; exact S|]. intros E. split; [|exact B]. destruct Z; [auto|congruence].
Qed.

Lemma above_row : forall p o ip fp, proper (Number ip fp) -> spells 2 (above p o ip fp) [name p; sign o; spelled (Number ip fp)].
Proof. intros p o ip fp P. apply (sp_compare (Of p) [(o, Number ip fp)]); [discriminate|]. cbn [proper_row]. split; [exact I|]. split; [intros (X & _); exact X|]. split; [exact P|exact I]. Qed.

Definition ex_layout : list (str * str) :=
  [([], lit "maxdepth"); (lit " ", lit ">"); (lit " ", lit "0.05"); (lit " ", lit "and"); (lit " ", lit "("); ([], lit "area"); ([], lit ">="); ([], lit "8");
    (lit " ", lit "or"); (lit " ", lit "volume"); (lit " ", lit ">"); (lit " ", lit "8.5"); ([], lit ")")].
Lemma ex_means : means ex_text ex_formula.
Proof.
  exists (map snd ex_layout).
  split; [|apply (lay_laid ex_layout []); reflexivity].
  apply sp_higher. apply (sp_and _ _ [lit "maxdepth"; lit ">"; lit "0.05"]).
  - apply (above_row Maxdepth Greater [0] (Some [0; 5])). apply digit_proper; try reflexivity; try discriminate; [right; discriminate|cbn; lra].
  - apply sp_higher. apply (sp_parentheses _ [lit "area"; lit ">="; lit "8"; lit "or"; lit "volume"; lit ">"; lit "8.5"]).
    apply (sp_or _ _ [lit "area"; lit ">="; lit "8"]).
    + apply sp_higher. apply (above_row Area AtLeast [8] None). apply digit_proper; try reflexivity; try discriminate; [left; discriminate|cbn; lra].
    + apply sp_higher, sp_higher. apply (above_row Volume Greater [8] (Some [5])). apply digit_proper; try reflexivity; try discriminate; [left; discriminate|cbn; lra].
Qed.

Lemma area_means : forall d, 1 <= d <= 9 -> means (lit "area > " ++ digits [d]) (above Area Greater [d] None).
Proof.
  intros d H. exists [lit "area"; lit ">"; digits [d]]. split.
  - apply sp_higher, sp_higher. apply (above_row Area Greater [d] None). apply digit_proper; try discriminate.
    + cbn. lia.
    + left. cbn. intros E. injection E. lia.
    + cbn. rewrite Z.mul_1_r, Z.add_0_r. apply IZR_le. lia.
    + cbn. lia.
  - apply (lo_cons [] (lit "area") _ (lit " > " ++ digits [d])); [intros c []| |intros; exists 32; split; [reflexivity|auto]].
    apply (lo_cons [32] (lit ">") _ (lit " " ++ digits [d])); [intros c [<-|[]]; auto| |intros; exists 32; split; [reflexivity|auto]].
    rewrite <- (app_nil_r (digits [d])) at 2. apply (lo_cons [32]); [intros c [<-|[]]; auto| |discriminate]. constructor. intros c [].
Qed.

Lemma exact_half : proper (Number [8] (Some [5])) /\ forall y, closest (decimal [8] (Some [5])) y -> B2R y = decimal [8] (Some [5]).
Proof.
  split; [apply digit_proper; try reflexivity; try discriminate; [left; discriminate|cbn; lra]|]. intros y (_ & ->).
  apply round_generic; auto with typeclass_instances. replace (decimal [8] (Some [5])) with (F2R (Float radix2 17 (-1))) by (unfold F2R; cbn; lra).
  apply generic_format_F2R. intros _. unfold cexp. rewrite (mag_unique radix2 _ 4); [cbn; lia|].
  unfold F2R. cbn. rewrite Rabs_pos_eq by lra. lra.
Qed.
