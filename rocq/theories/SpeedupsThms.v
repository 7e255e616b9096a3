(** * Proofs about switching speedups *)

From Verif Require Import Base BaseProofs SpeedupsModel.

(** Whether the functions should be compiled after these calls. *)
Fixpoint want (available now : bool) (es : list event) : bool :=
  match es with
  | [] => now
  | Enable :: t => want available available t
  | Disable :: t => want available false t
  | Import_hyps :: t => want available now t
  end.

Definition pick (b : bool) (f : fname) : impl := if b then Compiled f else Original f.

Definition saved : list (fname * impl) :=
  map (fun f => (f, Original f)) [Fill_terrain; Fill_terrain_no_flats; Trace_accumulated_flow; Accumulated_flow;
    Terrain_flow; Assign_watersheds_upstream; Label_stats; Label_min_index; Label_data].

Definition mode (b : bool) (st : state) : Prop :=
  (forall f, attrs st f = pick b f) /\ orig st = (if b then saved else []) /\ enabled st = b.

Lemma enable_mode : forall av b st, mode b st -> (b = true -> av = true) -> mode av (enable av st) /\ hyps (enable av st) = hyps st.
Proof.
  intros av b st (A & O & E) I. unfold enable. destruct av; cbn [negb].
  - destruct b.
    + rewrite O. cbn. split; [|reflexivity]. split; [exact A|]. split; assumption.
    + rewrite O. cbn. split; [|reflexivity]. split; [intros []; reflexivity|]. split; [|reflexivity].
      cbn. rewrite O. unfold set_attr. cbn. rewrite !A. reflexivity.
  - destruct b; [specialize (I eq_refl); discriminate|]. split; [|reflexivity]. split; [exact A|]. split; assumption.
Qed.

Lemma disable_mode : forall b st, mode b st -> exists st', disable st = Ok st' /\ mode false st' /\ hyps st' = hyps st.
Proof.
  intros b st (A & O & E). unfold disable. destruct b; rewrite O.
  - cbn. unfold restore at 1. rewrite O. cbn. eexists. split; [reflexivity|]. split; [|reflexivity].
    split; [intros []; reflexivity|]. split; reflexivity.
  - eexists. split; [reflexivity|]. split; [|reflexivity]. split; [exact A|]. split; assumption.
Qed.

Lemma import_mode : forall b st, mode b st -> mode b (import_hyps st).
Proof. intros b st H. unfold import_hyps. destruct (hyps st); exact H. Qed.

Lemma imported_mode : forall av, mode av (imported av) /\ hyps (imported av) = None.
Proof.
  intros av. unfold imported.
  assert (M : mode false (mkState Original [] false None)) by (split; [reflexivity|split; reflexivity]).
  destruct av; [|split; [exact M|reflexivity]]. destruct (enable_mode true false _ M) as (H & H'); [discriminate|].
  split; [exact H|rewrite H'; reflexivity].
Qed.

(** What hyps binds: the functions at its first import. *)
Fixpoint bound (available now : bool) (es : list event) : option bool :=
  match es with
  | [] => None
  | Import_hyps :: _ => Some now
  | Enable :: t => bound available available t
  | Disable :: t => bound available false t
  end.

Lemma run_mode : forall av es b st, mode b st -> (b = true -> av = true) ->
  exists st', mfold (step av) es st = Ok st' /\ mode (want av b es) st' /\
    hyps st' = match hyps st with
               | Some h => Some h
               | None => option_map (fun c => (pick c Label_stats, pick c Label_data)) (bound av b es)
               end.
Proof.
  intros av. induction es as [|e es IH]; intros b st M I.
  - exists st. split; [reflexivity|]. split; [exact M|]. destruct (hyps st); reflexivity.
  - cbn [mfold]. destruct e; cbn [step want bound].
    + destruct (enable_mode av b st M I) as (M' & H'). cbn [bind].
      destruct (IH av _ M') as (st' & R & M'' & H''); [auto|]. exists st'. rewrite H' in H''. auto.
    + destruct (disable_mode b st M) as (st1 & R1 & M' & H'). rewrite R1. cbn [bind].
      destruct (IH false _ M') as (st' & R & M'' & H''); [discriminate|]. exists st'. rewrite H' in H''. auto.
    + cbn [bind]. destruct (IH b _ (import_mode b st M) I) as (st' & R & M'' & H''). exists st'. split; [exact R|]. split; [exact M''|].
      rewrite H''. unfold import_hyps. destruct (hyps st) eqn:E; [rewrite E; reflexivity|]. cbn [hyps option_map].
      destruct M as (A & _). rewrite !A. reflexivity.
Qed.

Theorem run_ok : forall av es, exists st, run av es = Ok st /\ enabled st = want av av es /\
  forall f, attrs st f = if enabled st then Compiled f else Original f.
Proof.
  intros av es. destruct (imported_mode av) as (M & _). destruct (run_mode av es av _ M) as (st & R & (A & _ & E) & _); [auto|].
  exists st. split; [exact R|]. split; [exact E|]. intros f. rewrite A, E. reflexivity.
Qed.

Lemma want_last : forall av es b e, want av b (es ++ [e]) = match e with Enable => av | Disable => false | Import_hyps => want av b es end.
Proof.
  intros av. induction es as [|x es IH]; intros b e; [destruct e; reflexivity|]. cbn [app want]. destruct x; apply IH.
Qed.

(** The last call decides; without speedups nothing is ever compiled. *)
Theorem run_last : forall av es st,
  (run av (es ++ [Enable]) = Ok st -> enabled st = av /\ forall f, attrs st f = if av then Compiled f else Original f) /\
  (run av (es ++ [Disable]) = Ok st -> enabled st = false /\ forall f, attrs st f = Original f) /\
  (run false es = Ok st -> forall f, attrs st f = Original f).
Proof.
  intros av es st.
  assert (G : forall a l, run a l = Ok st -> enabled st = want a a l /\ forall f, attrs st f = if want a a l then Compiled f else Original f).
  { intros a l R. destruct (run_ok a l) as (st' & R' & E & A). rewrite R in R'. injection R' as <-. split; [exact E|].
    intros f. rewrite A, E. reflexivity. }
  split; [|split].
  - intros R. apply G in R. rewrite want_last in R. exact R.
  - intros R. apply G in R. rewrite want_last in R. exact R.
  - intros R f. apply G in R. destruct R as (_ & R). rewrite R. clear R.
    assert (W : forall l, want false false l = false) by (induction l as [|[] l IH]; cbn; auto). rewrite W. reflexivity.
Qed.

Theorem run_hyps : forall av es st, run av es = Ok st ->
  hyps st = option_map (fun c : bool => if c then (Compiled Label_stats, Compiled Label_data) else (Original Label_stats, Original Label_data))
              (bound av av es).
Proof.
  intros av es st R. destruct (imported_mode av) as (M & N). destruct (run_mode av es av _ M) as (st' & R' & _ & H); [auto|].
  unfold run in R. rewrite R in R'. injection R' as <-. rewrite H, N. destruct (bound av av es) as [[]|]; reflexivity.
Qed.

Theorem hyps_refuted : exists es st, run true (es ++ [Disable]) = Ok st /\ enabled st = false /\
  hyps st = Some (Compiled Label_stats, Compiled Label_data).
Proof.
  destruct (run_ok true ([Import_hyps] ++ [Disable])) as (st & R & E & _). exists [Import_hyps], st.
  split; [exact R|]. split; [exact E|]. rewrite (run_hyps _ _ _ R). reflexivity.
Qed.

(** And the other way round. *)
Theorem hyps_slow : exists es st, run true (es ++ [Enable]) = Ok st /\ enabled st = true /\
  hyps st = Some (Original Label_stats, Original Label_data).
Proof.
  destruct (run_ok true ([Disable; Import_hyps] ++ [Enable])) as (st & R & E & _). exists [Disable; Import_hyps], st.
  split; [exact R|]. split; [exact E|]. rewrite (run_hyps _ _ _ R). reflexivity.
Qed.

Theorem ex_switch : exists st, run true [Disable; Disable; Enable; Enable; Disable; Enable] = Ok st /\
  enabled st = true /\ attrs st Terrain_flow = Compiled Terrain_flow.
Proof.
  destruct (run_ok true [Disable; Disable; Enable; Enable; Disable; Enable]) as (st & R & E & A). exists st.
  split; [exact R|]. split; [exact E|]. rewrite A, E. reflexivity.
Qed.
