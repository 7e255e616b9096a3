(** * The order of the features in a layer *)

From Coq Require Import QArith Qabs Permutation String Lqa.
From Verif Require Import Base BaseProofs Num Float64 Dict DictProofs LabelModel LabelProofs VectorModel BluespotModel BluespotProofs NetModel
  NetworkModel NetworkSpec NetworkProofs NetworkThms RainModel PipelineModel HypsModel HypsThms ApproxModel CompleteModel OgrModel CmdModel OrderModel OrderSpec.
Local Open Scope Z_scope.
Local Open Scope list_scope.

Lemma mmap_all : forall {A B} (f : A -> res B) l r, mmap f l = Ok r <-> Forall2 (fun x y => f x = Ok y) l r.
Proof.
  intros A B f. induction l as [|x l IH]; intros r; cbn [mmap].
  - split; intros H; [injection H as <-; constructor|inversion H; reflexivity].
  - split; intros H.
    + apply bind_ok in H. destruct H as (y & E & H). apply bind_ok in H. destruct H as (ys & E' & H). injection H as <-.
      constructor; [exact E|apply IH; exact E'].
    + inversion H as [|? y ? ys E F]; subst. rewrite E. cbn [bind]. apply IH in F. rewrite F. reflexivity.
Qed.

Lemma mmap_ext : forall {A B} (f g : A -> res B) l, (forall x, f x = g x) -> mmap f l = mmap g l.
Proof. intros A B f g l H. induction l as [|x l IH]; [reflexivity|]. cbn [mmap]. rewrite H, IH. reflexivity. Qed.

Lemma mmap_perm : forall {A B} (f : A -> res B) l l' r, Permutation l l' -> mmap f l = Ok r ->
  exists r', mmap f l' = Ok r' /\ Permutation r r'.
Proof.
  intros A B f l l' r P H. apply mmap_all in H. destruct (Permutation_Forall2 P H) as (r' & Q & F).
  exists r'. split; [apply mmap_all; exact F|exact Q].
Qed.

(** ** Indexes *)
Lemma index_distinct : forall read k fs d, distinct read k fs -> index_by read k fs = Ok d ->
  exists ids, mmap (fun f => read f k) fs = Ok ids /\ d = combine ids fs /\ NoDup ids.
Proof.
  intros read k fs d ND H. unfold index_by in H. unfold distinct in ND.
  enough (G : forall fs pre d, NoDup (map fst pre) -> NoDup (map (fun f => read f k) fs) ->
    (forall f i, In f fs -> read f k = Ok i -> ~ In i (map fst pre)) ->
    mfold (fun d f => i <- read f k ;; Ok (dset Z.eqb d i f)) fs pre = Ok d ->
    exists ids, mmap (fun f => read f k) fs = Ok ids /\ d = pre ++ combine ids fs /\ NoDup ids).
  { apply (G fs [] d); [constructor|exact ND|intros f i _ _ []|exact H]. }
  clear. induction fs as [|f fs IH]; intros pre d NP ND A H; cbn [mfold mmap map] in *.
  - injection H as <-. exists []. split; [reflexivity|]. split; [rewrite app_nil_r; reflexivity|constructor].
  - inversion ND as [|? ? N1 N2]; subst. apply bind_ok in H. destruct H as (d1 & E & H). apply bind_ok in E. destruct E as (i & E & X).
    injection X as <-. rewrite E in *. cbn [bind].
    assert (Fi : ~ In i (map fst pre)) by (apply (A f i); [left; reflexivity|exact E]).
    rewrite dset_fresh in H by (auto using Z.eqb_spec).
    destruct (IH (pre ++ [(i, f)]) d) as (ids & E1 & E2 & E3); auto.
    + rewrite map_app. cbn [map fst]. apply NoDup_app_intro; [exact NP|repeat constructor; intros []|].
      intros x I [<-|[]]. contradiction.
    + intros g j Ig Eg. rewrite map_app, in_app_iff. cbn [map fst In]. intros [I|[I|[]]].
      * apply (A g j (or_intror Ig) Eg I).
      * subst j. apply N1. rewrite <- Eg. apply (in_map (fun f => read f k)). exact Ig.
    + exists (i :: ids). rewrite E1. cbn [bind]. split; [reflexivity|]. split.
      * rewrite E2. cbn [combine]. rewrite <- app_assoc. reflexivity.
      * constructor; [|exact E3]. intros I. apply mmap_all in E1. apply N1.
        clear - E1 I. induction E1 as [|g j l l' X F IH]; [destruct I|]. destruct I as [->|I]; [left; exact X|right; apply IH; exact I].
Qed.

Lemma combine_maps : forall {A B C} (f : A -> B) (g : A -> C) (l : list A), combine (map f l) (map g l) = map (fun x => (f x, g x)) l.
Proof. intros A B C f g. induction l as [|x l IH]; [reflexivity|]. cbn. rewrite IH. reflexivity. Qed.

Lemma mmap_length : forall {A B} (f : A -> res B) l r, mmap f l = Ok r -> length r = length l.
Proof. intros A B f l r H. apply mmap_all in H. induction H; cbn [length]; congruence. Qed.

Lemma combine_fst : forall {A B} (l : list A) (r : list B), length l = length r -> map fst (combine l r) = l.
Proof. intros A B. induction l as [|x l IH]; intros [|y r] H; try discriminate H; [reflexivity|]. cbn. rewrite IH by (injection H; auto). reflexivity. Qed.
Lemma combine_snd : forall {A B} (l : list A) (r : list B), length l = length r -> map snd (combine l r) = r.
Proof. intros A B. induction l as [|x l IH]; intros [|y r] H; try discriminate H; [reflexivity|]. cbn. rewrite IH by (injection H; auto). reflexivity. Qed.

Lemma distinct_perm : forall read k fs fs', Permutation fs fs' -> distinct read k fs -> distinct read k fs'.
Proof. intros read k fs fs' P D. eapply Permutation_NoDup; [apply Permutation_map; exact P|exact D]. Qed.

(** The indexes of two orders. *)
Lemma index_total : forall read k fs, (forall f, In f fs -> exists i, read f k = Ok i) -> exists d, index_by read k fs = Ok d.
Proof.
  intros read k fs. unfold index_by. generalize (@nil (Z * props)).
  induction fs as [|f fs IH]; intros d A; cbn [mfold]; [eauto|].
  destruct (A f (or_introl eq_refl)) as (i & E). rewrite E. cbn [bind]. apply IH. intros g I. apply A. right. exact I.
Qed.

Lemma index_order : forall read k fs fs' d, Permutation fs fs' -> distinct read k fs -> index_by read k fs = Ok d ->
  exists ids ids', mmap (fun f => read f k) fs = Ok ids /\ mmap (fun f => read f k) fs' = Ok ids' /\ Permutation ids ids' /\ NoDup ids /\
    d = combine ids fs /\ index_by read k fs' = Ok (combine ids' fs') /\ Permutation d (combine ids' fs').
Proof.
  intros read k fs fs' d P D H. destruct (index_distinct _ _ _ _ D H) as (ids & E & -> & N).
  destruct (mmap_perm _ _ _ _ P E) as (ids' & E' & P').
  destruct (index_total read k fs') as (d' & H').
  { intros f I. apply mmap_all in E'. clear - E' I. induction E' as [|x y l r X F IH]; [destruct I|].
    destruct I as [<-|I]; [eauto|auto]. }
  destruct (index_distinct _ _ _ _ (distinct_perm _ _ _ _ P D) H') as (ids2 & E2 & -> & N2).
  assert (ids2 = ids') by congruence. subst ids2.
  exists ids, ids'. repeat (split; [assumption || reflexivity|]).
  assert (G : forall l ids, mmap (fun f => read f k) l = Ok ids ->
    combine ids l = map (fun f => (match read f k with Ok i => i | _ => 0 end, f)) l).
  { clear. induction l as [|f l IH]; intros ids H; cbn [mmap] in H; [injection H as <-; reflexivity|].
    apply bind_ok in H. destruct H as (i & E & H). apply bind_ok in H. destruct H as (is & E' & H). injection H as <-.
    cbn [combine map]. rewrite E, (IH _ E'). reflexivity. }
  rewrite (G _ _ E), (G _ _ E'). apply Permutation_map. exact P.
Qed.

Lemma dget_perm : forall {V} (d d' : list (Z * V)) k, NoDup (map fst d) -> Permutation d d' -> dget Z.eqb d k = dget Z.eqb d' k.
Proof.
  intros V d d' k N P. assert (N' : NoDup (map fst d')) by (eapply Permutation_NoDup; [apply Permutation_map; exact P|exact N]).
  destruct (dget Z.eqb d k) as [v|] eqn:E.
  - symmetry. apply dget_nodup; auto using Z.eqb_spec. eapply Permutation_in; [exact P|]. apply (dget_in Z.eqb Z.eqb_spec). exact E.
  - symmetry. apply (dget_none Z.eqb Z.eqb_spec). apply (dget_none Z.eqb Z.eqb_spec) in E. intros I. apply E.
    eapply Permutation_in; [apply Permutation_sym, Permutation_map; exact P|exact I].
Qed.

(** ** initvolumes *)
Theorem volumes_order : forall mm attribute fs fs' out, Permutation fs fs' ->
  simple_volume_tool mm attribute fs = Ok out ->
  exists out', simple_volume_tool mm attribute fs' = Ok out' /\ Permutation out out'.
Proof. intros mm attribute fs fs' out P H. exact (mmap_perm _ _ _ _ P H). Qed.

(** ** finallevels *)
Lemma only_pourpoints_perm : forall fs fs', Permutation fs fs' -> forall r, only_pourpoints fs = Ok r ->
  exists r', only_pourpoints fs' = Ok r' /\ Permutation r r'.
Proof.
  intros fs fs' P. induction P as [|f l l' P IH|f g l|l1 l2 l3 P1 IH1 P2 IH2]; intros r H.
  - exists r. split; [exact H|apply Permutation_refl].
  - cbn [only_pourpoints] in *. apply bind_ok in H. destruct H as (b & E & H). apply bind_ok in H. destruct H as (s & E' & H).
    destruct (IH s E') as (s' & Es & Ps). rewrite E. cbn [bind]. rewrite Es. cbn [bind]. injection H as <-.
    eexists. split; [reflexivity|]. destruct b; [constructor|]; exact Ps.
  - cbn [only_pourpoints] in *. apply bind_ok in H. destruct H as (b & E & H). apply bind_ok in H. destruct H as (s & E' & H).
    apply bind_ok in E'. destruct E' as (b' & E2 & E'). apply bind_ok in E'. destruct E' as (s' & E3 & E').
    injection E' as <-. injection H as <-. rewrite E2. cbn [bind]. rewrite E. cbn [bind]. rewrite E3. cbn [bind].
    eexists. split; [reflexivity|]. destruct b, b'; try apply Permutation_refl. apply perm_swap.
  - destruct (IH1 r H) as (r2 & E2 & P12). destruct (IH2 r2 E2) as (r3 & E3 & P23). exists r3. split; [exact E3|].
    eapply Permutation_trans; eassumption.
Qed.

Theorem levels_order : forall finals finals' hs hs' out, Permutation finals finals' -> Permutation hs hs' ->
  distinct get_int "bspot_id" hs -> levels_tool finals hs = Ok out ->
  exists out', levels_tool finals' hs' = Ok out' /\ Permutation out out'.
Proof.
  intros finals finals' hs hs' out P Ph D H. unfold levels_tool in *.
  apply bind_ok in H. destruct H as (d & Ed & H). apply bind_ok in H. destruct H as (fs & Ef & H).
  destruct (index_order _ _ _ _ _ Ph D Ed) as (ids & ids' & E1 & E2 & Pi & N & -> & E3 & Pd).
  destruct (only_pourpoints_perm _ _ P _ Ef) as (fs' & Ef' & Pf).
  rewrite E3. cbn [bind]. rewrite Ef'. cbn [bind].
  destruct (mmap_perm _ _ _ _ Pf H) as (out' & H' & Po). exists out'. split; [|exact Po].
  rewrite <- H'.
  assert (N1 : NoDup (map fst (combine ids hs))) by (rewrite combine_fst by (apply (mmap_length _ _ _ E1)); exact N).
  apply mmap_ext. intros f. destruct (get_int f "bspot_id") as [b| |]; cbn [bind]; [|reflexivity|reflexivity].
  unfold dget_err. rewrite <- (dget_perm _ _ b N1 Pd). reflexivity.
Qed.

(** ** finalbluespots *)
Lemma zmax_perm : forall x l y l', Permutation (x :: l) (y :: l') -> zmax_from x l = zmax_from y l'.
Proof.
  intros x l y l' P. destruct (zmax_from_spec l x) as (A & B & C). destruct (zmax_from_spec l' y) as (A' & B' & C').
  assert (U : forall z, In z (x :: l) -> z <= zmax_from y l').
  { intros z I. apply (Permutation_in _ P) in I. destruct I as [<-|I]; auto. }
  assert (U' : forall z, In z (y :: l') -> z <= zmax_from x l).
  { intros z I. apply (Permutation_in _ (Permutation_sym P)) in I. destruct I as [<-|I]; auto. }
  apply Z.le_antisymm; [apply U|apply U']; cbn [In]; [destruct C as [->|C]|destruct C' as [->|C']]; auto.
Qed.

Lemma value_list_perm : forall (d d' : list (Z * Q)) bg s, NoDup (map fst d) -> Permutation d d' ->
  labelvaluedict_to_list d bg s = labelvaluedict_to_list d' bg s.
Proof.
  intros d d' bg s N P. unfold labelvaluedict_to_list.
  pose proof (Permutation_map fst P) as Pk.
  destruct (map fst d) as [|x l] eqn:E; destruct (map fst d') as [|y l'] eqn:E'.
  - reflexivity.
  - apply Permutation_nil in Pk. discriminate Pk.
  - apply Permutation_sym, Permutation_nil in Pk. discriminate Pk.
  - cbn [bind]. rewrite (zmax_perm _ _ _ _ Pk). generalize (pyrange 0 (zmax_from y l' + 1) 1). intros L.
    induction L as [|i L IH]; [reflexivity|]. cbn [mmap]. rewrite IH. unfold dget_err.
    rewrite (dget_perm d d' i) by (try rewrite E; assumption). reflexivity.
Qed.

Definition level_dict (ls : list (bool * Z * Q)) : list (Z * Q) :=
  fold_left (fun d '(pp, id, z) => if (pp : bool) then dset Z.eqb d id z else d) ls [].
Definition level_pairs (ls : list (bool * Z * Q)) : list (Z * Q) :=
  flat_map (fun '(pp, id, z) => if (pp : bool) then [(id, z)] else []) ls.

Lemma level_dict_pairs : forall ls, NoDup (map fst (level_pairs ls)) -> level_dict ls = level_pairs ls.
Proof.
  intros ls. unfold level_dict. enough (G : forall pre, NoDup (map fst (pre ++ level_pairs ls)) ->
    fold_left (fun d '(pp, id, z) => if (pp : bool) then dset Z.eqb d id z else d) ls pre = pre ++ level_pairs ls) by (apply (G [])).
  induction ls as [|[[pp id] z] ls IH]; intros pre N; cbn [fold_left level_pairs flat_map] in *; [rewrite app_nil_r; reflexivity|].
  fold (level_pairs ls) in *. destruct pp; [|apply IH; exact N]. cbn [app] in N.
  assert (F : ~ In id (map fst pre)).
  { rewrite map_app in N. apply NoDup_app_inv in N. destruct N as (_ & _ & D). intros I. apply (D id I). left. reflexivity. }
  rewrite dset_fresh by (auto using Z.eqb_spec). rewrite IH by (rewrite <- app_assoc; exact N). rewrite <- app_assoc. reflexivity.
Qed.

Theorem bluespots_order : forall labels levels levels' dem r, Permutation levels levels' ->
  distinct get_int "bspot_id" (filter is_pp levels) ->
  bluespots_tool labels levels dem = Ok r -> bluespots_tool labels levels' dem = Ok r.
Proof.
  intros labels levels levels' dem r P D H. unfold bluespots_tool in *.
  apply bind_ok in H. destruct H as (ls & E & H).
  destruct (mmap_perm _ _ _ _ P E) as (ls' & E' & Pl). rewrite E'. cbn [bind]. rewrite <- H.
  assert (N : NoDup (map fst (level_pairs ls))).
  { unfold distinct in D.
    enough (G : map (fun f => get_int f "bspot_id") (filter is_pp levels) = map (@Ok Z) (map fst (level_pairs ls))).
    { rewrite G in D. apply NoDup_map_inv in D. exact D. }
    apply mmap_all in E. clear - E. induction E as [|f x fs ls X F IH]; [reflexivity|].
    cbn [filter level_pairs flat_map]. fold (level_pairs ls). unfold read_level in X. unfold is_pp at 1.
    apply bind_ok in X. destruct X as (b & Eb & X). rewrite Eb. destruct b.
    - apply bind_ok in X. destruct X as (i & Ei & X). apply bind_ok in X. destruct X as (z & Ez & X). injection X as <-.
      cbn [map app fst]. rewrite Ei, IH. reflexivity.
    - injection X as <-. cbn [app]. exact IH. }
  assert (P2 : Permutation (level_pairs ls) (level_pairs ls')) by (apply Permutation_flat_map; exact Pl).
  assert (N' : NoDup (map fst (level_pairs ls'))) by (eapply Permutation_NoDup; [apply Permutation_map; exact P2|exact N]).
  unfold approx_bluespots_io. cbn [negb andb]. fold (level_dict ls) (level_dict ls').
  rewrite (level_dict_pairs _ N), (level_dict_pairs _ N').
  rewrite <- (value_list_perm _ _ 0 (background_level QOps) N P2). reflexivity.
Qed.

(** ** hyps *)
Lemma dset_perm : forall {V} (d d' : list (Z * V)) k v, NoDup (map fst d) -> Permutation d d' ->
  Permutation (dset Z.eqb d k v) (dset Z.eqb d' k v).
Proof.
  intros V d d' k v N P. assert (N' : NoDup (map fst d')) by (eapply Permutation_NoDup; [apply Permutation_map; exact P|exact N]).
  apply NoDup_Permutation.
  - apply (NoDup_map_inv fst). apply (dset_nodup Z.eqb Z.eqb_spec). exact N.
  - apply (NoDup_map_inv fst). apply (dset_nodup Z.eqb Z.eqb_spec). exact N'.
  - intros [a w]. rewrite !(dset_in Z.eqb Z.eqb_spec) by assumption. split; intros [H|(A & H)]; auto; right; split; auto.
    + eapply Permutation_in; eassumption.
    + eapply Permutation_in; [apply Permutation_sym; eassumption|exact H].
Qed.

Lemma blanks : forall ids, NoDup ids ->
  fold_left (fun d id => dset Z.eqb d id (@mkHF Q id None None)) ids [] = map (fun id => (id, @mkHF Q id None None)) ids.
Proof.
  intros ids N. enough (G : forall pre, NoDup (map fst pre ++ ids) ->
    fold_left (fun d id => dset Z.eqb d id (@mkHF Q id None None)) ids pre = pre ++ map (fun id => (id, @mkHF Q id None None)) ids) by (apply (G []); exact N).
  clear N. induction ids as [|i ids IH]; intros pre N; cbn [fold_left map]; [rewrite app_nil_r; reflexivity|].
  assert (F : ~ In i (map fst pre)). { apply NoDup_app_inv in N. destruct N as (_ & _ & D). intros I. apply (D i I). left. reflexivity. }
  rewrite dset_fresh by (auto using Z.eqb_spec). rewrite IH.
  - rewrite <- app_assoc. reflexivity.
  - rewrite map_app, <- app_assoc. exact N.
Qed.

Definition put_stats (area : Q) (d : list (Z * @hyps_feature Q)) (p : Z * @hyps Q) : res (list (Z * @hyps_feature Q)) :=
  let '(bs_id, s) := p in
  pp <- dget_err Z.eqb d bs_id ;; Ok (dset Z.eqb d bs_id (mkHF (hf_bspot pp) (Some (hyps_to_flatdict s)) (Some area))).

Lemma put_perm : forall area stats d d' r, NoDup (map fst d) -> Permutation d d' -> mfold (put_stats area) stats d = Ok r ->
  map fst r = map fst d /\ exists r', mfold (put_stats area) stats d' = Ok r' /\ Permutation r r' /\ map fst r' = map fst d'.
Proof.
  intros area. induction stats as [|[i s] stats IH]; intros d d' r N P H; cbn [mfold] in *.
  - injection H as <-. split; [reflexivity|]. exists d'. auto.
  - apply bind_ok in H. destruct H as (d1 & E & H). unfold put_stats in E |- *. apply bind_ok in E. destruct E as (h & G & E). injection E as <-.
    unfold dget_err in *. rewrite <- (dget_perm d d' i N P). destruct (dget Z.eqb d i) as [h0|] eqn:Eg; [|discriminate G]. cbn [bind].
    assert (h0 = h) by congruence. subst h0.
    assert (Eg' : dget Z.eqb d' i = Some h) by (rewrite <- (dget_perm d d' i N P); exact Eg).
    assert (I : In i (map fst d)) by (apply (dget_in Z.eqb Z.eqb_spec) in Eg; apply (in_map fst) in Eg; exact Eg).
    assert (I' : In i (map fst d')) by (apply (dget_in Z.eqb Z.eqb_spec) in Eg'; apply (in_map fst) in Eg'; exact Eg').
    fold (put_stats area) in *.
    destruct (IH (dset Z.eqb d i (mkHF (hf_bspot h) (Some (hyps_to_flatdict s)) (Some area))) (dset Z.eqb d' i (mkHF (hf_bspot h) (Some (hyps_to_flatdict s)) (Some area))) r) as (K & r' & R1 & R2 & R3);
      [|apply dset_perm; eassumption|exact H|].
    + apply (dset_nodup Z.eqb Z.eqb_spec). exact N.
    + rewrite (dset_keys_present Z.eqb Z.eqb_spec) in K by exact I. rewrite (dset_keys_present Z.eqb Z.eqb_spec) in R3 by exact I'.
      split; [exact K|]. exists r'. auto.
Qed.

Lemma io_perm : forall labels dem res ids ids' zr hfs, NoDup ids -> Permutation ids ids' ->
  bluespot_hypsometry_io QOps Q_int q_inf (- q_inf)%Q labels dem res ids zr = Ok hfs ->
  exists D D', hfs = map snd D /\ map fst D = ids /\ map fst D' = ids' /\ Permutation D D' /\
    bluespot_hypsometry_io QOps Q_int q_inf (- q_inf)%Q labels dem res ids' zr = Ok (map snd D').
Proof.
  intros labels dem res ids ids' zr hfs N P H. unfold bluespot_hypsometry_io in *.
  destruct (negb (nltb QOps (nofZ QOps 0) zr)); [discriminate H|].
  destruct (negb ((nrows labels =? nrows dem) && (ncols labels =? ncols dem))); [discriminate H|].
  rewrite blanks in * by exact N. rewrite blanks by (eapply Permutation_NoDup; eassumption).
  apply bind_ok in H. destruct H as (lm & El & H). rewrite El. cbn [bind].
  assert (K : forall l, map fst (map (fun id : Z => (id, @mkHF Q id None None)) l) = l).
  { intros l. rewrite map_map. cbn [fst]. apply map_id. }
  rewrite K in H. rewrite K.
  apply bind_ok in H. destruct H as (vm & Ev & H).
  assert (Ev' : match ids' with [] => Exc ValueError | x :: t => Ok (zmax_from x t) end = Ok vm).
  { destruct ids as [|x l]; [discriminate Ev|]. destruct ids' as [|y l']; [apply Permutation_sym, Permutation_nil in P; discriminate P|].
    rewrite <- (zmax_perm _ _ _ _ P). exact Ev. }
  rewrite Ev'. cbn [bind]. destruct (negb (lm =? vm)); [discriminate H|].
  apply bind_ok in H. destruct H as (stats & Es & H). rewrite Es. cbn [bind].
  apply bind_ok in H. destruct H as (D & ED & H). injection H as <-.
  destruct (put_perm _ _ _ (map (fun id => (id, @mkHF Q id None None)) ids') D ltac:(rewrite K; exact N) ltac:(apply Permutation_map; exact P) ED)
    as (KD & D' & ED' & PD & KD'). unfold put_stats in ED'.
  rewrite ED'. cbn [bind]. exists D, D'. rewrite K in KD, KD'. auto.
Qed.

Theorem hyps_order : forall t labels dem zr fs fs' out, Permutation fs fs' -> distinct get_index "bspot_id" fs ->
  hyps_tool t labels dem zr fs = Ok out ->
  exists out', hyps_tool t labels dem zr fs' = Ok out' /\ Permutation out out'.
Proof.
  intros t labels dem zr fs fs' out P D H. unfold hyps_tool in *.
  apply bind_ok in H. destruct H as (d & Ed & H). apply bind_ok in H. destruct H as (hfs & Eh & H). injection H as <-.
  destruct (index_order _ _ _ _ _ P D Ed) as (ids & ids' & E1 & E2 & Pi & N & -> & E3 & Pd).
  pose proof (mmap_length _ _ _ E1) as L1. pose proof (mmap_length _ _ _ E2) as L2.
  rewrite (combine_fst ids fs L1) in Eh. rewrite (combine_snd ids fs L1).
  rewrite E3. cbn [bind]. rewrite (combine_fst ids' fs' L2), (combine_snd ids' fs' L2).
  destruct (io_perm _ _ _ _ _ _ _ N Pi Eh) as (B & B' & -> & KB & KB' & PB & ->). cbn [bind].
  eexists. split; [reflexivity|].
  assert (NB : NoDup (map fst B)) by (rewrite KB; exact N).
  assert (NB' : NoDup (map fst B')) by (rewrite KB'; eapply Permutation_NoDup; eassumption).
  assert (G : forall gs is (C : list (Z * @hyps_feature Q)), mmap (fun f => get_index f "bspot_id") gs = Ok is -> map fst C = is -> NoDup is ->
    map (fun '(f, h) => set_hyps f h) (combine gs (map snd C)) =
    map (fun f => match get_index f "bspot_id" with Ok i => match dget Z.eqb C i with Some h => set_hyps f h | None => f end | _ => f end) gs).
  { clear. intros gs is C M K Nd.
    assert (X : forall k h, In (k, h) C -> dget Z.eqb C k = Some h) by (intros k h I; apply dget_nodup; auto using Z.eqb_spec; rewrite K; exact Nd).
    apply mmap_all in M. clear Nd. rewrite <- K in M. clear K.
    enough (Y : forall C0, (forall k h, In (k, h) C0 -> dget Z.eqb C k = Some h) -> forall gs, Forall2 (fun x y => get_index x "bspot_id" = Ok y) gs (map fst C0) ->
      map (fun '(f, h) => set_hyps f h) (combine gs (map snd C0)) =
      map (fun f => match get_index f "bspot_id" with Ok i => match dget Z.eqb C i with Some h => set_hyps f h | None => f end | _ => f end) gs) by (apply (Y C X gs M)). clear.
    induction C0 as [|[k h] C0 IH]; intros X gs M; cbn [map fst snd] in *; inversion M as [|f i fs is Hf HF]; subst; [reflexivity|].
    cbn [combine map]. rewrite IH; [|intros; apply X; right; assumption|assumption].
    rewrite Hf, (X k h (or_introl eq_refl)). reflexivity. }
  rewrite (G fs ids B E1 KB N), (G fs' ids' B' E2 KB' ltac:(rewrite <- KB'; exact NB')).
  erewrite (map_ext _ _ (fun f => ltac:(idtac; refine (_ : match get_index f "bspot_id" with Ok i => match dget Z.eqb B' i with Some h => set_hyps f h | None => f end | _ => f end = match get_index f "bspot_id" with Ok i => match dget Z.eqb B i with Some h => set_hyps f h | None => f end | _ => f end); destruct (get_index f "bspot_id") as [i| |]; [rewrite (dget_perm B B' i NB PB)| |]; reflexivity)) fs').
  apply Permutation_map. exact P.
Qed.

(** ** finalvolumes *)
Lemma same_feature_refl : forall f, same_feature f f.
Proof.
  intros f. induction f as [|[k v] f IH]; constructor; [|exact IH]. split; [reflexivity|].
  destruct v as [[]|]; cbn; reflexivity.
Qed.

Lemma same_dset : forall k v w f g, same_value v w -> same_feature f g -> same_feature (dset String.eqb f k v) (dset String.eqb g k w).
Proof.
  intros k v w f g S H. induction H as [|[a x] [b y] f g (E & X) F IH]; cbn [dset].
  - constructor; [|constructor]. split; [reflexivity|exact S].
  - cbn [fst snd] in E, X. subst b. destruct (String.eqb a k); constructor; auto.
Qed.

Lemma pct_of : forall (n : @node Q) u e, e = settle QOps n u ->
  e_pct e = if neqb QOps (n_cap n) (nofZ QOps 0) then None else Some (ndiv QOps (nmul QOps (nofZ QOps 100) (e_vol e)) (n_cap n)).
Proof. intros n u e ->. reflexivity. Qed.

Definition upd (f : props) (o : option (@event Q)) : props := match o with Some e => set_event f e | None => f end.
Definition same_event (o o' : option (@event Q)) : Prop :=
  match o, o' with
  | Some e, Some e' => (e_vol e' == e_vol e)%Q /\ (e_spill e' == e_spill e)%Q /\
      match e_pct e, e_pct e' with Some p, Some p' => (p' == p)%Q | None, None => True | _, _ => False end
  | None, None => True
  | _, _ => False
  end.

Lemma upd_same : forall f o o', same_event o o' -> same_feature (upd f o) (upd f o').
Proof.
  intros f [e|] [e'|] H; cbn in H; try contradiction; [|apply same_feature_refl].
  destruct H as (V & S & P). unfold upd, set_event. apply same_dset; [|apply same_dset; [|apply same_dset; [|apply same_feature_refl]]]; cbn.
  - destruct (e_pct e), (e_pct e'); cbn; try contradiction; [symmetry; exact P|reflexivity].
  - symmetry. exact V.
  - symmetry. exact S.
Qed.

Lemma process_perm : forall (ns ns' : list (@node Q)) fuel fuel' out out', unique_ids ns -> Permutation ns ns' ->
  process QOps fuel ns = Ok out -> process QOps fuel' ns' = Ok out' ->
  map fst out = ns /\ map fst out' = ns' /\
  forall n o o', In (n, o) out -> In (n, o') out' -> same_event o o'.
Proof.
  intros ns ns' fuel fuel' out out' UI P H H'.
  assert (UI' : unique_ids ns') by (eapply Permutation_NoDup; [apply Permutation_map; exact P|exact UI]).
  destruct (process_spec _ _ _ _ H) as (M & evs & E & A & B). destruct (process_spec _ _ _ _ H') as (M' & evs' & E' & A' & B').
  rewrite index_unique in M, E by exact UI. rewrite index_unique in M', E' by exact UI'.
  split; [exact M|]. split; [exact M'|]. intros n o o' I I'.
  destruct o as [e|]; destruct o' as [e'|]; cbn.
  - destruct (A _ _ I) as (Ie & Ee & _). destruct (A' _ _ I') as (Ie' & Ee' & _).
    destruct (order_irrelevant ns ns' fuel fuel' evs evs' UI P E E' e Ie) as (e2 & I2 & E2 & V & S).
    destruct (run_facts ns' UI' _ _ E') as (rv & _ & _ & _ & _ & ND).
    assert (e2 = e') by (eapply NoDup_map_inj; [exact ND|exact I2|exact Ie'|congruence]). subst e2.
    split; [exact V|]. split; [exact S|].
    destruct (settled_event QOps ns fuel evs UI E e Ie) as (m & ue & Im & Em & _ & _ & X).
    destruct (settled_event QOps ns' fuel' evs' UI' E' e' Ie') as (m' & ue' & Im' & Em' & _ & _ & X').
    assert (m' = m).
    { eapply NoDup_map_inj; [exact UI'|exact Im'|eapply Permutation_in; [exact P|exact Im]|congruence]. } subst m'.
    rewrite (pct_of _ _ _ X), (pct_of _ _ _ X'). destruct (neqb QOps (n_cap m) (nofZ QOps 0)); [exact Logic.I|].
    cbn. rewrite V. reflexivity.
  - destruct (B' _ _ I') as (B1 & _). apply (B1 eq_refl). rewrite M'.
    destruct (B _ _ I) as (_ & B2). destruct (A _ _ I) as (Ie & Ee & _).
    destruct (run_facts ns UI _ _ E) as (rv & _ & _ & K & Ik & _). assert (X : In (n_id n) (map fst rv)).
    { rewrite <- Ik, <- Ee. apply in_map. exact Ie. } apply K in X. destruct X as (r & R). exists r. eapply root_of_perm; eassumption.
  - destruct (B _ _ I) as (B1 & _). apply (B1 eq_refl). rewrite M. destruct (A' _ _ I') as (Ie & Ee & _).
    destruct (run_facts ns' UI' _ _ E') as (rv & _ & _ & K & Ik & _). assert (X : In (n_id n) (map fst rv)).
    { rewrite <- Ik, <- Ee. apply in_map. exact Ie. } apply K in X. destruct X as (r & R). exists r. eapply root_of_perm; [apply Permutation_sym; exact P|exact R].
  - exact Logic.I.
Qed.

Lemma written : forall attribute fs out, distinct get_index "nodeid" fs -> final_state_tool attribute fs = Ok out ->
  exists ns final, mmap (solver_input attribute) fs = Ok ns /\ process QOps (length fs) ns = Ok final /\ unique_ids ns /\
    Forall2 (fun f g => exists n o, solver_input attribute f = Ok n /\ In (n, o) final /\ g = upd f o) fs out.
Proof.
  intros attribute fs out D H. unfold final_state_tool in H. apply bind_ok in H. destruct H as (d & Ed & H).
  destruct (index_distinct _ _ _ _ D Ed) as (ids & Ei & -> & N). pose proof (mmap_length _ _ _ Ei) as L.
  rewrite (combine_snd ids fs L) in H. apply bind_ok in H. destruct H as (ns & En & H). apply bind_ok in H. destruct H as (final & Ef & H).
  injection H as <-. exists ns, final. split; [exact En|]. split; [exact Ef|].
  assert (U : map n_id ns = ids).
  { clear - Ei En. apply mmap_all in Ei. apply mmap_all in En. revert ns En. induction Ei as [|f i fs ids X F IH]; intros ns En; inversion En; subst; [reflexivity|].
    cbn [map]. rewrite (IH _ H3). f_equal. unfold solver_input in H1. rewrite X in H1. cbn [bind] in H1.
    repeat (apply bind_ok in H1; destruct H1 as (? & _ & H1)). injection H1 as <-. reflexivity. }
  assert (UI : unique_ids ns) by (unfold unique_ids; rewrite U; exact N). split; [exact UI|].
  destruct (process_spec _ _ _ _ Ef) as (M & _). rewrite index_unique in M by exact UI.
  apply mmap_all in En. rewrite <- M in En. clear - En.
  enough (G : forall (F F0 : list (@node Q * option (@event Q))) fs, incl F F0 -> Forall2 (fun x y => solver_input attribute x = Ok y) fs (map fst F) ->
    Forall2 (fun f g => exists n o, solver_input attribute f = Ok n /\ In (n, o) F0 /\ g = upd f o) fs
      (map (fun '(f, (_, e)) => match e with Some e => set_event f e | None => f end) (combine fs F))) by (apply (G final final fs); [intros x I; exact I|exact En]).
  clear. induction F as [|[n o] F IH]; intros F0 fs I M; inversion M; subst; cbn [combine map]; constructor.
  - exists n, o. split; [assumption|]. split; [apply I; left; reflexivity|destruct o; reflexivity].
  - apply IH; [intros y Iy; apply I; right; exact Iy|assumption].
Qed.

Theorem final_order : forall attribute fs fs' out, Permutation fs fs' -> distinct get_index "nodeid" fs ->
  final_state_tool attribute fs = Ok out ->
  exists out', final_state_tool attribute fs' = Ok out' /\ same_features out out'.
Proof.
  intros attribute fs fs' out P D H.
  destruct (written _ _ _ D H) as (ns & final & En & Ef & UI & W).
  destruct (mmap_perm _ _ _ _ P En) as (ns' & En' & Pn).
  assert (UI' : unique_ids ns') by (eapply Permutation_NoDup; [apply Permutation_map; exact Pn|exact UI]).
  pose proof (distinct_perm _ _ _ _ P D) as D'.
  assert (T : exists out', final_state_tool attribute fs' = Ok out').
  { unfold final_state_tool in *. apply bind_ok in H. destruct H as (d & Ed & H).
    destruct (index_order _ _ _ _ _ P D Ed) as (ids & ids' & E1 & E2 & Pi & N & -> & E3 & Pd).
    rewrite E3. cbn [bind]. rewrite (combine_snd ids' fs' (mmap_length _ _ _ E2)), En'. cbn [bind].
    destruct (process_total QOps ns' (length fs')) as (o & Eo); [rewrite (mmap_length _ _ _ En'); lia|]. rewrite Eo. cbn [bind]. eauto. }
  destruct T as (out' & H'). exists out'. split; [exact H'|].
  destruct (written _ _ _ D' H') as (ns2 & final' & En2 & Ef' & _ & W').
  assert (ns2 = ns') by congruence. subst ns2.
  destruct (process_perm _ _ _ _ _ _ UI Pn Ef Ef') as (_ & _ & Ev).
  destruct (Permutation_Forall2 (Permutation_sym P) W') as (hs & Ph & Fh). exists hs. split; [exact Ph|].
  clear - W Fh Ev. revert hs Fh. induction W as [|f g fs out (n & o & E & I & ->) W IH]; intros hs Fh; inversion Fh; subst; constructor.
  - destruct H1 as (n' & o' & E' & I' & ->). assert (n' = n) by congruence. subst n'. apply upd_same. exact (Ev n o o' I I').
  - apply IH. assumption.
Qed.

(** ** The network functions on features *)
Theorem features_order : forall fuel flowdir labeled bg fs fs' out, Permutation fs fs' ->
  pourpoint_network_features fuel flowdir labeled fs bg = Ok out ->
  exists out', pourpoint_network_features fuel flowdir labeled fs' bg = Ok out' /\ Permutation out out'.
Proof.
  intros fuel flowdir labeled bg fs fs' out P H. unfold pourpoint_network_features in *.
  apply bind_ok in H. destruct H as (pairs & E & H). destruct (mmap_perm _ _ _ _ P E) as (pairs' & E' & P').
  change (feature_enumerator fs' = Ok pairs') in E'. rewrite E'. cbn [bind]. exact (mmap_perm _ _ _ _ P' H).
Qed.

Lemma enumerated : forall pps k, map (@pp_id Q) pps = zseq k (length pps) ->
  feature_enumerator (map pourpoint_props pps) = Ok (pourpoint_enumerator k (map (fun p => (pp_row p, pp_col p)) pps)).
Proof.
  induction pps as [|p pps IH]; intros k H; [reflexivity|]. cbn [map length zseq] in H.
  assert (A : pp_id p = k) by congruence. assert (B : map (@pp_id Q) pps = zseq (k + 1) (length pps)) by congruence.
  unfold feature_enumerator in *. cbn [map mmap]. rewrite (IH _ B). cbn. rewrite A. reflexivity.
Qed.

(** On the layer that bluespots writes the functions agree on features and on cell indexes. *)
Theorem features_as_cells : forall pps : list (@pourpoint Q), map pp_id pps = zseq 0 (length pps) ->
  forall fuel flowdir labeled bg,
  pourpoint_network_features fuel flowdir labeled (map pourpoint_props pps) bg =
    pourpoint_network fuel flowdir labeled (map (fun p => (pp_row p, pp_col p)) pps) bg /\
  geometric_pourpoint_network_features fuel flowdir labeled (map pourpoint_props pps) bg =
    geometric_pourpoint_network fuel flowdir labeled (map (fun p => (pp_row p, pp_col p)) pps) bg.
Proof.
  intros pps H fuel flowdir labeled bg. unfold pourpoint_network_features, geometric_pourpoint_network_features.
  rewrite (enumerated pps 0 H). split; reflexivity.
Qed.
