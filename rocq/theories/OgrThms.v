From Coq Require Import String.
From Verif Require Import Base BaseProofs Dict DictProofs OgrModel OgrSpec.
Local Open Scope list_scope.

Lemma existsb_name : forall n l, existsb (String.eqb n) l = true <-> In n l.
Proof.
  intros n l. rewrite existsb_exists. split.
  - intros (x & H & E). apply String.eqb_eq in E. subst. exact H.
  - intros H. exists n. split; [exact H|apply String.eqb_refl].
Qed.

Lemma Forall2_len : forall {A B} (R : A -> B -> Prop) l m, Forall2 R l m -> length l = length m.
Proof. induction 1; cbn [length]; congruence. Qed.

Lemma NoDup_app_one : forall (l : list string) n, NoDup l -> ~ In n l -> NoDup (l ++ [n]).
Proof.
  induction l as [|x l IH]; intros n ND N; cbn [app]; [constructor; [auto|constructor]|]. inversion ND as [|? ? N1 N2]; subst.
  constructor.
  - intros H. apply in_app_or in H. destruct H as [H|[->|[]]]; [exact (N1 H)|apply N; left; reflexivity].
  - apply IH; [exact N2|]. intros H. apply N. right. exact H.
Qed.

Lemma add_name_spec : forall l n, exists e, add_name l n = l ++ e /\ (forall a, In a (l ++ e) <-> In a l \/ a = n) /\
  (NoDup l -> NoDup (l ++ e)).
Proof.
  intros l n. unfold add_name. destruct (existsb (String.eqb n) l) eqn:E.
  - exists []. rewrite app_nil_r. apply existsb_name in E. split; [reflexivity|]. split; [|auto].
    intros a. split; [auto|]. intros [H| ->]; assumption.
  - exists [n]. split; [reflexivity|]. split.
    + intros a. rewrite in_app_iff. cbn [In]. intuition congruence.
    + intros ND. apply NoDup_app_one; [exact ND|]. intros H. apply existsb_name in H. congruence.
Qed.

Lemma add_names_spec : forall ns l, exists e, fold_left add_name ns l = l ++ e /\
  (forall a, In a (l ++ e) <-> In a l \/ In a ns) /\ (NoDup l -> NoDup (l ++ e)).
Proof.
  induction ns as [|n ns IH]; intros l; cbn [fold_left].
  - exists []. rewrite app_nil_r. split; [reflexivity|]. split; [|auto]. intros a. cbn [In]. tauto.
  - destruct (add_name_spec l n) as (e & -> & I & N). destruct (IH (l ++ e)) as (e' & -> & I' & N').
    exists (e ++ e'). rewrite app_assoc. split; [reflexivity|]. split; [|auto].
    intros a. rewrite I', I. cbn [In]. intuition.
Qed.

Section Ogr.
Context {V : Type}.
Notation feature := (feature V).
Notation layer := (layer V).

Lemma fields_spec : forall (fs : list feature) l, exists e, fold_left (fun names f => fold_left add_name (map fst f) names) fs l = l ++ e /\
  (forall a, In a (l ++ e) <-> In a l \/ exists f, In f fs /\ In a (map fst f)) /\ (NoDup l -> NoDup (l ++ e)).
Proof.
  induction fs as [|f fs IH]; intros l; cbn [fold_left].
  - exists []. rewrite app_nil_r. split; [reflexivity|]. split; [|auto]. intros a. split; [auto|].
    intros [H|(f & [] & _)]; exact H.
  - destruct (add_names_spec (map fst f) l) as (e & -> & I & N). destruct (IH (l ++ e)) as (e' & -> & I' & N').
    exists (e ++ e'). rewrite app_assoc. split; [reflexivity|]. split; [|auto].
    intros a. rewrite I', I. split.
    + intros [[H|H]|(g & Hg & H)]; [auto|right; exists f; split; [left; reflexivity|exact H]|right; exists g; split; [right; exact Hg|exact H]].
    + intros [H|(g & [<-|Hg] & H)]; [auto|auto|right; exists g; auto].
Qed.

(** A layer holds the features fs. *)
Definition holds (l : layer) (fs : list feature) : Prop :=
  NoDup (ly_fields l) /\ (forall a, In a (ly_fields l) <-> exists f, In f fs /\ In a (map fst f)) /\
  ly_features l = map (fun f => map (value_of f) (ly_fields l)) fs.

Lemma value_absent : forall (f : feature) a, ~ In a (map fst f) -> value_of f a = None.
Proof.
  intros f a H. unfold value_of. destruct (dget String.eqb f a) as [v|] eqn:E; [|reflexivity].
  exfalso. apply H. apply (dget_in String.eqb String.eqb_spec) in E. apply (in_map fst) in E. exact E.
Qed.

Lemma write_all : forall fs (l : layer), 
  fold_left write_feature fs l = mkLayer (ly_fields l) (ly_features l ++ map (fun f => map (value_of f) (ly_fields l)) fs).
Proof.
  induction fs as [|f fs IH]; intros [F R]; cbn [fold_left map ly_fields ly_features].
  - rewrite app_nil_r. reflexivity.
  - rewrite IH. cbn [write_feature ly_fields ly_features]. rewrite <- app_assoc. reflexivity.
Qed.

Lemma holds_write : forall (l : layer) old fs, holds l old ->
  holds (fold_left write_feature fs (match fs with [] => l | _ => init_fields l (feature_fields fs) end)) (old ++ fs).
Proof.
  intros l old fs (ND & F & R).
  destruct fs as [|f0 fs0]; [cbn [fold_left]; rewrite app_nil_r; split; auto|].
  set (fs := f0 :: fs0). rewrite write_all. unfold init_fields, feature_fields.
  destruct (fields_spec fs []) as (e & Ee & Ie & _). cbn [app] in Ee, Ie. rewrite Ee.
  destruct (add_names_spec e (ly_fields l)) as (x & Ex & Ix & Nx). rewrite Ex. cbn [ly_fields ly_features].
  split; [apply Nx; exact ND|]. split.
  - intros a. rewrite Ix, F, Ie. split.
    + intros [(g & Hg & H)|[[]|(g & Hg & H)]]; exists g; split; auto; apply in_or_app; auto.
    + intros (g & Hg & H). apply in_app_or in Hg. destruct Hg as [Hg|Hg]; [left; eauto|right; right; eauto].
  - cbn [ly_features ly_fields]. rewrite R, map_map, map_app. f_equal. apply map_ext_in. intros g Hg.
    rewrite map_app, map_length, app_length. f_equal.
    replace (length (ly_fields l) + length x - length (ly_fields l))%nat with (length x) by lia.
    assert (A : forall y, In y x -> value_of g y = None).
    { intros y Hy. apply value_absent. intros K. specialize (Nx ND).
      assert (Q : In y (ly_fields l)) by (apply F; exists g; auto).
      clear - Nx Q Hy. induction (ly_fields l) as [|z t IH]; [destruct Q|]. cbn [app] in Nx. inversion Nx as [|? ? N1 N2]; subst.
      destruct Q as [->|Q]; [apply N1; apply in_or_app; right; exact Hy|auto]. }
    clear - A. induction x as [|y x IH]; cbn [map repeat length]; [reflexivity|]. rewrite (A y) by (left; reflexivity).
    f_equal. apply IH. intros z Hz. apply A. right. exact Hz.
Qed.

Lemma holds_empty : holds (mkLayer [] []) [].
Proof.
  split; [constructor|]. split; [|reflexivity]. intros a. cbn [ly_fields In]. split; [tauto|]. intros (f & [] & _).
Qed.

(** Every layer holds what was written under its name. *)
Definition tracks (ds : datasource V) (ws : list (string * list feature)) : Prop :=
  forall n, match dget String.eqb (match ds with Some l => l | None => [] end) n with
            | Some l => holds l (written n ws) /\ (exists w, In w ws /\ fst w = n)
            | None => forall w, In w ws -> fst w <> n
            end.

Lemma written_snoc : forall n ws m (fs : list feature), written n (ws ++ [(m, fs)]) = written n ws ++ (if String.eqb m n then fs else []).
Proof.
  intros n ws m fs. unfold written. rewrite filter_app, map_app, concat_app. cbn [filter fst].
  destruct (String.eqb m n); cbn [map concat snd]; rewrite ?app_nil_r; reflexivity.
Qed.

Lemma written_none : forall n (ws : list (string * list feature)), (forall w, In w ws -> fst w <> n) -> written n ws = [].
Proof.
  intros n ws H. unfold written. replace (filter (fun w => String.eqb (fst w) n) ws) with (@nil (string * list feature)); [reflexivity|].
  symmetry. induction ws as [|w ws IH]; [reflexivity|]. cbn [filter].
  destruct (String.eqb_spec (fst w) n) as [E|_]; [exfalso; apply (H w); [left; reflexivity|exact E]|]. apply IH.
  intros v Hv. apply H. right. exact Hv.
Qed.

Lemma after_tracks : forall ws, tracks (after ws) ws.
Proof.
  induction ws as [|[m fs] ws IH] using rev_ind.
  - intros n. cbn. intros w [].
  - unfold after. rewrite fold_left_app. cbn [fold_left fst snd]. fold (after ws). set (ds := after ws) in *.
    intros n. specialize (IH n) as IHn. specialize (IH m) as IHm.
    unfold write_features. set (ls := match ds with Some l => l | None => [] end) in *.
    destruct (String.eqb_spec m n) as [<-|NE].
    + rewrite (dget_dset_same String.eqb String.eqb_spec). rewrite written_snoc, String.eqb_refl. split.
      * destruct (dget String.eqb ls m) as [l|]; [apply holds_write; apply IHm|].
        rewrite (written_none m ws IHm). apply (holds_write (mkLayer [] []) []). apply holds_empty.
      * exists (m, fs). split; [apply in_or_app; right; left; reflexivity|reflexivity].
    + rewrite (dget_dset_other String.eqb String.eqb_spec) by exact NE. rewrite written_snoc.
      destruct (String.eqb_spec m n) as [|_]; [contradiction|]. rewrite app_nil_r.
      destruct (dget String.eqb ls n) as [l|].
      * destruct IHn as (A & w & B & C). split; [exact A|]. exists w. split; [apply in_or_app; left; exact B|exact C].
      * intros w Hw. apply in_app_or in Hw. destruct Hw as [Hw|[<-|[]]]; [apply IHn; exact Hw|exact NE].
Qed.

Lemma dget_combine : forall F (f : feature) a, NoDup F ->
  dget String.eqb (combine F (map (value_of f) F)) a = if existsb (String.eqb a) F then Some (value_of f a) else None.
Proof.
  induction F as [|x F IH]; intros f a ND; [reflexivity|]. inversion ND; subst. cbn [map combine dget existsb].
  rewrite (String.eqb_sym a x). destruct (String.eqb_spec x a) as [->|N]; [reflexivity|]. cbn [orb]. apply IH. assumption.
Qed.

(** ** C73 *)
Theorem read_written : forall (ws : list (string * list feature)) n, n <> ""%string -> (exists w, In w ws /\ fst w = n) ->
  exists gs, read_features (after ws) (Some n) = Ok gs /\ Forall2 (carries (written n ws)) (written n ws) gs.
Proof.
  intros ws n NE W. pose proof (after_tracks ws n) as T. unfold read_features.
  destruct (String.eqb_spec n "") as [|_]; [contradiction|].
  destruct (after ws) as [ls|]; cbn [dget] in T.
  2:{ destruct W as (w & A & B). exfalso. exact (T w A B). }
  destruct (dget String.eqb ls n) as [l|]; [|destruct W as (w & A & B); exfalso; exact (T w A B)].
  destruct T as ((ND & F & R) & _). eexists. split; [reflexivity|]. rewrite R, map_map.
  assert (K : forall fs, (forall f, In f fs -> In f (written n ws)) ->
    Forall2 (carries (written n ws)) fs (map (fun f => combine (ly_fields l) (map (value_of f) (ly_fields l))) fs)).
  { induction fs as [|f fs IH]; intros S; cbn [map]; constructor; [|apply IH; intros g Hg; apply S; right; exact Hg].
    intros a. rewrite dget_combine by exact ND. specialize (S f (or_introl eq_refl)). split; [|split].
    - intros v E. assert (I : In a (ly_fields l)).
      { apply F. exists f. split; [exact S|]. apply (dget_in String.eqb String.eqb_spec) in E. apply (in_map fst) in E. exact E. }
      apply existsb_name in I. rewrite I. unfold value_of. rewrite E. reflexivity.
    - intros E (f' & Hf & Ha). assert (I : In a (ly_fields l)) by (apply F; eauto).
      apply existsb_name in I. rewrite I. unfold value_of. rewrite E. reflexivity.
    - intros A. destruct (existsb (String.eqb a) (ly_fields l)) eqn:E; [|reflexivity].
      apply existsb_name, F in E. destruct E as (f' & Hf & Ha). exfalso. exact (A f' Hf Ha). }
  apply K. auto.
Qed.

Theorem read_missing : forall (ws : list (string * list feature)) n, n <> ""%string -> (forall w, In w ws -> fst w <> n) ->
  read_features (after ws) (Some n) = Exc PlainException.
Proof.
  intros ws n NE W. pose proof (after_tracks ws n) as T. unfold read_features.
  destruct (String.eqb_spec n "") as [|_]; [contradiction|].
  destruct (after ws) as [ls|]; [|reflexivity]. destruct (dget String.eqb ls n) as [l|]; [|reflexivity].
  destruct T as (_ & w & A & B). exfalso. exact (W w A B).
Qed.

Theorem twice_doubles : forall (ws : list (string * list feature)) n fs, n <> ""%string -> (forall w, In w ws -> fst w <> n) ->
  fs <> [] ->
  exists g gs, read_features (write_features (after ws) n fs) (Some n) = Ok g /\
    read_features (write_features (write_features (after ws) n fs) n fs) (Some n) = Ok gs /\
    length g = length fs /\ length gs = (2 * length fs)%nat /\ g <> gs.
Proof.
  intros ws n fs NE W Nf.
  destruct (read_written (ws ++ [(n, fs)]) n NE) as (g & E & K).
  { exists (n, fs). split; [apply in_or_app; right; left; reflexivity|reflexivity]. }
  destruct (read_written ((ws ++ [(n, fs)]) ++ [(n, fs)]) n NE) as (gs & E' & K').
  { exists (n, fs). split; [apply in_or_app; right; left; reflexivity|reflexivity]. }
  unfold after in E, E'. rewrite !fold_left_app in E'. rewrite fold_left_app in E. cbn [fold_left fst snd] in E, E'.
  apply Forall2_len in K. apply Forall2_len in K'.
  rewrite !written_snoc, !String.eqb_refl, (written_none n ws W) in K'. rewrite written_snoc, String.eqb_refl, (written_none n ws W) in K.
  rewrite !app_length in K'. rewrite app_length in K. cbn [length] in K, K'. exists g, gs. split; [exact E|]. split; [exact E'|].
  split; [lia|]. split; [lia|]. intros <-. destruct fs; [contradiction|]. cbn [length] in *. lia.
Qed.
End Ogr.
