(** * Any history of the vector commands leaves copies of the right features *)

From Coq Require Import QArith Qabs String.
From Verif Require Import Base BaseProofs Num Float64 Dict DictProofs DemModel LabelModel VectorModel BluespotModel NetModel
  NetworkModel NetworkProofs NetworkThms RainModel PipelineModel HypsModel ApproxModel CompleteModel OgrModel OgrSpec OgrThms
  CmdModel CmdSpec CmdThms HistoryModel.
Local Open Scope Z_scope.
Local Open Scope list_scope.

(** ** Copies *)
Definition copies {A} (l : list A) (k : nat) : list A := concat (repeat l k).

Lemma copies_S : forall {A} (l : list A) k, copies l (S k) = l ++ copies l k.
Proof. reflexivity. Qed.

Lemma copies_add : forall {A} (l : list A) a b, copies l (a + b) = copies l a ++ copies l b.
Proof. intros A l a b. unfold copies. rewrite repeat_app, concat_app. reflexivity. Qed.

Lemma copies_one : forall {A} (l : list A), copies l 1 = l.
Proof. intros A l. rewrite copies_S. apply app_nil_r. Qed.

Lemma map_copies : forall {A B} (f : A -> B) l k, map f (copies l k) = copies (map f l) k.
Proof. intros A B f l k. induction k as [|k IH]; [reflexivity|]. rewrite !copies_S, map_app, IH. reflexivity. Qed.

Lemma filter_copies : forall {A} (f : A -> bool) l k, filter f (copies l k) = copies (filter f l) k.
Proof. intros A f l k. induction k as [|k IH]; [reflexivity|]. rewrite !copies_S, filter_app, IH. reflexivity. Qed.

Lemma mmap_app_ok : forall {A B} (f : A -> res B) l r l' r', mmap f l = Ok r -> mmap f l' = Ok r' -> mmap f (l ++ l') = Ok (r ++ r').
Proof.
  intros A B f l. induction l as [|x l IH]; intros r l' r' E E'; cbn [mmap app] in *; [injection E as <-; exact E'|].
  apply bind_ok in E. destruct E as (y & Ey & E). apply bind_ok in E. destruct E as (ys & Es & E). injection E as <-.
  rewrite Ey. cbn [bind]. rewrite (IH ys l' r' Es E'). reflexivity.
Qed.

Lemma mmap_copies : forall {A B} (f : A -> res B) l r k, mmap f l = Ok r -> mmap f (copies l k) = Ok (copies r k).
Proof. intros A B f l r k E. induction k as [|k IH]; [reflexivity|]. rewrite !copies_S. apply mmap_app_ok; assumption. Qed.

Lemma Forall2_copies : forall {A B C} (R : A -> C -> Prop) (S : B -> C -> Prop) l l', (forall gs, Forall2 R l gs -> Forall2 S l' gs) ->
  forall k gs, Forall2 R (copies l k) gs -> Forall2 S (copies l' k) gs.
Proof.
  intros A B C R S l l' H k. induction k as [|k IH]; intros gs F; [inversion F; constructor|].
  rewrite copies_S in *. apply Forall2_app_inv_l in F. destruct F as (g1 & g2 & F1 & F2 & ->). apply Forall2_app; auto.
Qed.

(** ** A dictionary filled again with the same entries *)
Section Index.
Context {A B : Type}.
Variables (key : A -> Z) (val : A -> B).
Notation put := (fun d x => dset Z.eqb d (key x) (val x)).

Lemma index_app : forall l d k, dget Z.eqb (fold_left put l d) k =
  match dget Z.eqb (fold_left put l []) k with Some v => Some v | None => dget Z.eqb d k end.
Proof.
  induction l as [|x l IH] using rev_ind; intros d k; [reflexivity|]. rewrite !fold_left_app. cbn [fold_left].
  destruct (Z.eqb_spec (key x) k) as [<-|N]; [rewrite !(dget_dset_same Z.eqb Z.eqb_spec); reflexivity|].
  rewrite !(dget_dset_other Z.eqb Z.eqb_spec) by exact N. apply IH.
Qed.

Lemma index_nodup : forall l d, NoDup (map fst d) -> NoDup (map fst (fold_left put l d)).
Proof. induction l as [|x l IH]; intros d ND; cbn [fold_left]; [exact ND|]. apply IH. apply dset_nodup; [apply Z.eqb_spec|exact ND]. Qed.

Lemma index_has_keys : forall l d x, In x l -> In (key x) (map fst (fold_left put l d)).
Proof.
  induction l as [|y l IH] using rev_ind; intros d x I; [destruct I|]. rewrite fold_left_app. cbn [fold_left].
  apply (dset_keys Z.eqb Z.eqb_spec). apply in_app_or in I. destruct I as [I|[->|[]]]; [right; apply IH; exact I|left; reflexivity].
Qed.

Lemma index_same_keys : forall l d, (forall x, In x l -> In (key x) (map fst d)) -> map fst (fold_left put l d) = map fst d.
Proof.
  induction l as [|y l IH]; intros d H; cbn [fold_left]; [reflexivity|].
  assert (E : map fst (dset Z.eqb d (key y) (val y)) = map fst d).
  { apply (dset_keys_present Z.eqb Z.eqb_spec). apply H. left. reflexivity. }
  rewrite IH; [exact E|]. intros x I. rewrite E. apply H. right. exact I.
Qed.

Lemma dict_ext : forall (d d' : list (Z * B)), map fst d = map fst d' -> NoDup (map fst d) ->
  (forall k, dget Z.eqb d k = dget Z.eqb d' k) -> d = d'.
Proof.
  induction d as [|[k v] d IH]; intros [|[k' v'] d'] E ND H; cbn [map fst] in E; try discriminate E; [reflexivity|].
  injection E as <- E. inversion ND as [|? ? N1 N2]; subst. f_equal.
  - specialize (H k). cbn [dget] in H. rewrite Z.eqb_refl in H. congruence.
  - apply IH; [exact E|exact N2|]. intros j. specialize (H j). cbn [dget] in H.
    destruct (Z.eqb_spec k j) as [Ek|N]; [|exact H]. subst j.
    rewrite (proj2 (dget_none Z.eqb Z.eqb_spec d k) N1). symmetry. apply (dget_none Z.eqb Z.eqb_spec). rewrite <- E. exact N1.
Qed.

Lemma index_once_more : forall l, fold_left put l (fold_left put l []) = fold_left put l [].
Proof.
  intros l. apply dict_ext.
  - apply index_same_keys. intros x I. apply index_has_keys. exact I.
  - apply index_nodup. apply index_nodup. constructor.
  - intros k. rewrite index_app. destruct (dget Z.eqb (fold_left put l []) k); reflexivity.
Qed.

Lemma index_copies : forall l k, fold_left put (copies l (S k)) [] = fold_left put l [].
Proof.
  intros l k. rewrite copies_S, fold_left_app. induction k as [|k IH]; [reflexivity|].
  rewrite copies_S, fold_left_app, index_once_more. exact IH.
Qed.
End Index.

(** ** The solver *)
Lemma process_more : forall fuel fuel' (l : list (@node Q)) out, process QOps fuel l = Ok out -> (fuel <= fuel')%nat ->
  process QOps fuel' l = Ok out.
Proof.
  intros fuel fuel' l out H Le. unfold process in *. cbv zeta in *.
  apply bind_ok in H. destruct H as (evs & E & H). unfold rain_event in *. apply bind_ok in E. destruct E as (rv & E & Er).
  pose proof (rain_mono QOps _ _ _ _ _ E fuel' Le) as E'. unfold nw in E'. rewrite E'. cbn [bind]. injection Er as ->. exact H.
Qed.

Lemma process_copies : forall fuel (l : list (@node Q)) out k, process QOps fuel l = Ok out -> (fuel <= length (copies l (S k)))%nat ->
  process QOps (length (copies l (S k))) (copies l (S k)) = Ok out.
Proof.
  intros fuel l out k H Le. rewrite <- (process_more _ _ _ _ H Le). unfold process.
  rewrite (index_copies (@n_id Q) (fun n => n) l k). reflexivity.
Qed.

Lemma nv_index_copies : forall vols k, nv_index (copies vols (S k)) = nv_index vols.
Proof. intros vols k. apply (index_copies nv_id (fun x => x)). Qed.

(** ** Invariant *)
Lemma write_layers_after : forall wl (ws : list (string * list props)), write_layers (after ws) wl = after (ws ++ wl).
Proof.
  induction wl as [|[x fs] wl IH]; intros ws; cbn [write_layers fold_left]; [rewrite app_nil_r; reflexivity|].
  cbn [fst snd]. rewrite after_snoc. fold (write_layers (after (ws ++ [(x, fs)])) wl). rewrite IH, <- app_assoc. reflexivity.
Qed.

Lemma exec_writes : forall s c ds, exec s c ds = (wl <- cmd_writes s c ds ;; Ok (write_layers ds wl)).
Proof.
  intros [fuel t dem fd bs mm zr a L] c ds. destruct c; unfold exec, cmd_writes;
    cbn [s_fuel s_gt s_dem s_flowdir s_bluespots s_mm s_zresolution s_attribute s_names].
  - unfold cmd_network. destruct (read_features ds _) as [fs| |]; cbn [bind]; try reflexivity.
    destruct (stream_tool _ _ _ _) as [[ns ss]| |]; reflexivity.
  - unfold cmd_initvolumes_mm. destruct (initvolumes_source _ _ _ _); cbn [bind]; try reflexivity.
    destruct (read_features ds _) as [fs| |]; cbn [bind]; try reflexivity. destruct (simple_volume_tool _ _ _); reflexivity.
  - unfold cmd_finalvolumes. destruct (read_features ds _) as [fs| |]; cbn [bind]; try reflexivity.
    destruct (final_state_tool _ _); reflexivity.
  - unfold cmd_hyps. destruct (read_features ds _) as [fs| |]; cbn [bind]; try reflexivity. destruct (hyps_tool _ _ _ _ _); reflexivity.
  - unfold cmd_finallevels. destruct (read_features ds _) as [fs| |]; cbn [bind]; try reflexivity.
    destruct (read_features ds (Some (l_hyps L))) as [hs| |]; cbn [bind]; try reflexivity. destruct (levels_tool _ _); reflexivity.
Qed.

(** The features are copies, m or more, of features that are right for rs. *)
Definition cop {A} (R : A -> props -> Prop) (rs : list A) (m : nat) (fs : list props) : Prop :=
  exists k, (m <= k)%nat /\ Forall2 R (copies rs k) fs.

Definition closed (pr : list props -> Prop) : Prop :=
  pr [] /\ (forall a b, pr a -> pr b -> pr (a ++ b)) /\ (forall a b, pr a -> Forall2 keeps a b -> pr b).

Lemma cop_app : forall {A} (R : A -> props -> Prop) rs m m' a b, cop R rs m a -> cop R rs m' b -> cop R rs (m + m') (a ++ b).
Proof.
  intros A R rs m m' a b (k & L & F) (k' & L' & F'). exists (k + k')%nat. split; [lia|]. rewrite copies_add. apply Forall2_app; assumption.
Qed.

Lemma cop_keeps : forall {A} (R : A -> props -> Prop) rs m a b, (forall r f g, keeps f g -> R r f -> R r g) ->
  cop R rs m a -> Forall2 keeps a b -> cop R rs m b.
Proof. intros A R rs m a b H (k & L & F) K. exists k. split; [exact L|]. eapply keeps_full; eauto. Qed.

Lemma cop_closed : forall {A} (R : A -> props -> Prop) rs, (forall r f g, keeps f g -> R r f -> R r g) -> closed (cop R rs 0).
Proof.
  intros A R rs H. split; [exists 0%nat; split; [lia|constructor]|]. split.
  - intros a b. apply (cop_app R rs 0 0).
  - intros a b. apply cop_keeps. exact H.
Qed.

Lemma cop_once : forall {A} (R : A -> props -> Prop) rs fs, Forall2 R rs fs -> cop R rs 1 fs.
Proof. intros A R rs fs F. exists 1%nat. split; [lia|]. rewrite copies_one. exact F. Qed.

Lemma cop_less : forall {A} (R : A -> props -> Prop) rs m m' fs, cop R rs m fs -> (m' <= m)%nat -> cop R rs m' fs.
Proof. intros A R rs m m' fs (k & L & F) Le. exists k. split; [lia|exact F]. Qed.

Lemma has_kept : forall {A} (at_of : A -> list (string * option value)) r f g, keeps f g -> has f (at_of r) -> has g (at_of r).
Proof. intros A at_of r f g K Hh. eapply has_keeps; eauto. Qed.

Lemma volume_kept : forall attribute nv f g, keeps f g -> volume_full attribute nv f -> volume_full attribute nv g.
Proof. intros attribute nv f g K (A & q & B). split; [eapply has_keeps; eauto|]. exists q. eapply get_float_keeps; eauto. Qed.

Lemma final_kept : forall x f g, keeps f g -> final_full x f -> final_full x g.
Proof. intros x f g K (A & B). split; eapply has_keeps; eauto. Qed.

Section History.
Variables (fuel : nat) (t : geotransform b64) (dem : raster b64) (flowdir labels : raster Z) (mm zres : Q) (attribute : string)
  (L : layer_names) (pps : list (@pourpoint Q)) (nodes : list (@node_feature Q)) (streams : list (@stream_feature Q))
  (final : list (@node Q * option (@event Q))) (hfs : list (@hyps_feature Q)) (his : list (@hyps_input Q))
  (ffs : list (@final_feature Q)) (levels : list (@level_feature Q)) (ws0 : list (string * list props)).
Let vols := simple_volumes QOps mm nodes.
Hypothesis Es : stream_process QOps fuel (gt_Q t) flowdir labels pps true = Ok (nodes, streams).
Hypothesis Ep : process QOps (length vols) (map solver_node vols) = Ok final.
Hypothesis Eh : bluespot_hypsometry_io QOps Q_int q_inf (- q_inf)%Q labels (raster_Q dem)
  (Qabs (b64_Q (gt5 t)), Qabs (b64_Q (gt1 t))) (map pp_id pps) zres = Ok hfs.
Hypothesis Ei : mmap (hyps_input_of (pp_index_of pps)) hfs = Ok his.
Hypothesis Ef : mmap (final_feature_of (fold_left (fun d nv => dset Z.eqb d (nf_id (fst nv)) (fst nv)) vols [])) final = Ok ffs.
Hypothesis El : approx_water_level_io QOps ffs his = Ok levels.
Hypothesis Nk : names_ok L ws0.
Hypothesis Ra : ~ In attribute reserved.
Hypothesis Nm : ~ (mm == 0)%Q.

Let s := mkSetting fuel t dem flowdir labels mm zres attribute L.
Let FR := combine (map snd (nv_index vols)) final.
Let P := map pourpoint_props pps.

Definition specs : list (string * (list props -> Prop)) :=
  [(l_nodes L, cop (fun n g => has g (node_attrs n)) nodes 0);
   (l_streams L, cop (fun n g => has g (stream_attrs n)) streams 0);
   (l_init L, cop (volume_full attribute) vols 0);
   (l_final L, cop final_full FR 0);
   (l_hyps L, cop (fun i g => has g (hyps_attrs i)) his 0);
   (l_levels L, cop (fun l g => has g (level_full l)) levels 0)].

Definition inv (ws : list (string * list props)) : Prop :=
  In (l_pourpoints L) (map fst ws) /\ written (l_pourpoints L) ws = P /\ forall x pr, In (x, pr) specs -> pr (written x ws).

Definition good (w : string * list props) : Prop := exists pr, In (fst w, pr) specs /\ pr (snd w).

Lemma specs_closed : forall x pr, In (x, pr) specs -> closed pr.
Proof.
  intros x pr I. unfold specs in I. cbn [In] in I.
  repeat (destruct I as [I|I]; [injection I as <- <-; apply cop_closed; first [apply has_kept|apply volume_kept|apply final_kept]|]).
  destruct I.
Qed.

Lemma specs_names : map fst specs = [l_nodes L; l_streams L; l_init L; l_final L; l_hyps L; l_levels L].
Proof. reflexivity. Qed.

Lemma specs_unique : forall x pr pr', In (x, pr) specs -> In (x, pr') specs -> pr = pr'.
Proof.
  intros x pr pr'. assert (ND : NoDup (map fst specs)).
  { rewrite specs_names. destruct Nk as (ND & _). inversion ND; assumption. }
  revert ND. induction specs as [|[y q] l IH]; intros ND I I'; [destruct I|]. inversion ND as [|? ? N1 N2]; subst.
  destruct I as [I|I], I' as [I'|I'].
  - congruence.
  - injection I as -> ->. exfalso. apply N1. apply (in_map fst) in I'. exact I'.
  - injection I' as -> ->. exfalso. apply N1. apply (in_map fst) in I. exact I.
  - exact (IH N2 I I').
Qed.

Lemma specs_not_pour : forall x pr, In (x, pr) specs -> x <> l_pourpoints L.
Proof.
  intros x pr I ->. apply (in_map fst) in I. rewrite specs_names in I. destruct Nk as (ND & _). inversion ND as [|? ? N1 N2]; subst. exact (N1 I).
Qed.

Lemma inv_good : forall ws w, inv ws -> good w -> inv (ws ++ [w]).
Proof.
  intros ws [x fs] (I & W & S) (pr & Ip & Hp). cbn [fst snd] in Ip, Hp. split; [rewrite map_app; apply in_or_app; left; exact I|]. split.
  - rewrite written_snoc. rewrite (proj2 (String.eqb_neq x (l_pourpoints L)) (specs_not_pour _ _ Ip)). rewrite app_nil_r. exact W.
  - intros y q Iq. rewrite written_snoc. destruct (specs_closed _ _ Iq) as (C0 & C1 & _).
    destruct (String.eqb_spec x y) as [<-|N]; [|rewrite app_nil_r; exact (S y q Iq)].
    apply C1; [exact (S x q Iq)|]. rewrite (specs_unique _ _ _ Iq Ip). exact Hp.
Qed.

Lemma inv_goods : forall wl ws, inv ws -> Forall good wl -> inv (ws ++ wl).
Proof.
  induction wl as [|w wl IH]; intros ws I G; [rewrite app_nil_r; exact I|]. inversion G; subst.
  replace (ws ++ w :: wl) with ((ws ++ [w]) ++ wl) by (rewrite <- app_assoc; reflexivity). apply IH; [apply inv_good; assumption|assumption].
Qed.

Lemma good_empty : forall x fs, good (x, fs) -> good (x, []).
Proof. intros x fs (pr & I & _). exists pr. split; [exact I|]. apply (specs_closed _ _ I). Qed.

Lemma name_full : forall x, In x (l_pourpoints L :: map fst specs) -> x <> ""%string.
Proof. intros x I ->. destruct Nk as (_ & NE & _). apply NE. exact I. Qed.

(** Reading. *)
Lemma read_pour : forall ws, inv ws -> exists gs, read_features (after ws) (Some (l_pourpoints L)) = Ok gs /\
  Forall2 (fun p g => has g (pourpoint_props p)) pps gs.
Proof.
  intros ws (I & W & _). destruct (read_kept ws _ P (name_full _ (or_introl eq_refl)) I W) as (gs & R & K).
  exists gs. split; [exact R|]. eapply keeps_full; [apply has_kept| |exact K].
  apply Forall2_self. intros q. unfold has, pourpoint_props. repeat constructor.
Qed.

Lemma read_layer : forall ws x, In x (map fst specs) ->
  (~ In x (map fst ws) /\ read_features (after ws) (Some x) = Exc PlainException) \/
  (In x (map fst ws) /\ exists gs, read_features (after ws) (Some x) = Ok gs /\ Forall2 keeps (written x ws) gs).
Proof.
  intros ws x I. assert (N : x <> ""%string) by (apply name_full; right; exact I).
  destruct (in_dec string_dec x (map fst ws)) as [J|J].
  - right. split; [exact J|]. apply (read_kept ws x _ N J eq_refl).
  - left. split; [exact J|]. apply (read_missing ws x N). intros w Hw E. apply J. rewrite <- E. apply in_map. exact Hw.
Qed.

(** The commands. *)
Lemma run_network : forall ws, inv ws -> exists N S, cmd_writes s Network (after ws) = Ok [(l_nodes L, N); (l_streams L, S)] /\
  Forall2 (fun n g => has g (node_attrs n)) nodes N /\ Forall2 (fun n g => has g (stream_attrs n)) streams S.
Proof.
  intros ws I. destruct (read_pour ws I) as (gs & R & F). destruct (network_tool_ok _ _ _ _ _ _ _ _ Es F) as (N & S & E & FN & FS).
  exists N, S. split; [|split; assumption]. unfold cmd_writes, s. cbn [s_names s_fuel s_flowdir s_bluespots].
  rewrite R. cbn [bind]. rewrite E. reflexivity.
Qed.

Lemma run_hyps : forall ws, inv ws -> exists H, cmd_writes s Hyps (after ws) = Ok [(l_hyps L, H)] /\
  Forall2 (fun i g => has g (hyps_attrs i)) his H.
Proof.
  intros ws I. destruct (read_pour ws I) as (gs & R & F). destruct (hyps_tool_ok t labels dem zres pps gs hfs his F Eh Ei) as (H & E & FH).
  exists H. split; [|exact FH]. unfold cmd_writes, s. cbn [s_names s_gt s_dem s_zresolution s_bluespots].
  rewrite R. cbn [bind]. rewrite E. reflexivity.
Qed.

Lemma source_mm : initvolumes_source QOps (Some mm) false false = Ok Use_mm.
Proof.
  unfold initvolumes_source, truthy. cbn [neqb QOps nofZ]. rewrite andb_false_r.
  destruct (Qeq_bool mm (inject_Z 0)) eqn:Q; [apply Qeq_bool_eq in Q; contradiction|]. reflexivity.
Qed.

Lemma init_tool_copies : forall m gs, cop (fun n g => has g (node_attrs n)) nodes m gs ->
  exists V, simple_volume_tool mm attribute gs = Ok V /\ cop (volume_full attribute) vols m V.
Proof.
  intros m gs (k & Lk & F). destruct (volume_tool_ok mm attribute _ gs Ra F) as (V & E & FV). exists V. split; [exact E|].
  exists k. split; [exact Lk|]. unfold vols, simple_volumes in *. rewrite map_copies in FV. exact FV.
Qed.

Lemma final_tool_copies : forall m gs, (m <= 1)%nat -> cop (volume_full attribute) vols m gs ->
  exists F, final_state_tool attribute gs = Ok F /\ cop final_full FR m F.
Proof.
  intros m gs Lm (k & Lk & F). destruct k as [|k].
  - inversion F; subst. exists []. split; [reflexivity|]. exists 0%nat. split; [lia|constructor].
  - assert (P1 : process QOps (length (copies vols (S k))) (map solver_node (copies vols (S k))) = Ok final).
    { rewrite map_copies. rewrite <- (map_length solver_node (copies vols (S k))), map_copies. eapply process_copies; [exact Ep|].
      rewrite copies_S, app_length, map_length. lia. }
    destruct (final_tool_ok attribute _ gs final Ra F P1) as (_ & _ & fs & E & FF). exists fs. split; [exact E|].
    apply (cop_less _ _ 1); [|exact Lm]. apply cop_once. rewrite nv_index_copies in FF. exact FF.
Qed.

Lemma final_fst : map fst final = map solver_node (map snd (nv_index vols)).
Proof.
  destruct (process_spec _ _ _ _ Ep) as (M & _). rewrite M. unfold index_of.
  pose proof (index_map solver_node (@n_id Q) vols []) as Ix. cbn [map] in Ix. rewrite Ix.
  change (fold_left (fun d x => dset Z.eqb d (n_id (solver_node x)) x) vols []) with (nv_index vols).
  rewrite !map_map. reflexivity.
Qed.

Lemma final_ff : forall gs k, Forall2 final_full (copies FR k) gs -> Forall2 ff_full (copies ffs k) gs.
Proof. intros gs k. apply Forall2_copies. intros fs F. exact (ffs_rel vols final fs ffs final_fst F Ef). Qed.

Lemma levels_tool_copies : forall m gs hs, cop final_full FR m gs -> cop (fun i g => has g (hyps_attrs i)) his 1 hs ->
  exists l, levels_tool gs hs = Ok l /\ cop (fun l g => has g (level_full l)) levels m l.
Proof.
  intros m gs hs (k & Lk & F) (kh & Lh & Fh). destruct kh as [|kh]; [lia|].
  assert (E : approx_water_level_io QOps (copies ffs k) (copies his (S kh)) = Ok (copies levels k)).
  { unfold approx_water_level_io in *. rewrite filter_copies.
    pose proof (index_copies (@hi_bspot Q) (fun x => x) his kh) as Ix. cbv beta in Ix. rewrite Ix. apply mmap_copies. exact El. }
  destruct (levels_tool_ok _ _ gs hs _ (final_ff gs k F) Fh E) as (l & El' & Fl). exists l. split; [exact El'|].
  exists k. split; [exact Lk|exact Fl].
Qed.

Lemma levels_tool_none : forall gs l, levels_tool gs [] = Ok l -> l = [].
Proof.
  intros gs l H. unfold levels_tool in H. cbn [index_by mfold bind] in H. apply bind_ok in H. destruct H as (fs & _ & H).
  destruct fs as [|g fs]; cbn [mmap] in H; [injection H as <-; reflexivity|].
  exfalso. apply bind_ok in H. destruct H as (x & H & _). apply bind_ok in H. destruct H as (b & _ & H).
  apply bind_ok in H. destruct H as (v & _ & H). apply bind_ok in H. destruct H as (i & H & _). discriminate H.
Qed.

Lemma run_init : forall ws m, inv ws -> In (l_nodes L) (map fst ws) -> cop (fun n g => has g (node_attrs n)) nodes m (written (l_nodes L) ws) ->
  exists V, cmd_writes s Initvolumes (after ws) = Ok [(l_init L, V)] /\ cop (volume_full attribute) vols m V.
Proof.
  intros ws m I J C. destruct (read_layer ws (l_nodes L)) as [(K & _)|(_ & gs & R & K)]; [cbn; tauto|contradiction|].
  destruct (init_tool_copies m gs) as (V & E & FV); [eapply cop_keeps; [apply has_kept|exact C|exact K]|].
  exists V. split; [|exact FV]. unfold cmd_writes, s. cbn [s_names s_mm s_attribute]. rewrite source_mm. cbn [bind].
  rewrite R. cbn [bind]. rewrite E. reflexivity.
Qed.

Lemma run_final : forall ws m, inv ws -> (m <= 1)%nat -> In (l_init L) (map fst ws) -> cop (volume_full attribute) vols m (written (l_init L) ws) ->
  exists F, cmd_writes s Finalvolumes (after ws) = Ok [(l_final L, F)] /\ cop final_full FR m F.
Proof.
  intros ws m I Lm J C. destruct (read_layer ws (l_init L)) as [(K & _)|(_ & gs & R & K)]; [cbn; tauto|contradiction|].
  destruct (final_tool_copies m gs Lm) as (V & E & FV); [eapply cop_keeps; [apply volume_kept|exact C|exact K]|].
  exists V. split; [|exact FV]. unfold cmd_writes, s. cbn [s_names s_attribute]. rewrite R. cbn [bind]. rewrite E. reflexivity.
Qed.

Lemma run_levels : forall ws m, inv ws -> In (l_final L) (map fst ws) -> cop final_full FR m (written (l_final L) ws) ->
  In (l_hyps L) (map fst ws) -> cop (fun i g => has g (hyps_attrs i)) his 1 (written (l_hyps L) ws) ->
  exists F, cmd_writes s Finallevels (after ws) = Ok [(l_levels L, F)] /\ cop (fun l g => has g (level_full l)) levels m F.
Proof.
  intros ws m I J C J' C'. destruct (read_layer ws (l_final L)) as [(K & _)|(_ & gs & R & K)]; [cbn; tauto|contradiction|].
  destruct (read_layer ws (l_hyps L)) as [(K' & _)|(_ & hs & R' & K')]; [cbn; tauto|contradiction|].
  destruct (levels_tool_copies m gs hs) as (V & E & FV);
    [eapply cop_keeps; [apply final_kept|exact C|exact K]|eapply cop_keeps; [apply has_kept|exact C'|exact K']|].
  exists V. split; [|exact FV]. unfold cmd_writes, s. cbn [s_names]. rewrite R. cbn [bind]. rewrite R'. cbn [bind]. rewrite E. reflexivity.
Qed.

Lemma writes_good : forall ws c wl, inv ws -> cmd_writes s c (after ws) = Ok wl -> Forall good wl.
Proof.
  intros ws c wl I H. pose proof I as (_ & _ & S). destruct c.
  - destruct (run_network ws I) as (N & S' & E & FN & FS). rewrite E in H. injection H as <-.
    constructor; [|constructor; [|constructor]]; eexists; (split; [unfold specs; cbn [In fst]; eauto|]); cbn [snd];
      apply (cop_less _ _ 1); try lia; apply cop_once; assumption.
  - destruct (in_dec string_dec (l_nodes L) (map fst ws)) as [J|J].
    + destruct (run_init ws 0 I J) as (V & E & FV); [apply S; unfold specs; cbn [In]; eauto|]. rewrite E in H. injection H as <-.
      constructor; [|constructor]. eexists. split; [unfold specs; cbn [In fst]; eauto|exact FV].
    + destruct (read_layer ws (l_nodes L)) as [(_ & R)|(K & _)]; [cbn; tauto| |contradiction].
      unfold cmd_writes, s in H. cbn [s_names s_mm] in H. rewrite source_mm in H. cbn [bind] in H. rewrite R in H. discriminate H.
  - destruct (in_dec string_dec (l_init L) (map fst ws)) as [J|J].
    + destruct (run_final ws 0 I) as (V & E & FV); [lia|exact J|apply S; unfold specs; cbn [In]; eauto|]. rewrite E in H. injection H as <-.
      constructor; [|constructor]. eexists. split; [unfold specs; cbn [In fst]; eauto 6|exact FV].
    + destruct (read_layer ws (l_init L)) as [(_ & R)|(K & _)]; [cbn; tauto| |contradiction].
      unfold cmd_writes, s in H. cbn [s_names] in H. rewrite R in H. discriminate H.
  - destruct (run_hyps ws I) as (V & E & FV). rewrite E in H. injection H as <-.
    constructor; [|constructor]. eexists. split; [unfold specs; cbn [In fst]; eauto 7|]. cbn [snd].
    apply (cop_less _ _ 1); [|lia]. apply cop_once. exact FV.
  - unfold cmd_writes, s in H. cbn [s_names] in H.
    destruct (read_layer ws (l_final L)) as [(_ & R)|(J & gs & R & K)]; [cbn; tauto|rewrite R in H; discriminate H|].
    destruct (read_layer ws (l_hyps L)) as [(_ & R')|(J' & hs & R' & K')]; [cbn; tauto|rewrite R, R' in H; discriminate H|].
    rewrite R in H. cbn [bind] in H. rewrite R' in H. cbn [bind] in H. apply bind_ok in H. destruct H as (out & E & H). injection H as <-.
    constructor; [|constructor]. eexists. split; [unfold specs; cbn [In fst]; eauto 8|]. cbn [snd].
    assert (C : cop final_full FR 0 gs).
    { eapply cop_keeps; [apply final_kept| |exact K]. apply S. unfold specs. cbn [In]. eauto 6. }
    assert (C' : cop (fun i g => has g (hyps_attrs i)) his 0 hs).
    { eapply cop_keeps; [apply has_kept| |exact K']. apply S. unfold specs. cbn [In]. eauto 7. }
    destruct C' as ([|kh] & _ & Fh).
    + inversion Fh; subst. apply levels_tool_none in E. subst out. exists 0%nat. split; [lia|constructor].
    + destruct (levels_tool_copies 0 gs hs C) as (l & E' & Cl); [exists (Datatypes.S kh); split; [lia|exact Fh]|]. congruence.
Qed.

Lemma happen_inv : forall ws h, inv ws -> exists wl, happen s (after ws) h = after (ws ++ wl) /\ inv (ws ++ wl).
Proof.
  intros ws h I. destruct h as [c|c k w]; cbn [happen].
  - rewrite exec_writes. destruct (cmd_writes s c (after ws)) as [wl| |] eqn:E; cbn [bind].
    + exists wl. split; [apply write_layers_after|]. apply inv_goods; [exact I|]. eapply writes_good; eauto.
    + exists []. rewrite app_nil_r. auto.
    + exists []. rewrite app_nil_r. auto.
  - destruct (cmd_writes s c (after ws)) as [wl| |] eqn:E; [|exists []; rewrite app_nil_r; auto|exists []; rewrite app_nil_r; auto].
    pose proof (writes_good ws c wl I E) as G. assert (G1 : Forall good (firstn k wl)).
    { rewrite <- (firstn_skipn k wl) in G. apply Forall_app in G. apply G. }
    rewrite write_layers_after. destruct (nth_error wl k) as [[x fs]|] eqn:N; [|exists (firstn k wl); split; [reflexivity|apply inv_goods; assumption]].
    destruct w; [|exists (firstn k wl); split; [reflexivity|apply inv_goods; assumption]].
    rewrite after_snoc. exists (firstn k wl ++ [(x, [])]). rewrite app_assoc. split; [reflexivity|].
    apply inv_good; [apply inv_goods; assumption|]. apply nth_error_In in N. rewrite Forall_forall in G. eapply good_empty. apply (G _ N).
Qed.

Lemma history_inv : forall hs ws, inv ws -> exists ws', history s hs (after ws) = after ws' /\ inv ws'.
Proof.
  induction hs as [|h hs IH]; intros ws I; cbn [history fold_left]; [exists ws; auto|].
  destruct (happen_inv ws h I) as (wl & E & I'). rewrite E. apply IH. exact I'.
Qed.

Lemma start_inv : inv (ws0 ++ [(l_pourpoints L, P)]).
Proof.
  destruct Nk as (ND & NE & W).
  assert (W0 : forall x, In x (l_pourpoints L :: map fst specs) -> written x ws0 = []).
  { intros x Hx. apply written_none. intros w Hw E. apply (W w Hw). rewrite E. exact Hx. }
  split; [rewrite map_app; apply in_or_app; right; left; reflexivity|]. split.
  - rewrite written_snoc, String.eqb_refl, W0 by (left; reflexivity). reflexivity.
  - intros x pr I. rewrite written_snoc. rewrite (proj2 (String.eqb_neq (l_pourpoints L) x)); [|intros E; exact (specs_not_pour _ _ I (eq_sym E))].
    cbn [app]; rewrite W0; [apply (proj1 (specs_closed _ _ I))|]. right. apply (in_map fst) in I. exact I.
Qed.

(** The rasters from copies of the levels. *)
Variables (depths : raster Q) (flabels : raster Z).
Hypothesis Eb : approx_bluespots_io QOps labels (map (fun o => (true, lf_bspot o, lf_z o)) levels) (raster_Q dem) true true 0 =
  Ok (Some depths, Some flabels).

Lemma rasters_copies : forall k, approx_bluespots_io QOps labels (map (fun o => (true, lf_bspot o, lf_z o)) (copies levels (S k))) (raster_Q dem) true true 0 =
  Ok (Some depths, Some flabels).
Proof.
  intros k. rewrite <- Eb. unfold approx_bluespots_io. cbv iota zeta.
  assert (D : forall l, fold_left (fun d '(pp, id, z) => if (pp : bool) then dset Z.eqb d id z else d)
      (map (fun o : @level_feature Q => (true, lf_bspot o, lf_z o)) l) [] = fold_left (fun d o => dset Z.eqb d (lf_bspot o) (lf_z o)) l []).
  { intros l. generalize (@nil (Z * Q)). induction l as [|o l IH]; intros d; cbn [map fold_left]; [reflexivity|apply IH]. }
  rewrite !D. rewrite (index_copies (@lf_bspot Q) (@lf_z Q) levels k). reflexivity.
Qed.

Lemma rasters_after : forall ws, inv ws ->
  cmd_finalbluespots labels dem (after ws) (l_levels L) = Exc PlainException \/
  cmd_finalbluespots labels dem (after ws) (l_levels L) = Exc ValueError \/
  cmd_finalbluespots labels dem (after ws) (l_levels L) = Ok (depths, flabels).
Proof.
  intros ws (_ & _ & S). unfold cmd_finalbluespots.
  destruct (read_layer ws (l_levels L)) as [(_ & R)|(J & gs & R & K)]; [cbn; tauto|rewrite R; left; reflexivity|].
  right. rewrite R. cbn [bind].
  assert (C : cop (fun l g => has g (level_full l)) levels 0 gs).
  { eapply cop_keeps; [apply has_kept| |exact K]. apply S. unfold specs. cbn [In]. eauto 8. }
  destruct C as ([|k] & _ & F).
  - left. inversion F; subst. reflexivity.
  - right. unfold bluespots_tool. rewrite (read_levels_ok _ _ F). cbn [bind]. rewrite rasters_copies. reflexivity.
Qed.

Lemma shows_after : forall ws, inv ws ->
  layer_shows (after ws) (l_pourpoints L) pourpoint_props pps /\
  forall x A (at_of : A -> list (string * option value)) rs,
    (In x (map fst specs) /\ forall pr gs, In (x, pr) specs -> pr gs -> exists k, Forall2 (fun r g => has g (at_of r)) (copies rs k) gs) ->
    read_features (after ws) (Some x) = Exc PlainException \/ exists k, layer_shows (after ws) x at_of (copies rs k).
Proof.
  intros ws I. split; [exact (read_pour ws I)|]. intros x A at_of rs (J & H). destruct I as (_ & _ & S).
  destruct (read_layer ws x J) as [(_ & R)|(_ & gs & R & K)]; [left; exact R|right].
  apply in_map_iff in J. destruct J as ([y pr] & E & Ip). cbn [fst] in E. subst y.
  destruct (H pr gs Ip) as (k & F); [|exists k, gs; auto].
  destruct (specs_closed _ _ Ip) as (_ & _ & C). exact (C _ _ (S _ _ Ip) K).
Qed.

(** Running all commands once more. *)
Lemma written_more : forall {A} (R : A -> props -> Prop) rs x ws fs, cop R rs 0 (written x ws) -> cop R rs 1 fs ->
  cop R rs 1 (written x (ws ++ [(x, fs)])).
Proof. intros A R rs x ws fs C C'. rewrite written_snoc, String.eqb_refl. exact (cop_app R rs 0 1 _ _ C C'). Qed.

Lemma written_other : forall x y ws (fs : list props), y <> x -> written x (ws ++ [(y, fs)]) = written x ws.
Proof. intros x y ws fs N. rewrite written_snoc, (proj2 (String.eqb_neq y x) N). apply app_nil_r. Qed.

Lemma in_snoc : forall (x y : string) (ws : list (string * list props)) (fs : list props), In x (map fst ws) \/ x = y -> In x (map fst (ws ++ [(y, fs)])).
Proof. intros x y ws fs [I|E]; rewrite map_app; apply in_or_app; [left; exact I|right; left; symmetry; exact E]. Qed.

Lemma again_after : forall ws, inv ws -> exists ds,
  mfold (fun ds c => exec s c ds) [Network; Initvolumes; Finalvolumes; Hyps; Finallevels] (after ws) = Ok ds /\
  cmd_finalbluespots labels dem ds (l_levels L) = Ok (depths, flabels).
Proof.
  intros ws I. pose proof Nk as (ND & _).
  assert (NN : l_nodes L <> l_streams L /\ l_init L <> l_hyps L /\ l_final L <> l_hyps L).
  { clear - ND. repeat (match goal with H : NoDup (_ :: _) |- _ => apply NoDup_cons_iff in H; destruct H end). cbn [In] in *.
    repeat split; intros E; symmetry in E; tauto. }
  destruct NN as (N1 & N2 & N3). cbn [mfold].
  destruct (run_network ws I) as (N & S & E & FN & FS). pose proof (writes_good ws _ _ I E) as G.
  rewrite exec_writes, E. cbn [bind]. rewrite write_layers_after. pose proof (inv_goods _ _ I G) as I1.
  replace (ws ++ [(l_nodes L, N); (l_streams L, S)]) with ((ws ++ [(l_nodes L, N)]) ++ [(l_streams L, S)]) in * by (rewrite <- app_assoc; reflexivity).
  set (w1 := (ws ++ [(l_nodes L, N)]) ++ [(l_streams L, S)]) in *. clear E G.
  destruct (run_init w1 1 I1) as (V & E & FV).
  { unfold w1. apply in_snoc. left. apply in_snoc. right. reflexivity. }
  { unfold w1. rewrite written_other by (intros X; exact (N1 (eq_sym X))). apply written_more; [|apply cop_once; exact FN].
    apply I. unfold specs. cbn [In]. eauto. }
  pose proof (writes_good w1 _ _ I1 E) as G. rewrite exec_writes, E. cbn [bind]. rewrite write_layers_after.
  pose proof (inv_goods _ _ I1 G) as I2. set (w2 := w1 ++ [(l_init L, V)]) in *. clear E G.
  destruct (run_final w2 1 I2) as (F & E & FF); [lia| | |].
  { unfold w2. apply in_snoc. right. reflexivity. }
  { unfold w2. apply written_more; [|exact FV]. apply I1. unfold specs. cbn [In]. eauto. }
  pose proof (writes_good w2 _ _ I2 E) as G. rewrite exec_writes, E. cbn [bind]. rewrite write_layers_after.
  pose proof (inv_goods _ _ I2 G) as I3. set (w3 := w2 ++ [(l_final L, F)]) in *. clear E G.
  destruct (run_hyps w3 I3) as (H & E & FH).
  pose proof (writes_good w3 _ _ I3 E) as G. rewrite exec_writes, E. cbn [bind]. rewrite write_layers_after.
  pose proof (inv_goods _ _ I3 G) as I4. set (w4 := w3 ++ [(l_hyps L, H)]) in *. clear E G.
  destruct (run_levels w4 1 I4) as (l & E & Fl).
  { unfold w4. apply in_snoc. left. unfold w3. apply in_snoc. right. reflexivity. }
  { unfold w4. rewrite written_other by (intros X; exact (N3 (eq_sym X))). unfold w3. apply written_more; [|exact FF].
    apply I2. unfold specs. cbn [In]. eauto 6. }
  { unfold w4. apply in_snoc. right. reflexivity. }
  { unfold w4. apply written_more; [|apply cop_once; exact FH]. apply I3. unfold specs. cbn [In]. eauto 7. }
  pose proof (writes_good w4 _ _ I4 E) as G. rewrite exec_writes, E. cbn [bind]. rewrite write_layers_after.
  pose proof (inv_goods _ _ I4 G) as I5. set (w5 := w4 ++ [(l_levels L, l)]) in *. clear E G.
  exists (after w5). split; [reflexivity|]. unfold cmd_finalbluespots.
  destruct (read_layer w5 (l_levels L)) as [(J & _)|(_ & gs & R & K)]; [cbn; tauto| |].
  { exfalso. apply J. unfold w5. apply in_snoc. right. reflexivity. }
  assert (C : cop (fun l g => has g (level_full l)) levels 1 gs).
  { eapply cop_keeps; [apply has_kept| |exact K]. unfold w5. apply written_more; [|exact Fl]. apply I4. unfold specs. cbn [In]. eauto 8. }
  destruct C as ([|k] & Lk & Fk); [lia|]. rewrite R. cbn [bind]. unfold bluespots_tool. rewrite (read_levels_ok _ _ Fk). cbn [bind].
  rewrite rasters_copies. reflexivity.
Qed.
End History.

(** ** With the complete command *)
(** The layer cannot be read, or shows the right features some number of times, perhaps zero. *)
Definition repeats {A} (ds : store) (n : string) (attrs : A -> list (string * option value)) (rs : list A) : Prop :=
  read_features ds (Some n) = Exc PlainException \/ exists k, layer_shows ds n attrs (concat (repeat rs k)).

Theorem any_history : forall sp cc fuel t dem f use_accum mm zres a attribute L ws hs,
  complete_all sp cc fuel t dem f use_accum mm zres = Ok a ->
  names_ok L ws -> ~ In attribute reserved -> ~ (mm == 0)%Q ->
  let s := mkSetting fuel t dem (do_flowdir (ca_dem a)) (bo_labeled (ca_bluespots a)) mm zres attribute L in
  let ds := history s hs (write_features (after ws) (l_pourpoints L) (map pourpoint_props (ca_pourpoints a))) in
  let rasters ds := cmd_finalbluespots (bo_labeled (ca_bluespots a)) dem ds (l_levels L) in
  let right := Ok (fo_depths (ca_finish a), fo_labels (ca_finish a)) in
  (rasters ds = Exc PlainException \/ rasters ds = Exc ValueError \/ rasters ds = right) /\
  (exists ds', mfold (fun ds c => exec s c ds) [Network; Initvolumes; Finalvolumes; Hyps; Finallevels] ds = Ok ds' /\ rasters ds' = right) /\
  layer_shows ds (l_pourpoints L) pourpoint_props (ca_pourpoints a) /\
  repeats ds (l_nodes L) node_attrs (map fst (co_nodes (ca_volumes a))) /\
  repeats ds (l_streams L) stream_attrs (co_streams (ca_volumes a)) /\
  repeats ds (l_init L) (volume_attrs attribute) (co_nodes (ca_volumes a)) /\
  repeats ds (l_final L) final_attrs (co_final (ca_volumes a)) /\
  repeats ds (l_hyps L) hyps_attrs (fo_hyps (ca_finish a)) /\
  repeats ds (l_levels L) level_attrs (fo_levels (ca_finish a)).
Proof.
  intros sp cc fuel t dem f use_accum mm zres a attribute L ws hs H Nk Ra Nm. unfold complete_all in H.
  apply bind_ok in H. destruct H as (dout & _ & H). apply bind_ok in H. destruct H as (out & _ & H).
  apply bind_ok in H. destruct H as (pps & _ & H). apply bind_ok in H. destruct H as ([nodes streams] & Es & H).
  apply bind_ok in H. destruct H as (final & Ep & H). apply bind_ok in H. destruct H as (fin & Ef & H). injection H as <-.
  cbn [ca_dem ca_bluespots ca_pourpoints ca_volumes ca_finish co_nodes co_streams co_final].
  unfold finish in Ef. apply bind_ok in Ef. destruct Ef as (hfs & Eh & Ef).
  fold (pp_index_of pps) in Ef. apply bind_ok in Ef. destruct Ef as (his & Ei & Ef).
  apply bind_ok in Ef. destruct Ef as (ffs & Eff & Ef). apply bind_ok in Ef. destruct Ef as (levels & El & Ef).
  apply bind_ok in Ef. destruct Ef as ([od ol] & Eb & Ef).
  destruct od as [depths|]; [|discriminate Ef]. destruct ol as [flabels|]; [|discriminate Ef]. injection Ef as <-.
  cbn [fo_depths fo_labels fo_hyps fo_levels]. cbv zeta.
  destruct (history_inv fuel t dem (do_flowdir dout) (bo_labeled out) mm zres attribute L pps nodes streams final hfs his ffs levels ws
    Es Ep Eh Ei Eff El Nk Ra Nm hs _ (start_inv mm attribute L pps nodes streams final his levels ws Nk)) as (ws' & E & I).
  rewrite after_snoc, E.
  split; [eapply rasters_after; eauto|]. split; [eapply again_after; eauto|].
  destruct (shows_after mm attribute L pps nodes streams final his levels ws Nk ws' I) as (Sp & Sx).
  split; [exact Sp|].
  assert (U : forall x pr pr', In (x, pr) (specs mm attribute L nodes streams final his levels) ->
    In (x, pr') (specs mm attribute L nodes streams final his levels) -> pr = pr').
  { intros x pr pr'. eapply specs_unique; eauto. }
  assert (T : forall A x (R : A -> props -> Prop) rs B (at_of : B -> list (string * option value)) rs',
    In (x, cop R rs 0) (specs mm attribute L nodes streams final his levels) ->
    (forall gs, Forall2 R rs gs -> Forall2 (fun r g => has g (at_of r)) rs' gs) ->
    repeats (after ws') x at_of rs').
  { intros A x R rs B at_of rs' Ix Hx. apply Sx. split; [apply (in_map fst) in Ix; exact Ix|].
    intros pr gs Ip Hp. rewrite <- (U _ _ _ Ix Ip) in Hp. destruct Hp as (k & _ & Fk). exists k. revert Fk. apply Forall2_copies. exact Hx. }
  assert (M : map fst (simple_volumes QOps mm nodes) = nodes).
  { unfold simple_volumes. rewrite map_map. cbn [fst]. apply map_id. }
  rewrite M.
  split; [eapply T; [unfold specs; cbn [In]; eauto|auto]|].
  split; [eapply T; [unfold specs; cbn [In]; eauto|auto]|].
  split.
  { eapply T; [unfold specs; cbn [In]; eauto|]. intros gs F. eapply Forall2_weaken; [|exact F].
    intros nv g (A & _). eapply has_incl; [exact A|]. intros x Hx. cbn in Hx |- *. tauto. }
  split.
  { eapply T; [unfold specs; cbn [In]; eauto 6|]. intros gs F. pose proof (final_fst mm nodes final Ep) as Mf.
    clear - F Mf. revert final gs Mf F. induction (map snd (nv_index (simple_volumes QOps mm nodes))) as [|nv ix IH]; intros final gs Mf F.
    - destruct final; [|discriminate Mf]. inversion F. constructor.
    - destruct final as [|x final]; [discriminate Mf|]. cbn [combine] in F. inversion F; subst. constructor; [apply H1|].
      apply IH; [cbn [map] in Mf; congruence|assumption]. }
  split; [eapply T; [unfold specs; cbn [In]; eauto 7|auto]|].
  eapply T; [unfold specs; cbn [In]; eauto 8|]. intros gs F. eapply Forall2_weaken; [|exact F]. intros x g A. inversion A; subst. assumption.
Qed.

Theorem history_rasters : forall sp cc fuel t dem f use_accum mm zres a attribute L ws hs,
  complete_all sp cc fuel t dem f use_accum mm zres = Ok a ->
  names_ok L ws -> ~ In attribute reserved -> ~ (mm == 0)%Q ->
  let s := mkSetting fuel t dem (do_flowdir (ca_dem a)) (bo_labeled (ca_bluespots a)) mm zres attribute L in
  let ds := history s hs (write_features (after ws) (l_pourpoints L) (map pourpoint_props (ca_pourpoints a))) in
  let rasters ds := cmd_finalbluespots (bo_labeled (ca_bluespots a)) dem ds (l_levels L) in
  let right := Ok (fo_depths (ca_finish a), fo_labels (ca_finish a)) in
  (rasters ds = Exc PlainException \/ rasters ds = Exc ValueError \/ rasters ds = right) /\
  exists ds', mfold (fun ds c => exec s c ds) [Network; Initvolumes; Finalvolumes; Hyps; Finallevels] ds = Ok ds' /\ rasters ds' = right.
Proof.
  intros sp cc fuel t dem f use_accum mm zres a attribute L ws hs H Nk Ra Nm.
  destruct (any_history _ _ _ _ _ _ _ _ _ _ attribute L ws hs H Nk Ra Nm) as (A & B & _). split; [exact A|exact B].
Qed.

Theorem history_layers : forall sp cc fuel t dem f use_accum mm zres a attribute L ws hs,
  complete_all sp cc fuel t dem f use_accum mm zres = Ok a ->
  names_ok L ws -> ~ In attribute reserved -> ~ (mm == 0)%Q ->
  let s := mkSetting fuel t dem (do_flowdir (ca_dem a)) (bo_labeled (ca_bluespots a)) mm zres attribute L in
  let ds := history s hs (write_features (after ws) (l_pourpoints L) (map pourpoint_props (ca_pourpoints a))) in
  layer_shows ds (l_pourpoints L) pourpoint_props (ca_pourpoints a) /\
  repeats ds (l_nodes L) node_attrs (map fst (co_nodes (ca_volumes a))) /\
  repeats ds (l_streams L) stream_attrs (co_streams (ca_volumes a)) /\
  repeats ds (l_init L) (volume_attrs attribute) (co_nodes (ca_volumes a)) /\
  repeats ds (l_final L) final_attrs (co_final (ca_volumes a)) /\
  repeats ds (l_hyps L) hyps_attrs (fo_hyps (ca_finish a)) /\
  repeats ds (l_levels L) level_attrs (fo_levels (ca_finish a)).
Proof.
  intros sp cc fuel t dem f use_accum mm zres a attribute L ws hs H Nk Ra Nm.
  destruct (any_history _ _ _ _ _ _ _ _ _ _ attribute L ws hs H Nk Ra Nm) as (_ & _ & C). exact C.
Qed.
