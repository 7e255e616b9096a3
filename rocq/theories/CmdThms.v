(** * The commands on files give what the tools give on records *)

From Coq Require Import QArith Qabs String.
From Verif Require Import Base BaseProofs Num Float64 Dict DictProofs DemModel LabelModel VectorModel BluespotModel NetModel
  NetworkModel NetworkSpec NetworkThms RainModel PipelineModel HypsModel ApproxModel CompleteModel OgrModel OgrSpec OgrThms RerunThms
  CmdModel CmdSpec.
Local Open Scope Z_scope.
Local Open Scope list_scope.

(** ** Generalities *)
Definition keeps (f g : props) : Prop := forall a v, dget String.eqb f a = Some v -> dget String.eqb g a = Some v.

Lemma has_keeps : forall f g l, keeps f g -> has f l -> has g l.
Proof. intros f g l K H. unfold has in *. rewrite Forall_forall in *. intros x Hx. apply K. apply H. exact Hx. Qed.

Lemma has_in : forall g l a v, has g l -> In (a, v) l -> dget String.eqb g a = Some v.
Proof. intros g l a v H I. unfold has in H. rewrite Forall_forall in H. apply (H (a, v) I). Qed.

Lemma has_incl : forall g l l', has g l -> incl l' l -> has g l'.
Proof. intros g l l' H I. unfold has in *. rewrite Forall_forall in *. intros x Hx. apply H. apply I. exact Hx. Qed.

Lemma has_dset : forall g l k v, has g l -> ~ In k (map fst l) -> has (dset String.eqb g k v) l.
Proof.
  intros g l k v H N. unfold has in *. rewrite Forall_forall in *. intros [a x] I. cbn [fst snd].
  rewrite (dget_dset_other String.eqb String.eqb_spec); [apply (H (a, x) I)|].
  intros ->. apply N. apply (in_map fst) in I. exact I.
Qed.

Lemma has_dset_one : forall g l k v, has g l -> ~ In k (map fst l) -> has (dset String.eqb g k v) ((k, v) :: l).
Proof.
  intros g l k v H N. constructor; [cbn [fst snd]; apply (dget_dset_same String.eqb String.eqb_spec)|apply has_dset; assumption].
Qed.

Lemma prop_has : forall g l a v, has g l -> In (a, v) l -> prop g a = Ok v.
Proof. intros g l a v H I. unfold prop, dget_err. rewrite (has_in g l a v H I). reflexivity. Qed.

Lemma Forall2_weaken : forall {A B} (R S : A -> B -> Prop) l l', (forall x y, R x y -> S x y) -> Forall2 R l l' -> Forall2 S l l'.
Proof. intros A B R S l l' H F. induction F; constructor; auto. Qed.

Lemma Forall2_trans : forall {A B C} (R : A -> B -> Prop) (S : B -> C -> Prop) (T : A -> C -> Prop) l l' l'',
  (forall x y z, R x y -> S y z -> T x z) -> Forall2 R l l' -> Forall2 S l' l'' -> Forall2 T l l''.
Proof.
  intros A B C R S T l l' l'' H F. revert l''. induction F; intros l'' G; inversion G; subst; constructor; eauto.
Qed.

Lemma Forall2_map_left : forall {A B C} (f : A -> B) (R : B -> C -> Prop) l l', Forall2 (fun x => R (f x)) l l' <-> Forall2 R (map f l) l'.
Proof.
  intros A B C f R l. induction l as [|x l IH]; intros l'; split; intros H; inversion H; subst; cbn [map]; constructor; auto;
    apply IH; assumption.
Qed.

Lemma Forall2_self : forall {A B} (f : A -> B) (R : A -> B -> Prop) l, (forall x, R x (f x)) -> Forall2 R l (map f l).
Proof. intros A B f R l H. induction l; cbn [map]; constructor; auto. Qed.

Lemma mmap_rel : forall {A B C D} (R : A -> B -> Prop) (S : C -> D -> Prop) (f : A -> res C) (g : B -> res D),
  (forall x y u, R x y -> f x = Ok u -> exists v, g y = Ok v /\ S u v) ->
  forall l l' us, Forall2 R l l' -> mmap f l = Ok us -> exists vs, mmap g l' = Ok vs /\ Forall2 S us vs.
Proof.
  intros A B C D R S f g H l l' us F. revert us. induction F as [|x y l l' Rxy F IH]; intros us E; cbn [mmap] in *.
  - injection E as <-. exists []. split; [reflexivity|constructor].
  - apply bind_ok in E. destruct E as (u & Eu & E). apply bind_ok in E. destruct E as (us' & Es & E). injection E as <-.
    destruct (H x y u Rxy Eu) as (v & Ev & Suv). destruct (IH us' Es) as (vs & Es' & Fs).
    exists (v :: vs). rewrite Ev. cbn [bind]. rewrite Es'. split; [reflexivity|constructor; assumption].
Qed.

Lemma mmap_rel_fun : forall {A B C D} (R : A -> B -> Prop) (S : C -> D -> Prop) (f : A -> C) (g : B -> res D),
  (forall x y, R x y -> exists v, g y = Ok v /\ S (f x) v) ->
  forall l l', Forall2 R l l' -> exists vs, mmap g l' = Ok vs /\ Forall2 S (map f l) vs.
Proof.
  intros A B C D R S f g H l l' F. induction F as [|x y l l' Rxy F IH]; cbn [mmap map].
  - exists []. split; [reflexivity|constructor].
  - destruct (H x y Rxy) as (v & Ev & Suv). destruct IH as (vs & Es & Fs).
    exists (v :: vs). rewrite Ev. cbn [bind]. rewrite Es. split; [reflexivity|constructor; assumption].
Qed.

(** ** Dictionaries of features *)
Definition same_entry {A B} (R : A -> B -> Prop) (x : Z * A) (y : Z * B) : Prop := fst x = fst y /\ R (snd x) (snd y).

Lemma dset_rel : forall {A B} (R : A -> B -> Prop) d d' k x y, Forall2 (same_entry R) d d' -> R x y ->
  Forall2 (same_entry R) (dset Z.eqb d k x) (dset Z.eqb d' k y).
Proof.
  intros A B R d d' k x y F Rxy. induction F as [|[a u] [b v] d d' [E H] F IH]; cbn [dset].
  - constructor; [split; [reflexivity|exact Rxy]|constructor].
  - cbn [fst snd] in E, H. subst b. destruct (a =? k); constructor; auto; split; auto.
Qed.

Lemma dget_rel : forall {A B} (R : A -> B -> Prop) d d' k, Forall2 (same_entry R) d d' ->
  match dget Z.eqb d k, dget Z.eqb d' k with
  | Some x, Some y => R x y
  | None, None => True
  | _, _ => False
  end.
Proof.
  intros A B R d d' k F. induction F as [|[a u] [b v] d d' [E H] F IH]; cbn [dget]; [exact I|].
  cbn [fst snd] in E, H. subst b. destruct (a =? k); [exact H|exact IH].
Qed.

Lemma index_rel : forall {A} (R : A -> props -> Prop) (key : A -> Z) read k,
  (forall x g, R x g -> read g k = Ok (key x)) ->
  forall l gs, Forall2 R l gs ->
  exists d', index_by read k gs = Ok d' /\ Forall2 (same_entry R) (fold_left (fun d x => dset Z.eqb d (key x) x) l []) d'.
Proof.
  intros A R key read k H l gs F. unfold index_by.
  assert (G : forall d d', Forall2 (same_entry R) d d' ->
    exists e, mfold (fun d f => i <- read f k ;; Ok (dset Z.eqb d i f)) gs d' = Ok e /\
      Forall2 (same_entry R) (fold_left (fun d x => dset Z.eqb d (key x) x) l d) e).
  { induction F as [|x g l gs Rx F IH]; intros d d' K; cbn [mfold fold_left]; [exists d'; auto|].
    rewrite (H x g Rx). cbn [bind]. apply IH. apply dset_rel; assumption. }
  apply G. constructor.
Qed.

Lemma index_map : forall {A B} (f : A -> B) (key : B -> Z) l d,
  fold_left (fun d x => dset Z.eqb d (key x) x) (map f l) (map (fun kx => (fst kx, f (snd kx))) d) =
  map (fun kx => (fst kx, f (snd kx))) (fold_left (fun d x => dset Z.eqb d (key (f x)) x) l d).
Proof.
  intros A B f key l. assert (D : forall d k x, dset Z.eqb (map (fun kx : Z * A => (fst kx, f (snd kx))) d) k (f x) =
    map (fun kx => (fst kx, f (snd kx))) (dset Z.eqb d k x)).
  { induction d as [|[a u] d IH]; intros k x; cbn [map dset fst snd]; [reflexivity|].
    destruct (a =? k); cbn [map fst snd]; [reflexivity|]. rewrite IH. reflexivity. }
  induction l as [|x l IH]; intros d; cbn [map fold_left]; [reflexivity|]. rewrite D. apply IH.
Qed.

Lemma index_keys : forall {A} (key : A -> Z) l d, NoDup (map fst d) -> (forall k x, In (k, x) d -> key x = k) ->
  let d' := fold_left (fun d x => dset Z.eqb d (key x) x) l d in
  NoDup (map fst d') /\ forall k x, In (k, x) d' -> key x = k.
Proof.
  intros A key l. induction l as [|y l IH]; intros d ND K; cbn [fold_left]; [split; assumption|].
  apply IH.
  - apply dset_nodup; [apply Z.eqb_spec|exact ND].
  - intros k x I. apply (dset_in Z.eqb Z.eqb_spec) in I; [|exact ND]. destruct I as [[-> ->]|[_ I]]; auto.
Qed.

Lemma index_again_self : forall {A} (key : A -> Z) d, NoDup (map fst d) -> (forall k x, In (k, x) d -> key x = k) ->
  fold_left (fun d x => dset Z.eqb d (key x) x) (map snd d) [] = d.
Proof.
  intros A key d ND K. assert (E : map key (map snd d) = map fst d).
  { rewrite map_map. apply map_ext_in. intros [k x] I. cbn [fst snd]. auto. }
  rewrite (index_fresh key (map snd d) []); [|rewrite E; exact ND|intros x _ []]. cbn [app].
  clear ND E. induction d as [|[k x] d IH]; [reflexivity|]. cbn [map snd]. rewrite (K k x) by (left; reflexivity). f_equal.
  apply IH. intros a b I. apply K. right. exact I.
Qed.

(** ** Reading what was written *)
Lemma after_snoc : forall (ws : list (string * list props)) n fs, write_features (after ws) n fs = after (ws ++ [(n, fs)]).
Proof. intros ws n fs. unfold after. rewrite fold_left_app. reflexivity. Qed.

Lemma read_kept : forall (ws : list (string * list props)) n fs, n <> ""%string -> In n (map fst ws) -> written n ws = fs ->
  exists gs, read_features (after ws) (Some n) = Ok gs /\ Forall2 keeps fs gs.
Proof.
  intros ws n fs N I E. destruct (read_written ws n N) as (gs & R & F).
  { apply in_map_iff in I. destruct I as (w & W & Hw). exists w. auto. }
  exists gs. split; [exact R|]. rewrite E in F. eapply Forall2_weaken; [|exact F]. intros f g C a v. apply (proj1 (C a)).
Qed.

(** ** The tools, one by one *)

Ltac pick := cbn; tauto.

(** network *)
Lemma index_stream : forall index index' n, Forall2 (same_entry (fun p g => has g (pourpoint_props p))) index index' ->
  forall t, exists g, node_props index' n = Ok g /\ has g (node_attrs (make_node QOps t index n)).
Proof.
  intros index index' n F t. unfold node_props, make_node. pose proof (dget_rel _ index index' (g_id n) F) as G.
  destruct (dget Z.eqb index (g_id n)) as [p|], (dget Z.eqb index' (g_id n)) as [g|]; try contradiction.
  - rewrite !(prop_has g _ "bspot_id"%string (int_ (pp_id p)) G) by pick.
    rewrite !(prop_has g _ "bspot_area"%string (real_ (pp_area p)) G) by pick.
    rewrite !(prop_has g _ "bspot_vol"%string (real_ (pp_vol p)) G) by pick.
    rewrite !(prop_has g _ "wshed_area"%string (real_ (pp_wshed p)) G) by pick.
    cbn [bind]. eexists. split; [reflexivity|]. unfold has, node_attrs. repeat constructor.
  - cbn [bind]. eexists. split; [reflexivity|]. unfold has, node_attrs. repeat constructor.
Qed.

Lemma network_tool_ok : forall fuel t flowdir labels (pps : list (@pourpoint Q)) nodes streams gs,
  stream_process QOps fuel t flowdir labels pps true = Ok (nodes, streams) ->
  Forall2 (fun p g => has g (pourpoint_props p)) pps gs ->
  exists ns ss, stream_tool fuel flowdir labels gs = Ok (ns, ss) /\
    Forall2 (fun n g => has g (node_attrs n)) nodes ns /\ Forall2 (fun s g => has g (stream_attrs s)) streams ss.
Proof.
  intros fuel t flowdir labels pps nodes streams gs H F. unfold stream_process in H.
  apply bind_ok in H. destruct H as (gn & E & H). cbn [fst snd] in H. injection H as <- <-.
  unfold stream_tool.
  assert (P : mmap (fun f => r <- get_index f "cell_row" ;; c <- get_index f "cell_col" ;; Ok (r, c)) gs =
              Ok (map (fun p => (pp_row p, pp_col p)) pps)).
  { clear E. induction F as [|p g pps gs Hp F IH]; [reflexivity|]. cbn [mmap map].
    unfold get_index at 1 2. rewrite (prop_has g _ "cell_row"%string (int_ (pp_row p)) Hp) by pick.
    rewrite (prop_has g _ "cell_col"%string (int_ (pp_col p)) Hp) by pick. cbn [bind int_]. rewrite IH. reflexivity. }
  rewrite P. cbn [bind]. rewrite E. cbn [bind].
  destruct (index_rel _ (@pp_id Q) get_index "bspot_id"%string
    (fun p g (Hp : has g (pourpoint_props p)) => ltac:(unfold get_index; rewrite (prop_has g _ "bspot_id"%string (int_ (pp_id p)) Hp) by pick; reflexivity))
    pps gs F) as (d' & Ed & Fd).
  rewrite Ed. cbn [bind].
  destruct (mmap_rel_fun (@eq gnode) (fun n g => has g (node_attrs n))
    (make_node QOps t (fold_left (fun d p => dset Z.eqb d (pp_id p) p) pps [])) (node_props d')) with (l := gn) (l' := gn) as (ns & En & Fn).
  { intros n m <-. apply index_stream. exact Fd. }
  { clear. induction gn; constructor; auto. }
  rewrite En. cbn [bind]. eexists. eexists. split; [reflexivity|]. split; [exact Fn|].
  unfold make_streams. induction (filter _ gn) as [|n l IH]; cbn [map]; constructor; [|exact IH].
  unfold has, stream_attrs. repeat constructor.
Qed.

(** initvolumes *)
Definition volume_full (attribute : string) (nv : @node_feature Q * Q) (g : props) : Prop :=
  has g [("nodeid", int_ (nf_id (fst nv))); ("dstrnodeid", option_map VInt (nf_dstr (fst nv)));
    ("nodetype", text_ (if nf_junction (fst nv) then "junction" else "pourpoint")); ("bspot_id", option_map VInt (nf_bspot (fst nv)));
    ("bspot_vol", real_ (nf_vol (fst nv))); (attribute, real_ (snd nv))]%string /\ exists q, get_float g "wshed_area" = Ok q.

Lemma volume_tool_ok : forall mm attribute nodes gs, ~ In attribute reserved ->
  Forall2 (fun n g => has g (node_attrs n)) nodes gs ->
  exists vs, simple_volume_tool mm attribute gs = Ok vs /\ Forall2 (volume_full attribute) (simple_volumes QOps mm nodes) vs.
Proof.
  intros mm attribute nodes gs R F. unfold simple_volume_tool, simple_volumes.
  apply (mmap_rel_fun (fun n g => has g (node_attrs n)) (volume_full attribute)) with (2 := F).
  intros n g H. unfold get_float at 1. rewrite (prop_has g _ "wshed_area"%string (real_ (nf_wshed n)) H) by pick.
  cbn [bind py_float real_]. eexists. split; [reflexivity|]. split.
  - cbn [fst snd].
    assert (A : forall a v, In a reserved -> In (a, v) (node_attrs n) ->
      dget String.eqb (dset String.eqb g attribute (Some (VReal (nf_wshed n * mm * milli QOps)))) a = Some v).
    { intros a v I J. rewrite (dget_dset_other String.eqb String.eqb_spec) by (intros ->; contradiction). eapply has_in; eauto. }
    unfold has. repeat constructor; cbn [fst snd]; try (apply A; pick). apply (dget_dset_same String.eqb String.eqb_spec).
  - unfold get_float, prop, dget_err. destruct (String.eqb_spec attribute "wshed_area") as [->|N].
    + rewrite (dget_dset_same String.eqb String.eqb_spec). cbn [bind py_float]. eauto.
    + rewrite (dget_dset_other String.eqb String.eqb_spec) by exact N.
      rewrite (has_in g _ "wshed_area"%string (real_ (nf_wshed n)) H) by pick. cbn [bind py_float real_]. eauto.
Qed.

(** finalvolumes *)
Definition nv_id (nv : @node_feature Q * Q) : Z := nf_id (fst nv).
Definition nv_index (vols : list (@node_feature Q * Q)) := fold_left (fun d nv => dset Z.eqb d (nv_id nv) nv) vols [].

(** One feature of the final state: the node it comes from and its event. *)
Definition final_full (x : (@node_feature Q * Q) * (@node Q * option (@event Q))) (g : props) : Prop :=
  has g [("nodeid", int_ (nv_id (fst x))); ("nodetype", text_ (if nf_junction (fst (fst x)) then "junction" else "pourpoint"));
    ("bspot_id", option_map VInt (nf_bspot (fst (fst x))))]%string /\ has g (final_attrs (snd x)).

Lemma process_indexed : forall fuel (l : list (@node Q)),
  process QOps fuel (map snd (fold_left (fun d n => dset Z.eqb d (n_id n) n) l [])) = process QOps fuel l.
Proof.
  intros fuel l. unfold process at 1.
  destruct (index_keys (@n_id Q) l []) as (ND & K); [constructor|intros k x []|].
  rewrite (index_again_self (@n_id Q) _ ND K). reflexivity.
Qed.

Lemma solver_input_ok : forall attribute nv g, volume_full attribute nv g -> solver_input attribute g = Ok (solver_node nv).
Proof.
  intros attribute nv g (H & q & W). unfold solver_input, get_index, get_id.
  rewrite (prop_has g _ "nodeid"%string (int_ (nf_id (fst nv))) H) by pick. cbn [bind int_].
  rewrite (prop_has g _ "dstrnodeid"%string (option_map VInt (nf_dstr (fst nv))) H) by pick. cbn [bind].
  rewrite W. unfold get_float.
  rewrite (prop_has g _ attribute (real_ (snd nv)) H) by (cbn; tauto).
  rewrite (prop_has g _ "bspot_vol"%string (real_ (nf_vol (fst nv))) H) by pick.
  destruct (nf_dstr (fst nv)) as [k|] eqn:D; cbn [option_map bind py_float real_]; unfold solver_node; rewrite D; reflexivity.
Qed.

Lemma mmap_solver : forall attribute d d', Forall2 (same_entry (volume_full attribute)) d d' ->
  mmap (solver_input attribute) (map snd d') = Ok (map solver_node (map snd d)).
Proof.
  intros attribute d d' F. induction F as [|[k nv] [k' g] d d' [E H] F IH]; [reflexivity|]. cbn [map snd mmap] in *.
  rewrite (solver_input_ok _ _ _ H). cbn [bind]. rewrite IH. reflexivity.
Qed.

Lemma final_tool_ok : forall attribute vols gs final, ~ In attribute reserved ->
  Forall2 (volume_full attribute) vols gs -> process QOps (length vols) (map solver_node vols) = Ok final ->
  length final = length (nv_index vols) /\ map fst final = map solver_node (map snd (nv_index vols)) /\
  exists fs, final_state_tool attribute gs = Ok fs /\ Forall2 final_full (combine (map snd (nv_index vols)) final) fs.
Proof.
  intros attribute vols gs final R F P.
  destruct (index_rel _ nv_id get_index "nodeid"%string
    (fun nv g (Hv : volume_full attribute nv g) => ltac:(unfold get_index; rewrite (prop_has g _ "nodeid"%string (int_ (nv_id nv)) (proj1 Hv)) by pick; reflexivity))
    vols gs F) as (d' & Ed & Fd). fold (nv_index vols) in Fd.
  assert (Ix : fold_left (fun d n => dset Z.eqb d (n_id n) n) (map solver_node vols) [] =
               map (fun kx => (fst kx, solver_node (snd kx))) (nv_index vols)).
  { apply (index_map solver_node (@n_id Q) vols []). }
  assert (Mf : map fst final = map solver_node (map snd (nv_index vols))).
  { destruct (process_spec _ _ _ _ P) as (M & _). rewrite M. unfold index_of. rewrite Ix, !map_map. reflexivity. }
  assert (Ln : length final = length (nv_index vols)).
  { apply (f_equal (@List.length _)) in Mf. rewrite !map_length in Mf. exact Mf. }
  split; [exact Ln|]. split; [exact Mf|].
  unfold final_state_tool. rewrite Ed. cbn [bind]. rewrite (mmap_solver _ _ _ Fd). cbn [bind].
  rewrite <- (Forall2_len _ _ _ F).
  replace (map solver_node (map snd (nv_index vols))) with
    (map snd (fold_left (fun d n => dset Z.eqb d (n_id n) n) (map solver_node vols) [])) by (rewrite Ix, !map_map; reflexivity).
  rewrite process_indexed, P. cbn [bind]. eexists. split; [reflexivity|].
  clear Ix P Ed Ln F. revert final Mf. induction Fd as [|[k nv] [k' g] d d' [E H] Fd IH]; intros final Mf; [constructor|].
  destruct final as [|[m e] final]; [discriminate Mf|]. cbn [map snd fst] in Mf. injection Mf as -> Mf. cbn [map snd combine].
  constructor; [|apply IH; exact Mf]. cbn [fst snd] in E, H. destruct H as (H & _).
  unfold final_full, final_attrs, nv_id. cbn [fst snd].
  assert (H3 : has g [("nodeid", int_ (nf_id (fst nv))); ("nodetype", text_ (if nf_junction (fst nv) then "junction" else "pourpoint"));
    ("bspot_id", option_map VInt (nf_bspot (fst nv)))]%string).
  { eapply has_incl; [exact H|]. intros x Hx. cbn in Hx |- *. tauto. }
  destruct e as [e|].
  - unfold set_event. split.
    + apply has_dset; [apply has_dset; [apply has_dset; [exact H3|]|]|]; cbn; intuition discriminate.
    + unfold has. constructor.
      { cbn [fst snd]. rewrite !(dget_dset_other String.eqb String.eqb_spec) by discriminate.
        apply (has_in g _ "nodeid"%string _ H3). pick. }
      repeat constructor; cbn [fst snd];
        repeat (first [rewrite (dget_dset_same String.eqb String.eqb_spec); reflexivity
                      |rewrite (dget_dset_other String.eqb String.eqb_spec) by discriminate]).
  - split; [exact H3|]. constructor; [|constructor]. cbn [fst snd]. apply (has_in g _ "nodeid"%string _ H3). pick.
Qed.

(** hyps *)
Definition pp_index_of (pps : list (@pourpoint Q)) := fold_left (fun d p => dset Z.eqb d (pp_id p) p) pps [].

Lemma pp_index_keys : forall pps, NoDup (map fst (pp_index_of pps)) /\ forall k p, In (k, p) (pp_index_of pps) -> pp_id p = k.
Proof. intros pps. apply (index_keys (@pp_id Q) pps []); [constructor|intros k x []]. Qed.

Definition blank (id : Z) : @hyps_feature Q := mkHF id None None.

Lemma hyps_index_ids : forall ids, fold_left (fun d id => dset Z.eqb d id (blank id)) ids [] =
  fold_left (fun d h => dset Z.eqb d (hf_bspot h) h) (map blank ids) [].
Proof.
  intros ids. generalize (@nil (Z * @hyps_feature Q)). induction ids as [|i ids IH]; intros d; [reflexivity|].
  cbn [fold_left map blank hf_bspot]. apply IH.
Qed.

Lemma hyps_index_pps : forall pps, fold_left (fun d id => dset Z.eqb d id (blank id)) (map pp_id pps) [] =
  map (fun kp => (fst kp, blank (pp_id (snd kp)))) (pp_index_of pps).
Proof.
  intros pps. rewrite hyps_index_ids, map_map. apply (index_map (fun p => blank (pp_id p)) (@hf_bspot Q) pps []).
Qed.

Lemma hyps_index_again : forall pps, fold_left (fun d id => dset Z.eqb d id (blank id)) (map fst (pp_index_of pps)) [] =
  map (fun kp => (fst kp, blank (pp_id (snd kp)))) (pp_index_of pps).
Proof.
  intros pps. destruct (pp_index_keys pps) as (ND & K). rewrite hyps_index_ids.
  replace (map blank (map fst (pp_index_of pps))) with (map snd (map (fun kp => (fst kp, blank (pp_id (snd kp)))) (pp_index_of pps))).
  - apply index_again_self.
    + rewrite map_map. cbn [fst]. exact ND.
    + intros k h I. apply in_map_iff in I. destruct I as ([a p] & E & I). cbn [fst snd] in E. injection E as <- <-. cbn [blank hf_bspot]. auto.
  - rewrite !map_map. apply map_ext_in. intros [a p] I. cbn [fst snd]. rewrite (K a p I). reflexivity.
Qed.

Lemma hyps_ids : forall labels dem res pps zr,
  bluespot_hypsometry_io QOps Q_int q_inf (- q_inf)%Q labels dem res (map fst (pp_index_of pps)) zr =
  bluespot_hypsometry_io QOps Q_int q_inf (- q_inf)%Q labels dem res (map pp_id pps) zr.
Proof.
  intros labels dem res pps zr. unfold bluespot_hypsometry_io. fold blank.
  change (fun (d : list (Z * @hyps_feature Q)) (id : Z) => dset Z.eqb d id (mkHF id None None)) with
    (fun (d : list (Z * @hyps_feature Q)) (id : Z) => dset Z.eqb d id (blank id)).
  rewrite hyps_index_pps, hyps_index_again. reflexivity.
Qed.

Lemma hyps_features_ids : forall labels dem res pps zr hfs,
  bluespot_hypsometry_io QOps Q_int q_inf (- q_inf)%Q labels dem res (map pp_id pps) zr = Ok hfs ->
  map hf_bspot hfs = map fst (pp_index_of pps).
Proof.
  intros labels dem res pps zr hfs H. unfold bluespot_hypsometry_io in H.
  change (fun (d : list (Z * @hyps_feature Q)) (id : Z) => dset Z.eqb d id (mkHF id None None)) with
    (fun (d : list (Z * @hyps_feature Q)) (id : Z) => dset Z.eqb d id (blank id)) in H.
  rewrite hyps_index_pps in H. destruct (pp_index_keys pps) as (ND & K).
  assert (I0 : map (fun kh => (fst kh, hf_bspot (snd kh))) (map (fun kp => (fst kp, blank (pp_id (snd kp)))) (pp_index_of pps)) =
               map (fun k => (k, k)) (map fst (pp_index_of pps))).
  { rewrite !map_map. apply map_ext_in. intros [a p] I. cbn [fst snd blank hf_bspot]. rewrite (K a p I). reflexivity. }
  generalize dependent (map (fun kp => (fst kp, blank (pp_id (snd kp)))) (pp_index_of pps)). intros d H I0.
  destruct (negb (nltb QOps (nofZ QOps 0) zr)); [discriminate H|].
  destruct (negb ((nrows labels =? nrows dem) && (ncols labels =? ncols dem))); [discriminate H|].
  apply bind_ok in H. destruct H as (lm & _ & H). apply bind_ok in H. destruct H as (vm & _ & H).
  destruct (negb (lm =? vm)); [discriminate H|]. apply bind_ok in H. destruct H as (st & _ & H).
  apply bind_ok in H. destruct H as (d' & H & E). injection E as <-.
  enough (Z : map (fun kh => (fst kh, hf_bspot (snd kh))) d' = map (fun k => (k, k)) (map fst (pp_index_of pps))).
  { apply (f_equal (map snd)) in Z. rewrite !map_map in Z. cbn [snd] in Z. rewrite map_map. rewrite Z. reflexivity. }
  revert d I0 H. generalize (nmul QOps (fst res) (snd res)). intros area.
  induction st as [|[id s] st IH]; intros d I0 H; cbn [mfold] in H; [injection H as <-; exact I0|].
  apply bind_ok in H. destruct H as (d1 & A & H). apply bind_ok in A. destruct A as (h & G & A). injection A as <-.
  eapply IH; [|exact H]. rewrite <- I0. unfold dget_err in G.
  assert (G' : dget Z.eqb d id = Some h) by (destruct (dget Z.eqb d id); congruence). clear - G'.
  induction d as [|[a u] d IH]; cbn [dget] in G'; [discriminate G'|]. cbn [dset].
  destruct (Z.eqb_spec a id) as [->|N]; cbn [map fst snd hf_bspot]; [injection G' as ->; reflexivity|]. rewrite IH by exact G'. reflexivity.
Qed.

Lemma set_hyps_has : forall p g (h : @hyps_feature Q) i, has g (pourpoint_props p) -> pp_id p = hf_bspot h ->
  match hf_dict h, hf_cell_area h with
  | Some d, Some a => Ok (mkHI (hf_bspot h) d a (pp_dmax p) (pp_vol p))
  | _, _ => Exc TypeError
  end = Ok i -> has (set_hyps g h) (hyps_attrs i).
Proof.
  intros p g h i Hg Ep E. unfold set_hyps. destruct (hf_dict h) as [d|]; [|discriminate E].
  destruct (hf_cell_area h) as [a|]; [|discriminate E]. injection E as <-.
  cbn [fold_left]. unfold has, hyps_attrs. cbn [hi_bspot hi_dict hi_cell_area hi_max_depth hi_max_vol].
  assert (A : forall k v, In (k, v) (pourpoint_props p) -> dget String.eqb g k = Some v) by (intros; eapply has_in; eauto).
  repeat constructor; cbn [fst snd];
    repeat (first [rewrite (dget_dset_same String.eqb String.eqb_spec); reflexivity
                  |rewrite (dget_dset_other String.eqb String.eqb_spec) by discriminate]);
    apply A; unfold int_; rewrite <- ?Ep; pick.
Qed.

Lemma hyps_tool_ok : forall t labels dem zr pps gs hfs his,
  Forall2 (fun p g => has g (pourpoint_props p)) pps gs ->
  bluespot_hypsometry_io QOps Q_int q_inf (- q_inf)%Q labels (raster_Q dem) (Qabs (b64_Q (gt5 t)), Qabs (b64_Q (gt1 t)))
    (map pp_id pps) zr = Ok hfs ->
  mmap (hyps_input_of (pp_index_of pps)) hfs = Ok his ->
  exists hs, hyps_tool t labels dem zr gs = Ok hs /\ Forall2 (fun i g => has g (hyps_attrs i)) his hs.
Proof.
  intros t labels dem zr pps gs hfs his F H M.
  destruct (index_rel _ (@pp_id Q) get_index "bspot_id"%string
    (fun p g (Hp : has g (pourpoint_props p)) => ltac:(unfold get_index; rewrite (prop_has g _ "bspot_id"%string (int_ (pp_id p)) Hp) by pick; reflexivity))
    pps gs F) as (d' & Ed & Fd). fold (pp_index_of pps) in Fd.
  unfold hyps_tool. rewrite Ed. cbn [bind].
  replace (map fst d') with (map fst (pp_index_of pps)).
  2:{ clear - Fd. induction Fd as [|a b l l' [E _] Fd IH]; cbn [map]; congruence. }
  rewrite hyps_ids, H. cbn [bind]. eexists. split; [reflexivity|].
  pose proof (hyps_features_ids _ _ _ _ _ _ H) as Ids. destruct (pp_index_keys pps) as (ND & K).
  assert (G : forall k p, In (k, p) (pp_index_of pps) -> dget Z.eqb (pp_index_of pps) k = Some p).
  { intros k p I. apply (dget_nodup Z.eqb Z.eqb_spec); assumption. }
  set (ix := pp_index_of pps) in *.
  assert (S : forall sub, incl sub ix -> forall d', Forall2 (same_entry (fun p g => has g (pourpoint_props p))) sub d' ->
    forall hfs his, map hf_bspot hfs = map fst sub -> mmap (hyps_input_of ix) hfs = Ok his ->
    Forall2 (fun i g => has g (hyps_attrs i)) his (map (fun '(f, h) => set_hyps f h) (combine (map snd d') hfs))).
  { intros sub I d1 F1. induction F1 as [|[k p] [k' g] sub d1 [E Hg] F1 IH]; intros hfs1 his1 Ids1 M1.
    - destruct hfs1; [|discriminate Ids1]. cbn [mmap] in M1. injection M1 as <-. constructor.
    - destruct hfs1 as [|h hfs1]; [discriminate Ids1|]. cbn [map fst] in Ids1. injection Ids1 as Eh Ids1.
      cbn [mmap] in M1. apply bind_ok in M1. destruct M1 as (i & Ei & M1). apply bind_ok in M1. destruct M1 as (is' & Es & M1). injection M1 as <-.
      cbn [map snd combine]. assert (Ik : In (k, p) ix) by (apply I; left; reflexivity).
      constructor; [|apply IH; auto; intros x Hx; apply I; right; exact Hx].
      unfold hyps_input_of, dget_err in Ei. rewrite Eh, (G k p Ik) in Ei. cbn [bind] in Ei. rewrite <- Eh in Ei.
      apply (set_hyps_has p); [exact Hg|rewrite (K k p Ik), Eh; reflexivity|exact Ei]. }
  apply (S ix (fun x Hx => Hx) d' Fd hfs his Ids M).
Qed.

(** finallevels *)
Lemma index_values : forall {A B} (f : A -> B) (key : A -> Z) l d,
  fold_left (fun d x => dset Z.eqb d (key x) (f x)) l (map (fun kx => (fst kx, f (snd kx))) d) =
  map (fun kx => (fst kx, f (snd kx))) (fold_left (fun d x => dset Z.eqb d (key x) x) l d).
Proof.
  intros A B f key l. assert (D : forall d k x, dset Z.eqb (map (fun kx : Z * A => (fst kx, f (snd kx))) d) k (f x) =
    map (fun kx => (fst kx, f (snd kx))) (dset Z.eqb d k x)).
  { induction d as [|[a u] d IH]; intros k x; cbn [map dset fst snd]; [reflexivity|].
    destruct (a =? k); cbn [map fst snd]; [reflexivity|]. rewrite IH. reflexivity. }
  induction l as [|x l IH]; intros d; cbn [map fold_left]; [reflexivity|]. rewrite D. apply IH.
Qed.

Definition pour_attrs (ff : @final_feature Q) : list (string * option value) :=
  [("nodetype", text_ "pourpoint"); ("bspot_id", int_ (ff_bspot ff)); ("v", real_ (ff_v ff))]%string.
Definition ff_full (ff : @final_feature Q) (g : props) : Prop :=
  is_pourpoint g = Ok (ff_pourpoint ff) /\ (ff_pourpoint ff = true -> has g (pour_attrs ff)).

Lemma ffs_rel : forall vols final fs ffs,
  map fst final = map solver_node (map snd (nv_index vols)) ->
  Forall2 final_full (combine (map snd (nv_index vols)) final) fs ->
  mmap (final_feature_of (fold_left (fun d nv => dset Z.eqb d (nf_id (fst nv)) (fst nv)) vols [])) final = Ok ffs ->
  Forall2 ff_full ffs fs.
Proof.
  intros vols final fs ffs Mf F M.
  destruct (index_keys nv_id vols []) as (ND & K); [constructor|intros k x []|]. fold (nv_index vols) in ND, K.
  assert (G : forall k nv, In (k, nv) (nv_index vols) ->
    dget Z.eqb (fold_left (fun d nv => dset Z.eqb d (nf_id (fst nv)) (fst nv)) vols []) (nf_id (fst nv)) = Some (fst nv)).
  { intros k nv I. pose proof (index_values (@fst (@node_feature Q) Q) nv_id vols []) as E. cbn [map] in E.
    unfold nv_id at 1 in E. rewrite E. fold (nv_index vols). apply (dget_nodup Z.eqb Z.eqb_spec); [rewrite map_map; exact ND|].
    apply in_map_iff. exists (k, nv). cbn [fst snd]. split; [|exact I]. rewrite <- (K k nv I). reflexivity. }
  generalize dependent (fold_left (fun d nv => dset Z.eqb d (nf_id (fst nv)) (fst nv)) vols []). intros nfx M G.
  clear ND K. revert final fs ffs Mf F M. induction (nv_index vols) as [|[k nv] ix IH]; intros final fs ffs Mf F M.
  - destruct final; [|discriminate Mf]. cbn in F, M. injection M as <-. inversion F; subst. constructor.
  - destruct final as [|[nd o] final]; [discriminate Mf|]. cbn [map fst snd] in Mf. injection Mf as -> Mf.
    cbn [map snd combine] in F. inversion F as [|x g l fs' Hg F']; subst. cbn [mmap] in M.
    apply bind_ok in M. destruct M as (ff & Ef & M). apply bind_ok in M. destruct M as (ffs' & Es & M). injection M as <-.
    constructor; [|apply (IH (fun k0 nv0 I => G k0 nv0 (or_intror I)) final); auto].
    destruct Hg as (H1 & H2). cbn [fst snd] in H1, H2. unfold final_feature_of in Ef. cbn [fst snd solver_node n_id] in Ef.
    unfold dget_err in Ef. rewrite (G k nv (or_introl eq_refl)) in Ef. cbn [bind] in Ef.
    unfold ff_full, is_pourpoint.
    rewrite (prop_has g _ "nodetype"%string (text_ (if nf_junction (fst nv) then "junction" else "pourpoint")%string) H1) by pick.
    cbn [bind text_].
    destruct (nf_junction (fst nv)) eqn:J; [injection Ef as <-; split; [reflexivity|discriminate]|].
    destruct (nf_bspot (fst nv)) as [b|]; [|discriminate Ef]. destruct o as [e|]; [|discriminate Ef]. injection Ef as <-.
    split; [reflexivity|]. intros _. cbn [final_attrs fst snd] in H2. unfold has, pour_attrs. cbn [ff_bspot ff_v].
    constructor; [apply (has_in g _ "nodetype"%string _ H1); pick|].
    constructor; [apply (has_in g _ "bspot_id"%string _ H1); pick|].
    constructor; [apply (has_in g _ "v"%string _ H2); pick|constructor].
Qed.

Lemma only_pourpoints_ok : forall ffs fs, Forall2 ff_full ffs fs ->
  exists fs', only_pourpoints fs = Ok fs' /\ Forall2 (fun ff g => has g (pour_attrs ff)) (filter ff_pourpoint ffs) fs'.
Proof.
  intros ffs fs F. induction F as [|ff g ffs fs (P & H) F (fs' & E & F')]; cbn [only_pourpoints filter].
  - exists []. split; [reflexivity|constructor].
  - rewrite P. cbn [bind]. rewrite E. cbn [bind]. eexists. split; [reflexivity|].
    destruct (ff_pourpoint ff); [constructor; auto|exact F'].
Qed.

Definition level_full (l : @level_feature Q) : list (string * option value) := ("nodetype"%string, text_ "pourpoint") :: level_attrs l.

Lemma read_flatdict_ok : forall i g, has g (hyps_attrs i) -> read_flatdict g = Ok (hi_dict i).
Proof.
  intros i g H. unfold read_flatdict, get_int, get_float.
  rewrite (prop_has g _ "hist_num_bins"%string (int_ (d_num_bins (hi_dict i))) H) by pick.
  rewrite (prop_has g _ "hist_lower_bound"%string (real_ (d_lower (hi_dict i))) H) by pick.
  rewrite (prop_has g _ "hist_upper_bound"%string (real_ (d_upper (hi_dict i))) H) by pick.
  rewrite (prop_has g _ "hist_resolution"%string (real_ (d_resolution (hi_dict i))) H) by pick.
  rewrite (prop_has g _ "hist_counts"%string (text_ (d_counts (hi_dict i))) H) by pick.
  rewrite (prop_has g _ "zmin"%string (real_ (d_zmin (hi_dict i))) H) by pick.
  rewrite (prop_has g _ "zmax"%string (real_ (d_zmax (hi_dict i))) H) by pick.
  cbn [bind py_int py_float int_ real_ text_]. destruct (hi_dict i); reflexivity.
Qed.

Lemma levels_tool_ok : forall ffs his fs hs levels,
  Forall2 ff_full ffs fs -> Forall2 (fun i g => has g (hyps_attrs i)) his hs ->
  approx_water_level_io QOps ffs his = Ok levels ->
  exists ls, levels_tool fs hs = Ok ls /\ Forall2 (fun l g => has g (level_full l)) levels ls.
Proof.
  intros ffs his fs hs levels F Fh H. unfold approx_water_level_io in H. unfold levels_tool.
  destruct (index_rel _ (@hi_bspot Q) get_int "bspot_id"%string
    (fun i g (Hi : has g (hyps_attrs i)) => ltac:(unfold get_int; rewrite (prop_has g _ "bspot_id"%string (int_ (hi_bspot i)) Hi) by pick; reflexivity))
    his hs Fh) as (d' & Ed & Fd).
  rewrite Ed. cbn [bind]. destruct (only_pourpoints_ok ffs fs F) as (fs' & E & F'). rewrite E. cbn [bind].
  refine (mmap_rel (fun ff g => has g (pour_attrs ff)) (fun l g => has g (level_full l)) _ _ _ _ _ _ F' H).
  intros ff g l Hg El. unfold get_int at 1, get_float at 1.
  rewrite (prop_has g _ "bspot_id"%string (int_ (ff_bspot ff)) Hg) by pick.
  rewrite (prop_has g _ "v"%string (real_ (ff_v ff)) Hg) by pick.
  cbn [bind py_int py_float int_ real_]. unfold dget_err in *.
  pose proof (dget_rel _ _ _ (ff_bspot ff) Fd) as G.
  destruct (dget Z.eqb (fold_left (fun d f => dset Z.eqb d (hi_bspot f) f) his []) (ff_bspot ff)) as [i|]; [|discriminate El].
  destruct (dget Z.eqb d' (ff_bspot ff)) as [y|]; [|contradiction]. cbn [bind] in El |- *.
  rewrite (read_flatdict_ok i y G). unfold get_int, get_float.
  rewrite (prop_has y _ "bspot_id"%string (int_ (hi_bspot i)) G) by pick.
  rewrite (prop_has y _ "cell_area"%string (real_ (hi_cell_area i)) G) by pick.
  rewrite (prop_has y _ "bspot_dmax"%string (real_ (hi_max_depth i)) G) by pick.
  rewrite (prop_has y _ "bspot_vol"%string (real_ (hi_max_vol i)) G) by pick.
  cbn [bind py_int py_float int_ real_].
  apply bind_ok in El. destruct El as (h & Eh & El). rewrite Eh. cbn [bind].
  apply bind_ok in El. destruct El as (w & Ew & El). rewrite Ew. cbn [bind]. injection El as <-.
  eexists. split; [reflexivity|]. unfold has, level_full, level_attrs. cbn [lf_bspot lf_v lf_z lf_dmax].
  assert (A : forall k v, In (k, v) (pour_attrs ff) -> dget String.eqb g k = Some v) by (intros; eapply has_in; eauto).
  repeat constructor; cbn [fst snd];
    repeat (first [rewrite (dget_dset_same String.eqb String.eqb_spec); reflexivity
                  |rewrite (dget_dset_other String.eqb String.eqb_spec) by discriminate]); apply A; pick.
Qed.

(** finalbluespots *)
Lemma read_levels_ok : forall levels ls, Forall2 (fun l g => has g (level_full l)) levels ls ->
  mmap read_level ls = Ok (map (fun o => (true, lf_bspot o, lf_z o)) levels).
Proof.
  intros levels ls F. induction F as [|l g levels ls H F IH]; [reflexivity|]. cbn [mmap map].
  unfold read_level at 1, is_pourpoint, get_int, get_float.
  rewrite (prop_has g _ "nodetype"%string (text_ "pourpoint") H) by pick. cbn [bind text_].
  change (String.eqb "pourpoint" "pourpoint") with true. cbv iota.
  rewrite (prop_has g _ "bspot_id"%string (int_ (lf_bspot l)) H) by pick.
  rewrite (prop_has g _ "approx_z"%string (real_ (lf_z l)) H) by pick.
  cbn [bind py_int py_float int_ real_]. rewrite IH. reflexivity.
Qed.

Lemma keeps_full : forall {A} (P : A -> props -> Prop) rs fs gs, (forall r f g, keeps f g -> P r f -> P r g) ->
  Forall2 P rs fs -> Forall2 keeps fs gs -> Forall2 P rs gs.
Proof. intros A P rs fs gs H F K. eapply Forall2_trans; [|exact F|exact K]. cbv beta. eauto. Qed.

Lemma get_float_keeps : forall f g k q, keeps f g -> get_float f k = Ok q -> get_float g k = Ok q.
Proof.
  intros f g k q K H. unfold get_float, prop, dget_err in *. destruct (dget String.eqb f k) as [v|] eqn:E; [|discriminate H].
  rewrite (K k v E). exact H.
Qed.

(** ** The whole chain *)
Ltac open_ws := repeat match goal with w := _ : list (string * list props) |- _ => subst w end.
Ltac wr W0 := open_ws; repeat rewrite written_snoc; rewrite W0 by tauto; rewrite ?String.eqb_refl; cbn [app];
  repeat match goal with |- context [String.eqb ?a ?b] =>
    rewrite (proj2 (String.eqb_neq a b)) by (let E := fresh in intros E; subst; tauto) end;
  cbn [app]; rewrite ?app_nil_r; reflexivity.
Ltac rd W0 N0 ws n fs gs R K :=
  destruct (read_kept ws n fs (N0 n ltac:(tauto)) ltac:(open_ws; rewrite !map_app; cbn [map fst]; rewrite !in_app_iff; cbn [In]; tauto) ltac:(wr W0))
    as (gs & R & K).

Theorem commands_agree : forall fuel t dem flowdir labels pps nodes streams mm zres final fin attribute L ws,
  let vols := simple_volumes QOps mm nodes in
  stream_process QOps fuel (gt_Q t) flowdir labels pps true = Ok (nodes, streams) ->
  process QOps (length vols) (map solver_node vols) = Ok final ->
  finish t dem labels pps vols final zres = Ok fin ->
  names_ok L ws -> ~ In attribute reserved -> ~ (mm == 0)%Q ->
  exists ds, vector_steps fuel t dem flowdir labels mm zres attribute L
               (write_features (after ws) (l_pourpoints L) (map pourpoint_props pps)) = Ok (ds, fo_depths fin, fo_labels fin) /\
    layer_shows ds (l_pourpoints L) pourpoint_props pps /\
    layer_shows ds (l_nodes L) node_attrs nodes /\
    layer_shows ds (l_streams L) stream_attrs streams /\
    layer_shows ds (l_init L) (volume_attrs attribute) vols /\
    layer_shows ds (l_final L) final_attrs final /\
    layer_shows ds (l_hyps L) hyps_attrs (fo_hyps fin) /\
    layer_shows ds (l_levels L) level_attrs (fo_levels fin).
Proof.
  intros fuel t dem flowdir labels pps nodes streams mm zres final fin attribute L ws vols Es Ep Ef (ND & NE & Ws) Ra Nm.
  destruct L as [p n s i f h l]. cbn [l_pourpoints l_nodes l_streams l_init l_final l_hyps l_levels] in *.
  assert (N0 : forall a, In a [p; n; s; i; f; h; l] -> a <> ""%string) by (intros a Ha ->; contradiction).
  assert (W0 : forall a, In a [p; n; s; i; f; h; l] -> written a ws = []).
  { intros a Ha. apply written_none. intros w Hw E. apply (Ws w Hw). rewrite E. exact Ha. }
  clear NE Ws.
  repeat (match goal with H : NoDup (_ :: _) |- _ => apply NoDup_cons_iff in H; destruct H end).
  cbn [In] in *.
  unfold finish in Ef. apply bind_ok in Ef. destruct Ef as (hfs & Eh & Ef).
  fold (pp_index_of pps) in Ef. apply bind_ok in Ef. destruct Ef as (his & Ei & Ef).
  apply bind_ok in Ef. destruct Ef as (ffs & Eff & Ef). apply bind_ok in Ef. destruct Ef as (levels & El & Ef).
  apply bind_ok in Ef. destruct Ef as ([od ol] & Eb & Ef).
  destruct od as [depths|]; [|discriminate Ef]. destruct ol as [flabels|]; [|discriminate Ef]. injection Ef as <-.
  cbn [fo_depths fo_labels fo_hyps fo_levels].
  (* pour points *)
  rewrite after_snoc. set (P := map pourpoint_props pps). set (w1 := ws ++ [(p, P)]).
  assert (FP : Forall2 (fun q g => has g (pourpoint_props q)) pps P).
  { apply Forall2_self. intros q. unfold has, pourpoint_props. repeat constructor. }
  assert (Kh : forall (A : Type) (at_of : A -> list (string * option value)) r f0 g, keeps f0 g -> has f0 (at_of r) -> has g (at_of r)).
  { intros A at_of r f0 g K Hh. eapply has_keeps; eauto. }
  unfold vector_steps. cbn [l_pourpoints l_nodes l_streams l_init l_final l_hyps l_levels].
  (* network *)
  rd W0 N0 w1 p P g1 R1 K1. pose proof (keeps_full _ _ _ _ (Kh _ pourpoint_props) FP K1) as F1.
  destruct (network_tool_ok _ _ _ _ _ _ _ _ Es F1) as (N & S & En & FN & FS).
  unfold cmd_network at 1. rewrite R1. cbn [bind]. rewrite En. cbn [bind]. rewrite !after_snoc.
  set (w2 := (w1 ++ [(n, N)]) ++ [(s, S)]).
  (* initvolumes *)
  rd W0 N0 w2 n N g2 R2 K2. pose proof (keeps_full _ _ _ _ (Kh _ node_attrs) FN K2) as F2.
  destruct (volume_tool_ok mm attribute nodes g2 Ra F2) as (V & EV & FV).
  unfold cmd_initvolumes_mm at 1.
  assert (Us : initvolumes_source QOps (Some mm) false false = Ok Use_mm).
  { unfold initvolumes_source, truthy. cbn [neqb QOps nofZ]. rewrite andb_false_r.
    destruct (Qeq_bool mm (inject_Z 0)) eqn:Q; [apply Qeq_bool_eq in Q; contradiction|]. reflexivity. }
  rewrite Us. cbn [bind]. rewrite R2. cbn [bind]. rewrite EV. cbn [bind]. rewrite after_snoc. set (w3 := w2 ++ [(i, V)]).
  (* finalvolumes *)
  rd W0 N0 w3 i V g3 R3 K3.
  assert (F3 : Forall2 (volume_full attribute) vols g3).
  { eapply keeps_full; [|exact FV|exact K3]. intros r a b K (A & q & B). split; [eapply has_keeps; eauto|].
    exists q. eapply get_float_keeps; eauto. }
  destruct (final_tool_ok attribute vols g3 final Ra F3 Ep) as (Ln & Mf & FF & EF & FFF).
  unfold cmd_finalvolumes at 1. rewrite R3. cbn [bind]. rewrite EF. cbn [bind]. rewrite after_snoc. set (w4 := w3 ++ [(f, FF)]).
  (* hyps *)
  rd W0 N0 w4 p P g4 R4 K4. pose proof (keeps_full _ _ _ _ (Kh _ pourpoint_props) FP K4) as F4.
  destruct (hyps_tool_ok t labels dem zres pps g4 hfs his F4 Eh Ei) as (HH & EH & FH).
  unfold cmd_hyps at 1. rewrite R4. cbn [bind]. rewrite EH. cbn [bind]. rewrite after_snoc. set (w5 := w4 ++ [(h, HH)]).
  (* finallevels *)
  rd W0 N0 w5 f FF g5 R5 K5. rd W0 N0 w5 h HH g6 R6 K6.
  assert (F5 : Forall2 final_full (combine (map snd (nv_index vols)) final) g5).
  { eapply keeps_full; [|exact FFF|exact K5]. intros r a b K (A & B). split; eapply has_keeps; eauto. }
  pose proof (keeps_full _ _ _ _ (Kh _ hyps_attrs) FH K6) as F6.
  pose proof (ffs_rel vols final g5 ffs Mf F5 Eff) as F5'.
  destruct (levels_tool_ok ffs his g5 g6 levels F5' F6 El) as (LL & EL & FL).
  unfold cmd_finallevels at 1. rewrite R5. cbn [bind]. rewrite R6. cbn [bind]. rewrite EL. cbn [bind]. rewrite after_snoc.
  set (w6 := w5 ++ [(l, LL)]).
  (* finalbluespots *)
  rd W0 N0 w6 l LL g7 R7 K7. pose proof (keeps_full _ _ _ _ (Kh _ level_full) FL K7) as F7.
  unfold cmd_finalbluespots. rewrite R7. cbn [bind]. unfold bluespots_tool. rewrite (read_levels_ok _ _ F7). cbn [bind].
  rewrite Eb. cbn [bind]. eexists. split; [reflexivity|].
  (* the layers in the end *)
  rd W0 N0 w6 p P z1 Z1 Y1. rd W0 N0 w6 n N z2 Z2 Y2. rd W0 N0 w6 s S z3 Z3 Y3. rd W0 N0 w6 i V z4 Z4 Y4.
  rd W0 N0 w6 f FF z5 Z5 Y5. rd W0 N0 w6 h HH z6 Z6 Y6.
  split; [exists z1; split; [exact Z1|exact (keeps_full _ _ _ _ (Kh _ pourpoint_props) FP Y1)]|].
  split; [exists z2; split; [exact Z2|exact (keeps_full _ _ _ _ (Kh _ node_attrs) FN Y2)]|].
  split; [exists z3; split; [exact Z3|exact (keeps_full _ _ _ _ (Kh _ stream_attrs) FS Y3)]|].
  split.
  { exists z4. split; [exact Z4|]. apply (keeps_full _ _ _ _ (Kh _ (volume_attrs attribute))) with (2 := Y4).
    eapply Forall2_weaken; [|exact FV]. intros nv g (A & _). eapply has_incl; [exact A|]. intros x Hx. cbn in Hx |- *. tauto. }
  split.
  { exists z5. split; [exact Z5|]. apply (keeps_full _ _ _ _ (Kh _ final_attrs)) with (2 := Y5).
    clear - FFF Mf. revert final FF Mf FFF. induction (map snd (nv_index vols)) as [|nv ix IH]; intros final FF Mf FFF.
    - destruct final; [|discriminate Mf]. inversion FFF. constructor.
    - destruct final as [|x final]; [discriminate Mf|]. cbn [combine] in FFF. inversion FFF; subst. constructor; [apply H1|].
      apply IH; [cbn [map] in Mf; congruence|assumption]. }
  split; [exists z6; split; [exact Z6|exact (keeps_full _ _ _ _ (Kh _ hyps_attrs) FH Y6)]|].
  exists g7. split; [exact R7|]. eapply Forall2_weaken; [|exact F7]. intros x g A. inversion A; subst. assumption.
Qed.

(** ** With the complete command *)
Theorem steps_as_complete : forall sp cc fuel t dem f use_accum mm zres a attribute L ws,
  complete_all sp cc fuel t dem f use_accum mm zres = Ok a ->
  names_ok L ws -> ~ In attribute reserved -> ~ (mm == 0)%Q ->
  exists ds, vector_steps fuel t dem (do_flowdir (ca_dem a)) (bo_labeled (ca_bluespots a)) mm zres attribute L
               (write_features (after ws) (l_pourpoints L) (map pourpoint_props (ca_pourpoints a))) =
               Ok (ds, fo_depths (ca_finish a), fo_labels (ca_finish a)) /\
    layer_shows ds (l_pourpoints L) pourpoint_props (ca_pourpoints a) /\
    layer_shows ds (l_nodes L) node_attrs (map fst (co_nodes (ca_volumes a))) /\
    layer_shows ds (l_streams L) stream_attrs (co_streams (ca_volumes a)) /\
    layer_shows ds (l_init L) (volume_attrs attribute) (co_nodes (ca_volumes a)) /\
    layer_shows ds (l_final L) final_attrs (co_final (ca_volumes a)) /\
    layer_shows ds (l_hyps L) hyps_attrs (fo_hyps (ca_finish a)) /\
    layer_shows ds (l_levels L) level_attrs (fo_levels (ca_finish a)).
Proof.
  intros sp cc fuel t dem f use_accum mm zres a attribute L ws H Nk Ra Nm. unfold complete_all in H.
  apply bind_ok in H. destruct H as (dout & _ & H). apply bind_ok in H. destruct H as (out & _ & H).
  apply bind_ok in H. destruct H as (pps & _ & H). apply bind_ok in H. destruct H as ([nodes streams] & Es & H).
  apply bind_ok in H. destruct H as (final & Ep & H). apply bind_ok in H. destruct H as (fin & Ef & H). injection H as <-.
  cbn [ca_dem ca_bluespots ca_pourpoints ca_volumes ca_finish co_nodes co_streams co_final].
  destruct (commands_agree _ _ _ _ _ _ _ _ _ _ _ _ attribute L ws Es Ep Ef Nk Ra Nm) as (ds & E & R).
  exists ds. split; [exact E|]. replace (map fst (simple_volumes QOps mm nodes)) with nodes; [exact R|].
  unfold simple_volumes. rewrite map_map. cbn [fst]. symmetry. apply map_id.
Qed.
