(** * The output directory of the complete command, also when it is killed and started again *)

From Coq Require Import QArith Qabs String.
From Verif Require Import Base BaseProofs Num Float64 Dict DictProofs FillModel FlowModel DemModel LabelModel VectorModel BluespotModel NetModel
  NetworkModel RainModel PipelineModel HypsModel ApproxModel CompleteModel OgrModel OgrSpec OgrThms RerunThms
  CmdModel CmdSpec CmdThms HistoryModel HistoryThms OutdirModel OutdirSpec OutdirProofs.
Local Open Scope Z_scope.
Local Open Scope list_scope.

(** ** What a list of outputs leaves *)
Fixpoint rasters_of (ws : list output) : list (string * content) :=
  match ws with [] => [] | RasterFile n c :: t => (n, c) :: rasters_of t | Layer _ _ :: t => rasters_of t end.
Fixpoint layers_of (ws : list output) : list (string * list props) :=
  match ws with [] => [] | RasterFile _ _ :: t => layers_of t | Layer n fs :: t => (n, fs) :: layers_of t end.

Lemma rasters_app : forall a b, rasters_of (a ++ b) = rasters_of a ++ rasters_of b.
Proof. induction a as [|[n c|n fs] a IH]; intros b; cbn [rasters_of app]; rewrite ?IH; reflexivity. Qed.
Lemma layers_app : forall a b, layers_of (a ++ b) = layers_of a ++ layers_of b.
Proof. induction a as [|[n c|n fs] a IH]; intros b; cbn [layers_of app]; rewrite ?IH; reflexivity. Qed.

Lemma put_all_others : forall ws d, d_others (put_all d ws) = d_others d.
Proof. induction ws as [|[n c|n fs] ws IH]; intros d; cbn [put_all fold_left]; [reflexivity|apply (IH (put d (RasterFile n c)))|apply (IH (put d (Layer n fs)))]. Qed.
Lemma put_all_store : forall ws d, d_store (put_all d ws) = write_layers (d_store d) (layers_of ws).
Proof. induction ws as [|[n c|n fs] ws IH]; intros d; cbn [put_all fold_left layers_of]; [reflexivity|apply (IH (put d (RasterFile n c)))|apply (IH (put d (Layer n fs)))]. Qed.
Lemma put_all_rasters : forall ws d, d_rasters (put_all d ws) = fold_left (fun l w => dset String.eqb l (fst w) (snd w)) (rasters_of ws) (d_rasters d).
Proof. induction ws as [|[n c|n fs] ws IH]; intros d; cbn [put_all fold_left rasters_of]; [reflexivity|apply (IH (put d (RasterFile n c)))|apply (IH (put d (Layer n fs)))]. Qed.

Lemma dset_new : forall {A} (l : list (string * A)) k v, ~ In k (map fst l) -> dset String.eqb l k v = l ++ [(k, v)].
Proof.
  intros A l k v. induction l as [|[x y] l IH]; intros N; cbn [dset map fst app] in *; [reflexivity|].
  destruct (String.eqb_spec x k) as [E|E]; [exfalso; apply N; left; exact E|].
  rewrite IH; [reflexivity|]. intros I. apply N. right. exact I.
Qed.
Lemma dsets_new : forall {A} (ws l : list (string * A)), NoDup (map fst (l ++ ws)) ->
  fold_left (fun l w => dset String.eqb l (fst w) (snd w)) ws l = l ++ ws.
Proof.
  intros A ws. induction ws as [|[k v] ws IH]; intros l ND; cbn [fold_left fst snd]; [rewrite app_nil_r; reflexivity|].
  rewrite map_app in ND. cbn [map fst] in ND.
  rewrite dset_new.
  - rewrite IH; rewrite <- app_assoc; [reflexivity|]. rewrite map_app. exact ND.
  - apply NoDup_remove_2 in ND. intros I. apply ND. apply in_or_app. left. exact I.
Qed.

Lemma NoDup_left : forall {A} (a b : list A), NoDup (a ++ b) -> NoDup a.
Proof.
  induction a as [|x a IH]; intros b ND; [constructor|]. cbn [app] in ND. inversion ND; subst. constructor; [|eapply IH; eassumption].
  intros I. apply H1. apply in_or_app. left. exact I.
Qed.

(** ** A cut list of outputs *)
Definition cut_of (ws ws' : list output) : Prop :=
  exists post, ws = ws' ++ post \/ (exists pre w, ws = pre ++ w :: post /\ ws' = pre ++ [tear w]).

Lemma run_cut : forall r d, cut_of (fst (trace (process_all (options_of r)) d)) (run_outputs r d).
Proof.
  intros [p|p k b] d; cbn [options_of run_outputs].
  - exists []. left. rewrite app_nil_r. reflexivity.
  - set (ws := fst (trace (process_all p) d)). destruct (nth_error ws k) as [w|] eqn:E.
    + destruct (nth_error_split ws k E) as (l1 & l2 & E1 & E2). rewrite E1.
      assert (F : firstn k (l1 ++ w :: l2) = l1) by (rewrite <- E2, firstn_app, Nat.sub_diag, firstn_all; cbn [firstn]; apply app_nil_r).
      rewrite F. destruct b.
      * exists l2. right. exists l1, w. auto.
      * exists (w :: l2). left. rewrite app_nil_r. reflexivity.
    + exists (skipn k ws). left. rewrite app_nil_r, firstn_skipn. reflexivity.
Qed.

(** Raster files of a cut list. *)
Lemma cut_rasters : forall ws ws', cut_of ws ws' -> exists done rest, rasters_of ws = done ++ rest /\
  (rasters_of ws' = done \/ exists n c rest', rest = (n, c) :: rest' /\ rasters_of ws' = done ++ [(n, Torn)]).
Proof.
  intros ws ws' (post & [->|(pre & w & -> & ->)]).
  - exists (rasters_of ws'), (rasters_of post). split; [apply rasters_app|left; reflexivity].
  - rewrite !rasters_app. destruct w as [n c|n fs]; cbn [tear rasters_of].
    + exists (rasters_of pre), ((n, c) :: rasters_of post). split; [reflexivity|]. right. eauto.
    + exists (rasters_of pre), (rasters_of post). split; [reflexivity|]. left. apply app_nil_r.
Qed.

(** Layers of a cut list. *)
Lemma cut_layers : forall ws ws', cut_of ws ws' -> exists done rest, layers_of ws = done ++ rest /\
  (layers_of ws' = done \/ exists n fs rest', rest = (n, fs) :: rest' /\ layers_of ws' = done ++ [(n, [])]).
Proof.
  intros ws ws' (post & [->|(pre & w & -> & ->)]).
  - exists (layers_of ws'), (layers_of post). split; [apply layers_app|left; reflexivity].
  - rewrite !layers_app. destruct w as [n c|n fs]; cbn [tear layers_of].
    + exists (layers_of pre), (layers_of post). split; [reflexivity|]. left. apply app_nil_r.
    + exists (layers_of pre), ((n, fs) :: layers_of post). split; [reflexivity|]. right. eauto.
Qed.

Lemma write_layers_none : forall ws, write_layers None ws = after ws.
Proof. reflexivity. Qed.

Lemma written_one : forall n fs (ws : list (string * list props)), NoDup (map fst ws) -> In (n, fs) ws -> written n ws = fs.
Proof.
  intros n fs ws. induction ws as [|[m gs] ws IH]; intros ND I; [destruct I|]. inversion ND as [|? ? N1 N2]; subst.
  unfold written. cbn [filter fst]. destruct (String.eqb_spec m n) as [->|N].
  - cbn [map snd concat]. fold (written n ws). rewrite (written_none n ws).
    + rewrite app_nil_r. destruct I as [I|I]; [congruence|]. exfalso. apply N1. apply (in_map fst) in I. exact I.
    + intros w Hw E. apply N1. rewrite <- E. apply in_map. exact Hw.
  - fold (written n ws). apply IH; [exact N2|]. destruct I as [I|I]; [congruence|exact I].
Qed.

(** A layer with these features is in the datasource. *)
Lemma shown_whole : forall {A} ws n fs (at_of : A -> list (string * option value)) rs, NoDup (map fst ws) -> n <> ""%string -> In (n, fs) ws ->
  Forall2 (fun r g => has g (at_of r)) rs fs -> layer_shows (after ws) n at_of rs.
Proof.
  intros A ws n fs at_of rs ND N I F. destruct (read_kept ws n fs N) as (gs & R & K).
  - apply (in_map fst) in I. exact I.
  - apply written_one; assumption.
  - exists gs. split; [exact R|]. eapply keeps_full; [|exact F|exact K]. cbv beta. intros r f g Kf H. eapply has_keeps; eauto.
Qed.

Lemma shown_cut : forall {A} ws ws' n fs (at_of : A -> list (string * option value)) rs done rest,
  NoDup (map fst ws) -> n <> ""%string -> In (n, fs) ws -> Forall2 (fun r g => has g (at_of r)) rs fs ->
  ws = done ++ rest -> (ws' = done \/ exists m gs rest', rest = (m, gs) :: rest' /\ ws' = done ++ [(m, [])]) ->
  shows_or_empty (after ws') n at_of rs.
Proof.
  intros A ws ws' n fs at_of rs done rest ND N I F E C. subst ws.
  assert (NDd : NoDup (map fst done)) by (rewrite map_app in ND; eapply NoDup_left; exact ND).
  apply in_app_or in I. destruct I as [I|I].
  - right. right. destruct C as [->|(m & gs & rest' & -> & ->)]; [eapply shown_whole; eauto|].
    eapply shown_whole; [|exact N|apply in_or_app; left; exact I|exact F].
    rewrite map_app in *. cbn [map fst] in *. replace (map fst done ++ m :: map fst rest') with ((map fst done ++ [m]) ++ map fst rest') in ND
      by (rewrite <- app_assoc; reflexivity). eapply NoDup_left. exact ND.
  - assert (Nd : ~ In n (map fst done)).
    { intros J. apply (in_map fst) in I. cbn [fst] in I. rewrite map_app in ND.
      apply in_split in I. destruct I as (a & b & Eb). rewrite Eb in ND. replace (map fst done ++ a ++ n :: b) with ((map fst done ++ a) ++ n :: b) in ND
        by (rewrite <- app_assoc; reflexivity). apply NoDup_remove_2 in ND. apply ND. apply in_or_app. left. apply in_or_app. left. exact J. }
    destruct C as [->|(m & gs & rest' & -> & ->)].
    + left. apply (read_missing done n N). intros w Hw E. apply Nd. rewrite <- E. apply in_map. exact Hw.
    + destruct (string_dec m n) as [->|M].
      * right. left. destruct (read_kept (done ++ [(n, [])]) n [] N) as (gs' & R & K).
        { rewrite map_app. apply in_or_app. right. left. reflexivity. }
        { rewrite written_snoc, String.eqb_refl, app_nil_r. apply written_none. intros w Hw E. apply Nd. rewrite <- E. apply in_map. exact Hw. }
        inversion K; subst. exact R.
      * left. apply (read_missing _ n N). intros w Hw E. apply in_app_or in Hw. destruct Hw as [Hw|[<-|[]]]; [|exact (M E)].
        apply Nd. rewrite <- E. apply in_map. exact Hw.
Qed.

(** ** The whole run *)
Definition all_outputs (p : options) (a : complete_all_out) (N S V F H LL : list props) : list output :=
  dem_outputs p (ca_dem a) ++ bluespot_outputs p (ca_bluespots a) (ca_pourpoints a) ++ vector_outputs complete_names p (ca_finish a) N S V F H LL.

Theorem complete_trace : forall p a, result p = Ok a -> exists N S V F H LL,
  trace (process_all p) empty_dir = (all_outputs p a N S V F H LL, Returned 0) /\
  layer_facts "inputv" (co_nodes (ca_volumes a)) (map fst (co_nodes (ca_volumes a))) (co_streams (ca_volumes a)) (co_final (ca_volumes a)) (ca_finish a) N S V F H LL.
Proof.
  intros p a R. unfold result, complete_all in R.
  apply bind_ok in R. destruct R as (dout & Ed & R). apply bind_ok in R. destruct R as (out & Eo & R).
  apply bind_ok in R. destruct R as (pps & Epp & R). apply bind_ok in R. destruct R as ([nodes streams] & Es & R).
  apply bind_ok in R. destruct R as (final & Ep & R). apply bind_ok in R. destruct R as (fin & Ef & R). injection R as <-.
  cbn [ca_dem ca_bluespots ca_pourpoints ca_volumes ca_finish co_nodes co_streams co_final].
  set (w1 := dem_outputs p dout). set (d1 := put_all empty_dir w1). set (w2 := bluespot_outputs p out pps). set (d2 := put_all d1 w2).
  assert (R1 : read_floats d1 "bs_depths.tif" = Ok (do_depths dout)) by (unfold d1, w1, dem_outputs; destruct (o_accum p); reflexivity).
  assert (R2 : read_labels d1 "flowdir.tif" = Ok (do_flowdir dout)) by (unfold d1, w1, dem_outputs; destruct (o_accum p); reflexivity).
  assert (R3 : o_accum p = true -> read_labels d1 "accum.tif" = Ok (do_accum dout)).
  { intros T. unfold d1, w1, dem_outputs. rewrite T. reflexivity. }
  assert (S2 : d_store d2 = after ((if o_vector p then [("bluespots", map polygon_props (o_polygons p (bo_labeled out)));
    ("watersheds", map polygon_props (o_polygons p (bo_watersheds out)))]%string else []) ++ [("pourpoints"%string, map pourpoint_props pps)])).
  { unfold d2. rewrite put_all_store. replace (d_store d1) with (@None (list (string * layer value))).
    - rewrite write_layers_none. f_equal. unfold w2, bluespot_outputs, polygons. destruct (o_vector p); reflexivity.
    - unfold d1. rewrite put_all_store. unfold w1, dem_outputs. destruct (o_accum p); reflexivity. }
  assert (B : read_labels d2 "bluespots.tif" = Ok (bo_labeled out)).
  { unfold d2, w2, bluespot_outputs. rewrite !put_all_app. cbn [put_all fold_left]. fold put_all. rewrite ?polygons_files. files.
    rewrite polygons_files. files. rewrite ?polygons_files. files. reflexivity. }
  assert (Fd : read_labels d2 "flowdir.tif" = Ok (do_flowdir dout)).
  { unfold d2, w2, bluespot_outputs. rewrite !put_all_app. cbn [put_all fold_left]. fold put_all. rewrite ?polygons_files. files.
    rewrite polygons_files. files. rewrite ?polygons_files. files. exact R2. }
  assert (Nk : names_ok complete_names (if o_vector p then [("bluespots", map polygon_props (o_polygons p (bo_labeled out)));
    ("watersheds", map polygon_props (o_polygons p (bo_watersheds out)))]%string else [])).
  { split; [|split].
    - cbn. repeat (constructor; [cbn [In]; intuition discriminate|]). constructor.
    - cbn. intuition discriminate.
    - destruct (o_vector p); intros w Hw; cbn [In] in Hw; [|destruct Hw]. destruct Hw as [<-|[<-|[]]]; cbn; intuition discriminate. }
  destruct (vector_trace complete_names p d2 (bo_labeled out) (do_flowdir dout) pps nodes streams final fin _ S2 Nk B Fd Es Ep Ef)
    as (N & S & V & F & H & LL & T & LF).
  exists N, S, V, F, H, LL. split.
  - unfold process_all. cbn [trace is_empty empty_dir d_others d_rasters d_store negb].
    rewrite (dem_trace p dout _ _ Ed). fold w1 d1. rewrite (bluespot_trace p out pps _ d1 _ _ _ R1 R2 R3 Eo Epp). fold w2 d2. rewrite T.
    rewrite before_before. unfold before, all_outputs. cbn [fst snd ca_dem ca_bluespots ca_pourpoints ca_finish]. rewrite <- app_assoc. reflexivity.
  - replace (map fst (simple_volumes QOps (o_mm p) nodes)) with nodes; [exact LF|].
    unfold simple_volumes. rewrite map_map. cbn [fst]. symmetry. apply map_id.
Qed.

Definition layer_list (p : options) (a : complete_all_out) (N S V F H LL : list props) : list (string * list props) :=
  (if o_vector p then [("bluespots", map polygon_props (o_polygons p (bo_labeled (ca_bluespots a))));
     ("watersheds", map polygon_props (o_polygons p (bo_watersheds (ca_bluespots a))))]%string else []) ++
  [("pourpoints"%string, map pourpoint_props (ca_pourpoints a)); ("nodes"%string, N); ("streams"%string, S); ("initvolumes"%string, V);
   ("finalstate"%string, F); ("hypsometry"%string, H); ("finallevels"%string, LL);
   ("finalbluespots"%string, map polygon_props (o_polygons p (fo_labels (ca_finish a))))].

Lemma all_rasters : forall p a N S V F H LL, rasters_of (all_outputs p a N S V F H LL) = raster_files p a.
Proof.
  intros p a N S V F H LL. unfold all_outputs, dem_outputs, bluespot_outputs, vector_outputs, polygons, raster_files.
  destruct (o_accum p), (o_vector p); reflexivity.
Qed.
Lemma all_layers : forall p a N S V F H LL, layers_of (all_outputs p a N S V F H LL) = layer_list p a N S V F H LL.
Proof.
  intros p a N S V F H LL. unfold all_outputs, dem_outputs, bluespot_outputs, vector_outputs, polygons, layer_list.
  destruct (o_accum p), (o_vector p); reflexivity.
Qed.
Lemma raster_names : forall p a, NoDup (map fst (raster_files p a)).
Proof.
  intros p a. unfold raster_files. destruct (o_accum p); cbn; repeat (constructor; [cbn [In]; intuition discriminate|]); constructor.
Qed.
Lemma layer_names_nodup : forall p a N S V F H LL, NoDup (map fst (layer_list p a N S V F H LL)).
Proof.
  intros p a N S V F H LL. unfold layer_list. destruct (o_vector p); cbn; repeat (constructor; [cbn [In]; intuition discriminate|]); constructor.
Qed.

Lemma polygon_has : forall ls, Forall2 (fun r g => has g (polygon_props r)) ls (map polygon_props ls).
Proof. intros ls. apply Forall2_self. intros x. repeat constructor. Qed.
Lemma pourpoint_has : forall ps, Forall2 (fun r g => has g (pourpoint_props r)) ps (map pourpoint_props ps).
Proof. intros ls. apply Forall2_self. intros x. unfold has, pourpoint_props. repeat constructor. Qed.

(** Every layer of the run, with what it shows. *)
Lemma layers_ind : forall p a N S V F H LL (shown : forall A, string -> (A -> list (string * option value)) -> list A -> Prop),
  layer_facts "inputv" (co_nodes (ca_volumes a)) (map fst (co_nodes (ca_volumes a))) (co_streams (ca_volumes a)) (co_final (ca_volumes a)) (ca_finish a) N S V F H LL ->
  (forall A n fs (at_of : A -> list (string * option value)) rs, In (n, fs) (layer_list p a N S V F H LL) -> n <> ""%string ->
     Forall2 (fun r g => has g (at_of r)) rs fs -> shown A n at_of rs) ->
  layers_are shown p a.
Proof.
  intros p a N S V F H LL shown (FN & FS & FV & FF & Mf & FH & FL) X. unfold layers_are. cbn [complete_names l_pourpoints l_nodes l_streams l_init l_final l_hyps l_levels].
  split; [intros T; eapply X; [unfold layer_list; rewrite T; cbn [In app]; eauto|discriminate|apply polygon_has]|].
  split; [intros T; eapply X; [unfold layer_list; rewrite T; cbn [In app]; eauto|discriminate|apply polygon_has]|].
  assert (I : forall y, In y [("pourpoints"%string, map pourpoint_props (ca_pourpoints a)); ("nodes"%string, N); ("streams"%string, S); ("initvolumes"%string, V);
   ("finalstate"%string, F); ("hypsometry"%string, H); ("finallevels"%string, LL);
   ("finalbluespots"%string, map polygon_props (o_polygons p (fo_labels (ca_finish a))))] -> In y (layer_list p a N S V F H LL)).
  { intros y Hy. unfold layer_list. apply in_or_app. right. exact Hy. }
  split; [eapply X; [apply I; left; reflexivity|discriminate|apply pourpoint_has]|].
  split; [eapply X; [apply I; right; left; reflexivity|discriminate|exact FN]|].
  split; [eapply X; [apply I; do 2 right; left; reflexivity|discriminate|exact FS]|].
  split.
  { eapply X; [apply I; do 3 right; left; reflexivity|discriminate|]. eapply Forall2_weaken; [|exact FV].
    intros nv g (A & _). eapply has_incl; [exact A|]. intros x Hx. cbn in Hx |- *. intuition. }
  split.
  { eapply X; [apply I; do 4 right; left; reflexivity|discriminate|]. clear - FF Mf. revert Mf FF.
    generalize (co_final (ca_volumes a)) as final, F. induction (map snd (nv_index (co_nodes (ca_volumes a)))) as [|nv ix IH]; intros final FF Mf FFF.
    - destruct final; [|discriminate Mf]. inversion FFF. constructor.
    - destruct final as [|x final]; [discriminate Mf|]. cbn [combine] in FFF. inversion FFF; subst. constructor; [apply H1|].
      apply IH; [cbn [map] in Mf; congruence|assumption]. }
  split; [eapply X; [apply I; do 5 right; left; reflexivity|discriminate|exact FH]|].
  split.
  { eapply X; [apply I; do 6 right; left; reflexivity|discriminate|]. eapply Forall2_weaken; [|exact FL]. intros x g A. inversion A; subst. assumption. }
  eapply X; [apply I; do 7 right; left; reflexivity|discriminate|apply polygon_has].
Qed.

Lemma dir_rasters : forall ws, NoDup (map fst (rasters_of ws)) -> d_rasters (put_all empty_dir ws) = rasters_of ws.
Proof. intros ws ND. rewrite put_all_rasters. apply dsets_new. exact ND. Qed.

(** ** The command run to its end in an empty directory *)
Theorem complete_directory : forall p a, result p = Ok a ->
  snd (trace (process_all p) empty_dir) = Returned 0 /\
  let d := do_run empty_dir (Whole p) in
  d_others d = [] /\ d_rasters d = raster_files p a /\ layers_are (fun A => layer_shows (d_store d)) p a.
Proof.
  intros p a R. destruct (complete_trace p a R) as (N & S & V & F & H & LL & T & LF). rewrite T. split; [reflexivity|].
  unfold do_run. cbn [run_outputs]. rewrite T. cbn [fst]. cbv zeta. split; [apply put_all_others|]. split.
  - rewrite dir_rasters; rewrite all_rasters; [reflexivity|apply raster_names].
  - rewrite put_all_store, all_layers. cbn [empty_dir d_store]. rewrite write_layers_none. eapply layers_ind; [exact LF|].
    intros A n fs at_of rs I Nn X. eapply shown_whole; [apply layer_names_nodup|exact Nn|exact I|exact X].
Qed.

(** ** Killed at any time *)
Theorem complete_killed : forall p a k b, result p = Ok a ->
  let d := do_run empty_dir (Cut p k b) in
  d_others d = [] /\
  (exists done rest, raster_files p a = done ++ rest /\
     (d_rasters d = done \/ exists n c rest', rest = (n, c) :: rest' /\ d_rasters d = done ++ [(n, Torn)])) /\
  layers_are (fun A => shows_or_empty (d_store d)) p a.
Proof.
  intros p a k b R. destruct (complete_trace p a R) as (N & S & V & F & H & LL & T & LF).
  pose proof (run_cut (Cut p k b) empty_dir) as C. cbn [options_of] in C. rewrite T in C. cbn [fst] in C.
  unfold do_run. set (ws' := run_outputs (Cut p k b) empty_dir) in *. cbv zeta.
  split; [apply put_all_others|]. split.
  - destruct (cut_rasters _ _ C) as (done & rest & E & X). rewrite all_rasters in E. pose proof (raster_names p a) as ND. rewrite E, map_app in ND.
    exists done, rest. split; [exact E|]. rewrite dir_rasters; [exact X|].
    destruct X as [->|(n & c & rest' & -> & ->)]; [eapply NoDup_left; exact ND|].
    rewrite map_app. cbn [map fst] in *. replace (map fst done ++ n :: map fst rest') with ((map fst done ++ [n]) ++ map fst rest') in ND
      by (rewrite <- app_assoc; reflexivity). eapply NoDup_left. exact ND.
  - destruct (cut_layers _ _ C) as (done & rest & E & X). rewrite all_layers in E.
    rewrite put_all_store. cbn [empty_dir d_store]. rewrite write_layers_none. eapply layers_ind; [exact LF|].
    intros A n fs at_of rs I Nn Y. eapply shown_cut; [apply layer_names_nodup|exact Nn|exact I|exact Y|exact E|exact X].
Qed.

(** ** Started again and again *)
Lemma put_nonempty : forall d w, is_empty (put d w) = false.
Proof.
  intros d [n c|n fs]; unfold is_empty, put; cbn [d_others d_rasters d_store].
  - destruct (d_others d); [|reflexivity]. destruct (d_rasters d) as [|[x y] l]; cbn [dset]; [reflexivity|]. destruct (String.eqb x n); reflexivity.
  - destruct (d_others d); [|reflexivity]. destruct (d_rasters d); reflexivity.
Qed.

Lemma put_all_nonempty : forall ws d, is_empty d = false -> is_empty (put_all d ws) = false.
Proof. induction ws as [|w ws IH]; intros d E; cbn [put_all fold_left]; [exact E|]. apply (IH (put d w)). apply put_nonempty. Qed.

Theorem refused : forall p d, is_empty d = false -> trace (process_all p) d = ([], Returned 1).
Proof. intros p d E. unfold process_all. cbn [trace]. rewrite E. reflexivity. Qed.

Lemma run_refused : forall r d, is_empty d = false -> do_run d r = d.
Proof.
  intros r d E. unfold do_run. destruct r as [p|p k b]; cbn [run_outputs]; rewrite (refused p d E); cbn [fst]; [reflexivity|].
  destruct k; reflexivity.
Qed.

Theorem untouched : forall rs d, is_empty d = false -> do_runs d rs = d.
Proof.
  unfold do_runs. induction rs as [|r rs IH]; intros d E; cbn [fold_left]; [reflexivity|]. rewrite (run_refused r d E). apply IH. exact E.
Qed.

Lemma run_nothing : forall r d, is_empty (do_run d r) = true -> do_run d r = d.
Proof.
  intros r d E. unfold do_run in *. destruct (run_outputs r d) as [|w ws]; [reflexivity|].
  cbn [put_all fold_left] in E. pose proof (put_all_nonempty ws (put d w) (put_nonempty d w)) as X. unfold put_all in X. rewrite X in E. discriminate E.
Qed.

Theorem one_run : forall rs d, do_runs d rs = d \/ exists r, In r rs /\ do_runs d rs = do_run d r.
Proof.
  unfold do_runs. induction rs as [|r rs IH]; intros d; cbn [fold_left]; [left; reflexivity|].
  destruct (is_empty (do_run d r)) eqn:E.
  - rewrite (run_nothing r d E) in *. destruct (IH d) as [X|(r' & I & X)]; [left; exact X|]. right. exists r'. split; [right; exact I|exact X].
  - right. exists r. split; [left; reflexivity|]. apply (untouched rs (do_run d r) E).
Qed.

(** ** The step commands in the directory of a killed run *)
Definition name_of (w : output) : bool * string := match w with RasterFile n _ => (true, n) | Layer n _ => (false, n) end.

Lemma cut_names : forall ws ws', cut_of ws ws' -> exists post, map name_of ws = map name_of ws' ++ post.
Proof.
  intros ws ws' (post & [->|(pre & w & -> & ->)]).
  - exists (map name_of post). apply map_app.
  - exists (map name_of post). rewrite !map_app. cbn [map]. rewrite <- app_assoc. destruct w; reflexivity.
Qed.

Lemma name_layer : forall ws n, In (false, n) (map name_of ws) <-> In n (map fst (layers_of ws)).
Proof.
  induction ws as [|[m c|m fs] ws IH]; intros n; cbn [map name_of layers_of fst In]; [reflexivity|rewrite IH|rewrite IH].
  - split; [intros [E|I]; [discriminate E|exact I]|right; assumption].
  - split; (intros [E|I]; [left; congruence|right; exact I]).
Qed.

(** What was written before an output that is there, is there. *)
Lemma cut_after : forall ws ws' A w B, cut_of ws ws' -> ws = A ++ w :: B -> ~ In (name_of w) (map name_of A) ->
  In (name_of w) (map name_of ws') -> exists X, ws' = A ++ X.
Proof.
  intros ws ws' A w B (post & C) E N I. rewrite E in C. destruct C as [C|(pre & w0 & C & ->)].
  - symmetry in C. destruct (app_eq_app _ _ _ _ C) as (l & [(L1 & L2)|(L1 & L2)]); [exists l; exact L1|].
    exfalso. apply N. rewrite L1, map_app. apply in_or_app. left. exact I.
  - symmetry in C. destruct (app_eq_app _ _ _ _ C) as (l & [(L1 & L2)|(L1 & L2)]).
    + exists (l ++ [tear w0]). rewrite L1, <- app_assoc. reflexivity.
    + destruct l as [|x l]; [exists [tear w0]; rewrite L1, app_nil_r; reflexivity|].
      cbn [app] in L2. injection L2 as <- L2. exfalso. apply N. rewrite L1, map_app. rewrite map_app in I. apply in_or_app.
      apply in_app_or in I. destruct I as [I|[I|[]]]; [left; exact I|right; left; rewrite <- I; destruct w0; reflexivity].
Qed.

Lemma written_cut : forall (lw lw' : list (string * list props)) n fs done rest, NoDup (map fst lw) -> In (n, fs) lw -> lw = done ++ rest ->
  (lw' = done \/ exists m gs rest', rest = (m, gs) :: rest' /\ lw' = done ++ [(m, [])]) -> written n lw' = fs \/ written n lw' = [].
Proof.
  intros lw lw' n fs done rest ND I E C. subst lw. apply in_app_or in I.
  assert (NDd : NoDup (map fst done)) by (rewrite map_app in ND; eapply NoDup_left; exact ND).
  assert (D : written n done = fs \/ written n done = []).
  { destruct I as [I|I]; [left; apply written_one; assumption|]. right. apply written_none. intros w Hw Ew.
    apply (in_map fst) in I. cbn [fst] in I. apply in_split in I. destruct I as (x & y & Exy). rewrite map_app, Exy in ND.
    replace (map fst done ++ x ++ n :: y) with ((map fst done ++ x) ++ n :: y) in ND by (rewrite <- app_assoc; reflexivity).
    apply NoDup_remove_2 in ND. apply ND. apply in_or_app. left. apply in_or_app. left. rewrite <- Ew. apply in_map. exact Hw. }
  destruct C as [->|(m & gs & rest' & _ & ->)]; [exact D|]. rewrite written_snoc. destruct (String.eqb m n); rewrite app_nil_r; exact D.
Qed.

Lemma dget_found : forall {A} (l : list (string * A)) k v, NoDup (map fst l) -> In (k, v) l -> dget String.eqb l k = Some v.
Proof.
  intros A l k v. induction l as [|[x y] l IH]; intros ND I; [destruct I|]. inversion ND as [|? ? N1 N2]; subst. cbn [dget].
  destruct (String.eqb_spec x k) as [->|N].
  - destruct I as [I|I]; [congruence|]. exfalso. apply N1. apply (in_map fst) in I. exact I.
  - destruct I as [I|I]; [congruence|]. apply IH; assumption.
Qed.

Theorem steps_finish : forall p a k b hs, result p = Ok a -> ~ (o_mm p == 0)%Q ->
  let d := do_run empty_dir (Cut p k b) in
  layer_shows (d_store d) "pourpoints" pourpoint_props (ca_pourpoints a) ->
  exists flowdir labels, read_labels d "flowdir.tif" = Ok flowdir /\ read_labels d "bluespots.tif" = Ok labels /\
  let s := mkSetting (o_fuel p) (o_gt p) (o_dem p) flowdir labels (o_mm p) (o_zresolution p) "inputv" complete_names in
  let ds := history s hs (d_store d) in
  let rasters ds := cmd_finalbluespots labels (o_dem p) ds "finallevels" in
  let right := Ok (fo_depths (ca_finish a), fo_labels (ca_finish a)) in
  (rasters ds = Exc PlainException \/ rasters ds = Exc ValueError \/ rasters ds = right) /\
  exists ds', mfold (fun ds c => exec s c ds) [Network; Initvolumes; Finalvolumes; Hyps; Finallevels] ds = Ok ds' /\ rasters ds' = right.
Proof.
  intros p a k b hs R Nm d Sp. pose proof R as R0. destruct (complete_trace p a R) as (N & S & V & F & H & LL & T & LF).
  pose proof (run_cut (Cut p k b) empty_dir) as C. cbn [options_of] in C. rewrite T in C. cbn [fst] in C.
  unfold do_run in d. set (ws' := run_outputs (Cut p k b) empty_dir) in *.
  assert (Ed : d_store d = after (layers_of ws')).
  { unfold d. rewrite put_all_store. apply write_layers_none. }
  rewrite Ed in Sp. destruct Sp as (gs & Rg & Fg).
  assert (Ip : In "pourpoints"%string (map fst (layers_of ws'))).
  { destruct (in_dec string_dec "pourpoints"%string (map fst (layers_of ws'))) as [I|I]; [exact I|]. exfalso.
    rewrite (read_missing (layers_of ws') "pourpoints"%string) in Rg; [discriminate Rg|discriminate|].
    intros w Hw E. apply I. rewrite <- E. apply in_map. exact Hw. }
  (* the raster files *)
  assert (Files : exists X, ws' = (dem_outputs p (ca_dem a) ++ [RasterFile "bluespots.tif" (Labels (bo_labeled (ca_bluespots a)))] ++
    polygons p "bluespots" (bo_labeled (ca_bluespots a)) ++ [RasterFile "watersheds.tif" (Labels (bo_watersheds (ca_bluespots a)))] ++
    polygons p "watersheds" (bo_watersheds (ca_bluespots a))) ++ X).
  { eapply cut_after with (w := Layer "pourpoints" (map pourpoint_props (ca_pourpoints a))) (B := vector_outputs complete_names p (ca_finish a) N S V F H LL);
      [exact C| | |].
    - unfold all_outputs, bluespot_outputs. rewrite <- !app_assoc. reflexivity.
    - cbn [name_of]. intros I. apply name_layer in I. revert I. unfold dem_outputs, polygons. destruct (o_accum p), (o_vector p); cbn; intuition discriminate.
    - cbn [name_of]. apply name_layer. exact Ip. }
  destruct Files as (X & EX).
  assert (NDr : NoDup (map fst (rasters_of ws'))).
  { destruct (cut_rasters _ _ C) as (done & rest & E & Y). rewrite all_rasters in E. pose proof (raster_names p a) as ND. rewrite E, map_app in ND.
    destruct Y as [->|(n & c & rest' & -> & ->)]; [eapply NoDup_left; exact ND|].
    rewrite map_app. cbn [map fst] in *. replace (map fst done ++ n :: map fst rest') with ((map fst done ++ [n]) ++ map fst rest') in ND
      by (rewrite <- app_assoc; reflexivity). eapply NoDup_left. exact ND. }
  assert (Dr : d_rasters d = rasters_of ws') by (apply dir_rasters; exact NDr).
  exists (do_flowdir (ca_dem a)), (bo_labeled (ca_bluespots a)).
  split.
  { unfold read_labels. rewrite Dr. rewrite (dget_found _ "flowdir.tif"%string (Labels (do_flowdir (ca_dem a))) NDr); [reflexivity|].
    rewrite EX, rasters_app. apply in_or_app. left. unfold dem_outputs. destruct (o_accum p); cbn [app rasters_of In]; auto. }
  split.
  { unfold read_labels. rewrite Dr. rewrite (dget_found _ "bluespots.tif"%string (Labels (bo_labeled (ca_bluespots a))) NDr); [reflexivity|].
    rewrite EX, rasters_app. apply in_or_app. left. unfold dem_outputs. destruct (o_accum p); cbn [app rasters_of In]; auto 6. }
  (* the layers *)
  unfold result, complete_all in R.
  apply bind_ok in R. destruct R as (dout & _ & R). apply bind_ok in R. destruct R as (out & _ & R).
  apply bind_ok in R. destruct R as (pps & _ & R). apply bind_ok in R. destruct R as ([nodes streams] & Es & R).
  apply bind_ok in R. destruct R as (final & Ep & R). apply bind_ok in R. destruct R as (fin & Ef & R). injection R as <-.
  cbn [ca_dem ca_bluespots ca_pourpoints ca_volumes ca_finish co_nodes co_streams co_final] in *.
  unfold finish in Ef. apply bind_ok in Ef. destruct Ef as (hfs & Eh & Ef).
  fold (pp_index_of pps) in Ef. apply bind_ok in Ef. destruct Ef as (his & Ei & Ef).
  apply bind_ok in Ef. destruct Ef as (ffs & Eff & Ef). apply bind_ok in Ef. destruct Ef as (levels & El & Ef).
  apply bind_ok in Ef. destruct Ef as ([od ol] & Eb & Ef).
  destruct od as [depths|]; [|discriminate Ef]. destruct ol as [flabels|]; [|discriminate Ef]. injection Ef as <-.
  cbn [fo_depths fo_labels fo_hyps fo_levels] in *. cbv zeta.
  assert (Nk : names_ok complete_names []).
  { split; [|split].
    - cbn. repeat (constructor; [cbn [In]; intuition discriminate|]). constructor.
    - cbn. intuition discriminate.
    - intros w []. }
  assert (Ra : ~ In "inputv"%string reserved) by (cbn; intuition discriminate).
  assert (Mn : map fst (simple_volumes QOps (o_mm p) nodes) = nodes).
  { unfold simple_volumes. rewrite map_map. cbn [fst]. apply map_id. }
  assert (I : inv (o_mm p) "inputv" complete_names pps nodes streams final his levels (layers_of ws')).
  { split; [exact Ip|].
    destruct (cut_layers _ _ C) as (done & rest & E & Y). rewrite all_layers in E.
    match type of E with ?l = _ => set (LLst := l) in * end.
    assert (ND : NoDup (map fst LLst)) by apply layer_names_nodup.
    assert (In8 : forall y, In y [("pourpoints"%string, map pourpoint_props pps); ("nodes"%string, N); ("streams"%string, S); ("initvolumes"%string, V);
      ("finalstate"%string, F); ("hypsometry"%string, H); ("finallevels"%string, LL)] -> In y LLst).
    { intros y Hy. unfold LLst, layer_list. cbn [ca_pourpoints]. apply in_or_app. right. cbn [In] in *. intuition. }
    split.
    - destruct (written_cut LLst (layers_of ws') "pourpoints" _ done rest ND (In8 _ (or_introl eq_refl)) E Y) as [W|W]; [exact W|].
      destruct (read_kept (layers_of ws') "pourpoints" [] ltac:(discriminate) Ip W) as (gs' & Rg' & Kg).
      inversion Kg; subst gs'. rewrite Rg in Rg'. injection Rg' as ->. inversion Fg; subst. exact W.
    - destruct LF as (FN & FS & FV & FF & Mf & FH & FL). rewrite Mn in FN. intros x pr Ix.
      assert (Z : forall (A : Type) (Rr : A -> props -> Prop) rs y fs, In (y, fs) [("pourpoints"%string, map pourpoint_props pps); ("nodes"%string, N); ("streams"%string, S); ("initvolumes"%string, V);
          ("finalstate"%string, F); ("hypsometry"%string, H); ("finallevels"%string, LL)] -> Forall2 Rr rs fs -> cop Rr rs 0 (written y (layers_of ws'))).
      { intros A Rr rs y fs Iy Fy. destruct (written_cut LLst (layers_of ws') y fs done rest ND (In8 _ Iy) E Y) as [W|W]; rewrite W.
        - apply (cop_less _ _ 1); [apply cop_once; exact Fy|lia].
        - exists 0%nat. split; [lia|constructor]. }
      unfold specs in Ix. cbn [In complete_names l_nodes l_streams l_init l_final l_hyps l_levels] in Ix.
      destruct Ix as [Ix|[Ix|[Ix|[Ix|[Ix|[Ix|[]]]]]]]; injection Ix as <- <-; eapply Z; try eassumption; cbn [In]; auto 8. }
  destruct (history_inv (o_fuel p) (o_gt p) (o_dem p) (do_flowdir dout) (bo_labeled out) (o_mm p) (o_zresolution p) "inputv" complete_names pps nodes streams final hfs his ffs levels []
    Es Ep Eh Ei Eff El Nk Ra Nm hs _ I) as (ws2 & E2 & I2).
  rewrite Ed, E2. split; [eapply (rasters_after (o_dem p) (bo_labeled out) (o_mm p) "inputv" complete_names) ; eauto|].
  eapply (again_after (o_fuel p) (o_gt p) (o_dem p) (do_flowdir dout) (bo_labeled out) (o_mm p) (o_zresolution p) "inputv" complete_names); eauto.
Qed.

Lemma name_raster : forall ws n, In (true, n) (map name_of ws) <-> In n (map fst (rasters_of ws)).
Proof.
  induction ws as [|[m c|m fs] ws IH]; intros n; cbn [map name_of rasters_of fst In]; [reflexivity|rewrite IH|rewrite IH].
  - split; (intros [E|I]; [left; congruence|right; exact I]).
  - split; [intros [E|I]; [discriminate E|exact I]|right; assumption].
Qed.

(** A directory that has finaldepths.tif has all layers but the last one. *)
Theorem last_files : forall p a k b, result p = Ok a ->
  let d := do_run empty_dir (Cut p k b) in
  In "finaldepths.tif"%string (map fst (d_rasters d)) ->
  layers_are (fun A n attrs rs => n = "finalbluespots"%string \/ layer_shows (d_store d) n attrs rs) p a.
Proof.
  intros p a k b R d Id. destruct (complete_trace p a R) as (N & S & V & F & H & LL & T & LF).
  pose proof (run_cut (Cut p k b) empty_dir) as C. cbn [options_of] in C. rewrite T in C. cbn [fst] in C.
  unfold do_run in d. set (ws' := run_outputs (Cut p k b) empty_dir) in *.
  assert (Ed : d_store d = after (layers_of ws')).
  { unfold d. rewrite put_all_store. apply write_layers_none. }
  assert (NDr : NoDup (map fst (rasters_of ws'))).
  { destruct (cut_rasters _ _ C) as (done & rest & E & Y). rewrite all_rasters in E. pose proof (raster_names p a) as ND. rewrite E, map_app in ND.
    destruct Y as [->|(n & c & rest' & -> & ->)]; [eapply NoDup_left; exact ND|].
    rewrite map_app. cbn [map fst] in *. replace (map fst done ++ n :: map fst rest') with ((map fst done ++ [n]) ++ map fst rest') in ND
      by (rewrite <- app_assoc; reflexivity). eapply NoDup_left. exact ND. }
  assert (Dr : d_rasters d = rasters_of ws') by (apply dir_rasters; exact NDr). rewrite Dr in Id. rewrite Ed. clear Dr Ed. clearbody ws'. clear d.
  assert (Files : exists X, ws' = (dem_outputs p (ca_dem a) ++ bluespot_outputs p (ca_bluespots a) (ca_pourpoints a) ++
    [Layer "nodes" N; Layer "streams" S; Layer "initvolumes" V; Layer "finalstate" F; Layer "hypsometry" H; Layer "finallevels" LL]) ++ X).
  { eapply cut_after with (w := RasterFile "finaldepths.tif" (Exact (fo_depths (ca_finish a))))
      (B := [RasterFile "finalbluespots.tif" (Labels (fo_labels (ca_finish a))); Layer "finalbluespots" (map polygon_props (o_polygons p (fo_labels (ca_finish a))))]);
      [exact C| | |].
    - unfold all_outputs, vector_outputs. rewrite <- !app_assoc. reflexivity.
    - cbn [name_of]. intros I. apply name_raster in I. revert I. unfold dem_outputs, bluespot_outputs, polygons.
      destruct (o_accum p), (o_vector p); cbn; intuition discriminate.
    - cbn [name_of]. apply name_raster. exact Id. }
  destruct Files as (X & EX).
  assert (NDl : NoDup (map fst (layers_of ws'))).
  { destruct (cut_layers _ _ C) as (done & rest & E & Y). rewrite all_layers in E. pose proof (layer_names_nodup p a N S V F H LL) as ND. rewrite E, map_app in ND.
    destruct Y as [->|(n & c & rest' & -> & ->)]; [eapply NoDup_left; exact ND|].
    rewrite map_app. cbn [map fst] in *. replace (map fst done ++ n :: map fst rest') with ((map fst done ++ [n]) ++ map fst rest') in ND
      by (rewrite <- app_assoc; reflexivity). eapply NoDup_left. exact ND. }
  eapply layers_ind; [exact LF|]. intros A n fs at_of rs I Nn Y.
  destruct (string_dec n "finalbluespots") as [En|En]; [left; exact En|right].
  eapply shown_whole; [exact NDl|exact Nn| |exact Y]. rewrite EX, layers_app. apply in_or_app. left.
  unfold layer_list in I. unfold dem_outputs, bluespot_outputs, polygons. destruct (o_accum p), (o_vector p); cbn [app layers_of In] in *;
    repeat (destruct I as [I|I]; [injection I as <- <-; first [congruence|auto 12]|]); destruct I.
Qed.
