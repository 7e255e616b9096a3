(** * The lines drawn for the streams *)

From Coq Require Import Permutation QArith.
From Flocq Require Import IEEE754.BinarySingleNaN.
From Verif Require Import Base BaseProofs Num Float64 FillSpec FillThms FlowModel FlowSpec FlowProofs LabelModel LabelSpec CompSpec CompProofs VectorModel
  BluespotModel BluespotSpec BluespotThms DemModel DemProofs NetModel NetSpec NetProofs UntangleProofs UntangleFacts NetThms
  NetworkSpec Dict LabelProofs RainModel PipelineModel RainProofs RainThms FloatPipeThms StreamSpec.
Local Open Scope Z_scope.

(** ** Walks *)
Lemma step_cons : forall x l u v, step_in (x :: l) u v -> (u = x /\ hd_error l = Some v) \/ step_in l u v.
Proof.
  intros x l u v (p & q & E). destruct p as [|y p]; cbn [app] in E; injection E as -> ->; [left|right; exists p, q]; auto.
Qed.

Section Walks.
Variables (f lab : raster Z).
Hypothesis Dr : fully_draining f.

Lemma walk_steps : forall src c l p, walk f lab src c l p -> forall u v, step_in p u v -> flows f u v.
Proof.
  intros src c l p W. induction W as [c I Fc|c d l p Fc F W IH|c Fc I N]; intros u v H.
  - apply step_cons in H. destruct H as [[_ H]|(p & q & H)]; [discriminate|]. destruct p; discriminate.
  - apply step_cons in H. destruct H as [[-> H]|H]; [|apply IH; exact H].
    apply walk_hd in W. destruct W as (_ & t & ->). injection H as <-. exact F.
  - apply step_cons in H. destruct H as [[_ H]|(p & q & H)]; [discriminate|]. destruct p; discriminate.
Qed.

Lemma ends_off : forall c, inside (nrows f) (ncols f) c -> (forall d, target f c = Some d -> ~ inside (nrows f) (ncols f) d) -> flows_off f c.
Proof.
  intros c I N. destruct Dr as [_ D]. destruct (D c I) as [c O|c d F _]; [exact O|]. destruct F as (_ & Id & T). destruct (N d T Id).
Qed.

Lemma walk_last : forall src c l p, walk f lab src c l p ->
  match l with Some d => at_ lab (lst p) = d | None => flows_off f (lst p) end.
Proof.
  intros src c l p W. induction W as [c I Fc|c d l p Fc F W IH|c Fc I N].
  - reflexivity.
  - assert (E : lst (c :: p) = lst p). { apply walk_hd in W. destruct W as (_ & t & ->). reflexivity. } rewrite E. exact IH.
  - apply ends_off; assumption.
Qed.

Lemma walk_all_in : forall src c l p, walk f lab src c l p -> forall x, In x p -> inside (nrows f) (ncols f) x.
Proof.
  intros src c l p W. induction W as [c I Fc|c d l p Fc F W IH|c Fc I N]; intros x [<-|H]; auto; try destruct H. apply F.
Qed.
End Walks.

Section Drawn.
Variables (f lab : raster Z) (pps : list cell).
Hypothesis Sh : same_shape f lab.
Hypothesis Dr : fully_draining f.
Hypothesis Ne : pps <> [].
Hypothesis PP : pourpoints_ok f lab pps.

Lemma lst_in : forall l, l <> [] -> In (lst l) l.
Proof. intros l N. rewrite (lst_split l N) at 2. apply in_or_app. right. left. reflexivity. Qed.

Theorem network_drawn : forall fuel, (length (rcells f) <= fuel)%nat -> (length pps <= fuel)%nat -> forall out,
  geometric_pourpoint_network fuel f lab pps (Some 0) = Ok out ->
  (forall n, In n out -> drawn f (g_pix n) (g_geom n) /\ match g_dstr n with
     | None => flows_off f (lst (g_geom n))
     | Some d => exists m, In m out /\ g_id m = d /\ if g_junction m then lst (g_geom n) = g_pix m else has_label lab d (lst (g_geom n)) end) /\
  (forall n, In n out -> length (g_geom n) = 1%nat <-> g_junction n = false /\ flows_off f (g_pix n)) /\
  exists n, In n out /\ g_id n = 0 /\ g_junction n = false /\ length (g_geom n) = 1%nat.
Proof.
  intros fuel F1 F2 out EO. destruct (network_shape f lab Sh Dr pps Ne PP) as (N & A & B & C & D).
  destruct (D fuel F1 F2) as (out' & b & _ & E2 & U). rewrite EO in E2. injection E2 as <-.
  destruct (junctions_preserve f lab pps Sh Dr Ne PP fuel F1 F2) as (plain & out' & _ & E2 & Ei & _ & Pm & ND & JB & Hd & Lj & _ & _ & NDg).
  rewrite EO in E2. injection E2 as <-.
  assert (Jf : forall n, In n N -> g_junction n = false) by (intros n Hn; destruct (C n Hn) as [[J _] _]; auto).
  assert (NE : forall n, In n out -> g_geom n <> []) by (intros n Hn X; specialize (Hd n Hn); rewrite X in Hd; discriminate).
  assert (Pour : forall m, In m N -> exists o, In o out /\ g_junction o = false /\ g_id o = g_id m).
  { intros m Hm. pose proof (unt_pour _ _ _ _ U) as Q. assert (X : In (key m) (map key (filter pour N))).
    { apply in_map. apply filter_In. split; [exact Hm|]. unfold pour. rewrite (Jf m Hm). reflexivity. }
    apply (Permutation_in _ (Permutation_sym Q)) in X. apply in_map_iff in X. destruct X as (o & Ek & Ho). apply filter_In in Ho. destruct Ho as [Ho Po].
    exists o. split; [exact Ho|]. unfold pour in Po. split; [destruct (g_junction o); [discriminate|reflexivity]|]. unfold key in Ek. congruence. }
  assert (ByLabel : forall d c, inside (nrows lab) (ncols lab) c -> at_ lab c = d -> exists m, In m N /\ g_id m = d).
  { intros d c I E. destruct PP as [L _]. specialize (L c I). assert (X : In d (map g_id N)) by (rewrite A; apply in_zseq; lia).
    apply in_map_iff in X. destruct X as (m & Em & Hm). exists m. auto. }
  split; [|split].
  - intros n Hn. split.
    + split; [apply Hd; exact Hn|]. split; [apply NDg; exact Hn|]. apply (unt_steps (flows f) _ _ _ _ U); [|exact Hn].
      intros m Hm. destruct (C m Hm) as [(_ & _ & W) _]. apply (walk_steps f lab _ _ _ _ W).
    + destruct (unt_ends _ _ _ _ U n Hn) as [(m & Hm & Ed & El)|(j & Hj & Jj & Ed & El)].
      * rewrite Ed, El. destruct (C m Hm) as [(_ & _ & W) _]. pose proof (walk_last f lab Dr _ _ _ _ W) as L.
        destruct (g_dstr m) as [d|]; [|exact L].
        assert (I : inside (nrows lab) (ncols lab) (lst (g_geom m))).
        { destruct Sh as [<- <-]. apply (walk_all_in f lab _ _ _ _ W). apply lst_in. apply walk_hd in W. destruct W as (_ & t & ->). discriminate. }
        destruct (ByLabel d _ I L) as (q & Hq & Eq). destruct (Pour q Hq) as (o & Ho & Jo & Eo). exists o. split; [exact Ho|]. split; [congruence|].
        rewrite Jo. split; assumption.
      * rewrite Ed. exists j. rewrite Jj. auto.
  - intros n Hn. split.
    + intros L. pose proof (unt_short _ _ _ _ U n Hn L) as HN. split; [apply Jf; exact HN|].
      destruct (C n HN) as [(_ & La & W) _]. specialize (Hd n Hn). destruct (g_geom n) as [|x [|y t]]; try discriminate.
      inversion W as [c I Fc|c d l p Fc F W' EE|c Fc I Nx]; subst.
      * exfalso. apply (proj1 Fc). exact La.
      * apply walk_hd in W'. destruct W' as (_ & t & E). discriminate.
      * apply (ends_off f Dr); assumption.
    + intros [Jn O]. assert (X : In (key n) (map key (filter pour N))).
      { eapply Permutation_in; [exact (unt_pour _ _ _ _ U)|]. apply in_map. apply filter_In. split; [exact Hn|]. unfold pour. rewrite Jn. reflexivity. }
      apply in_map_iff in X. destruct X as (m & Ek & Hm). apply filter_In in Hm. destruct Hm as [Hm _].
      assert (Em : g_id m = g_id n /\ g_pix m = g_pix n) by (unfold key in Ek; split; congruence). destruct Em as [Em Ep].
      assert (Lm : length (g_geom m) = 1%nat).
      { destruct (C m Hm) as [(_ & La & W) _]. rewrite Ep in *.
        inversion W as [c I Fc E1 E2 E3|c d l p Fc F W' E1 E2 E3|c Fc I Nx E1 E2 E3]; subst; try reflexivity. exfalso. destruct F as (_ & Id & T). destruct O as (_ & d' & T' & Nd). congruence. }
      pose proof (unt_short_kept _ _ _ _ U m Hm Lm) as Ho. assert (m = n) as <- by (eapply NoDup_ids_inj; eauto). exact Lm.
  - destruct pps as [|c0 rest] eqn:Ep; [congruence|]. destruct (at_node N (c0 :: rest) 0 A B 0 c0 eq_refl) as (n & Hn & _ & E). cbn in E.
    destruct (off_single _ _ n (C n Hn) E) as [G _]. exists n. split; [|split; [exact E|split; [apply Jf; exact Hn|rewrite G; reflexivity]]].
    apply (unt_short_kept _ _ _ _ U n Hn). rewrite G. reflexivity.
Qed.
End Drawn.

(** ** From the terrain *)
Lemma centre_ok : forall t c, centre t c (transform_cell_to_world QOps c t).
Proof.
  intros t c. unfold centre, transform_cell_to_world, apply_geotransform, nhalf. cbn [nadd nmul ndiv nofZ QOps fst snd].
  change (inject_Z 1 / inject_Z 2)%Q with (1 # 2)%Q. split; ring.
Qed.

Section Terrain.
Variable cc : raster bool -> raster Z * Z.
Hypothesis Hcc : labels_components cc.
Variables (sp : bool) (fuel fuel' : nat) (t1 t5 : b64) (dem : raster b64) (dout : dem_out) (t : geotransform b64)
  (f : @unit_stats b64 -> bool) (accum : option (raster b64)) (out : bluespot_out).
Hypothesis SO : size_ok sp dem.
Hypothesis H32 : dem32 dem.
Hypothesis HF : dem_finite dem.
Hypothesis Big : nrows dem * ncols dem <= 2 ^ 53.
Hypothesis HD : dem_process sp fuel t1 t5 dem = Ok dout.
Hypothesis HA : accum = None \/ accum = Some (accum64 (do_accum dout)).
Hypothesis HB : bluespot_process sp cc fuel' t (do_depths dout) (do_flowdir dout) (Some f) accum (Some dem) = Ok out.

Theorem streams_drawn : exists pps, exact_pourpoints t (do_depths dout) out = Ok pps /\
  forall k, (length (rcells (do_flowdir dout)) <= k)%nat -> (length pps <= k)%nat ->
  exists nodes sts, stream_process QOps k (gt_Q t) (do_flowdir dout) (bo_labeled out) pps true = Ok (nodes, sts) /\
  map (fun s => (sf_id s, sf_dstr s)) sts = map (fun n => (nf_id n, nf_dstr n)) nodes /\
  (forall n, In n nodes -> centre (gt_Q t) (nf_row n, nf_col n) (nf_coord n) /\
     if nf_junction n then nf_bspot n = None /\ nf_area n = 0%Q /\ nf_vol n = 0%Q /\ nf_wshed n = 0%Q
     else exists p, In p pps /\ pp_id p = nf_id n /\ (pp_row p, pp_col p) = (nf_row n, nf_col n) /\
       nf_bspot n = Some (pp_id p) /\ nf_area n = pp_area p /\ nf_vol n = pp_vol p /\ nf_wshed n = pp_wshed p) /\
  (forall s, In s sts -> exists n path, In n nodes /\ nf_id n = sf_id s /\ nf_dstr n = sf_dstr s /\
     drawn (do_flowdir dout) (nf_row n, nf_col n) path /\ Forall2 (centre (gt_Q t)) path (sf_coords s) /\
     match sf_dstr s with
     | None => flows_off (do_flowdir dout) (last path (0, 0))
     | Some d => exists m, In m nodes /\ nf_id m = d /\
         if nf_junction m then last path (0, 0) = (nf_row m, nf_col m) else has_label (bo_labeled out) d (last path (0, 0))
     end) /\
  (exists s, In s sts /\ sf_id s = 0) /\ (forall s, In s sts -> length (sf_coords s) = 1%nat <-> sf_id s = 0).
Proof.
  destruct (exact_pps cc Hcc sp fuel fuel' t1 t5 dem dout t f accum out SO H32 HF HD HB) as (pps & E & Ec & Ei & _ & _). exists pps. split; [exact E|].
  destruct (chain_points cc Hcc sp fuel fuel' t1 t5 dem dout t f accum out SO H32 HF Big HD HA HB) as (Sl & D & Hr & Hc & _ & PP & Ne & Ed & _).
  assert (Lp : length (pps_of out) = length pps) by (rewrite <- Ec, map_length; auto).
  intros k K1 K2.
  destruct (junctions_preserve (do_flowdir dout) (bo_labeled out) (pps_of out) Sl D Ne PP k K1 ltac:(lia)) as (plain & ns & _ & En & Ep & Epx & Pm & ND & JB & _).
  destruct (network_drawn (do_flowdir dout) (bo_labeled out) (pps_of out) Sl D Ne PP k K1 ltac:(lia) ns En) as (DR & ONE & BG).
  unfold stream_process. rewrite Ec, En. cbn [bind]. eexists. eexists. split; [reflexivity|].
  set (index := fold_left (fun d p => dset Z.eqb d (pp_id p) p) pps []).
  assert (NE : forall n, In n ns -> g_geom n <> []) by (intros n Hn X; destruct (DR n Hn) as [(H & _) _]; rewrite X in H; discriminate).
  assert (ALL : filter (fun n => match g_geom n with [] => false | _ => true end) ns = ns).
  { clear - NE. induction ns as [|n ns IH]; [reflexivity|]. cbn [filter]. pose proof (NE n (or_introl eq_refl)) as X.
    rewrite IH by (intros; apply NE; right; auto). destruct (g_geom n); [congruence|reflexivity]. }
  unfold make_streams. rewrite ALL.
  assert (Mk : forall n, nf_id (make_node QOps (gt_Q t) index n) = g_id n /\ nf_dstr (make_node QOps (gt_Q t) index n) = g_dstr n /\
     nf_junction (make_node QOps (gt_Q t) index n) = g_junction n /\
     (nf_row (make_node QOps (gt_Q t) index n), nf_col (make_node QOps (gt_Q t) index n)) = g_pix n).
  { intros n. unfold make_node. destruct (dget Z.eqb index (g_id n)), (g_pix n); auto. }
  assert (PourIn : forall n, In n ns -> g_junction n = false -> exists c, nth_error (pps_of out) (Z.to_nat (g_id n)) = Some c /\ 0 <= g_id n /\ g_pix n = c).
  { intros n Hn Jn. assert (X : In (g_id n, g_pix n) (map (fun n => (g_id n, g_pix n)) plain)).
    { eapply Permutation_in; [exact Pm|]. apply in_map_iff. exists n. split; [reflexivity|]. apply filter_In. rewrite Jn. auto. }
    apply in_map_iff in X. destruct X as (m & Em & Hm). injection Em as Em1 Em2.
    destruct (node_at plain (pps_of out) 0 Ep Epx m Hm) as (j & Hj & Ej). exists (g_pix m). rewrite <- Em1, Ej, Z.add_0_l, Nat2Z.id. split; [exact Hj|]. split; [lia|auto]. }
  split; [|split; [|split; [|split]]].
  - rewrite !map_map. apply map_ext. intros n. cbn [sf_id sf_dstr]. destruct (Mk n) as (-> & -> & _). reflexivity.
  - intros n Hn. apply in_map_iff in Hn. destruct Hn as (m & <- & Hm). destruct (Mk m) as (A1 & A2 & A3 & A4).
    split; [rewrite A4; unfold make_node; destruct (dget Z.eqb index (g_id m)); apply centre_ok|].
    rewrite A3, A1, A4. unfold make_node. unfold index. rewrite (index_get pps Ei). destruct (g_junction m) eqn:J.
    + assert (Z.of_nat (length pps) <= g_id m).
      { destruct (Z.eq_dec (Z.of_nat (length pps)) 0); [destruct pps; [destruct (pps_of out); [congruence|discriminate]|cbn in *; lia]|].
        destruct PP as [_ PP]. destruct (nth_error (pps_of out) (length pps - 1)) as [c|] eqn:Ek; [|apply nth_error_None in Ek; lia].
        destruct (PP _ _ Ek) as [[[I La] _] _]. specialize (JB m c Hm J I). lia. }
      destruct (Z.leb_spec 0 (g_id m)), (Z.ltb_spec (g_id m) (Z.of_nat (length pps))); try lia; cbn; auto.
    + destruct (PourIn m Hm J) as (c & Hc' & P0 & Epix). rewrite <- Ec in Hc'. rewrite nth_error_map in Hc'.
      destruct (nth_error pps (Z.to_nat (g_id m))) as [p|] eqn:En'; [|discriminate]. injection Hc' as Hc'.
      assert (L : (Z.to_nat (g_id m) < length pps)%nat) by (apply nth_error_Some; congruence).
      destruct (Z.leb_spec 0 (g_id m)), (Z.ltb_spec (g_id m) (Z.of_nat (length pps))); try lia. cbn [andb].
      exists p. split; [eapply nth_error_In; eauto|]. split; [|split; [congruence|auto]].
      assert (Y : nth_error (map pp_id pps) (Z.to_nat (g_id m)) = Some (pp_id p)) by (rewrite nth_error_map, En'; auto).
      rewrite Ei, nth_error_zseq in Y by lia. injection Y as <-. lia.
  - intros s Hs. apply in_map_iff in Hs. destruct Hs as (n & <- & Hn). cbn [sf_id sf_dstr sf_coords].
    exists (make_node QOps (gt_Q t) index n), (g_geom n). destruct (Mk n) as (A1 & A2 & A3 & A4). destruct (DR n Hn) as [DN LN].
    split; [apply in_map; exact Hn|]. split; [exact A1|]. split; [exact A2|]. split; [rewrite A4; exact DN|].
    split; [clear; induction (g_geom n) as [|c l IH]; cbn [map]; constructor; [apply centre_ok|exact IH]|].
    destruct (g_dstr n) as [d|]; [|exact LN]. destruct LN as (m & Hm & Em & Lm). exists (make_node QOps (gt_Q t) index m).
    destruct (Mk m) as (B1 & _ & B3 & B4). split; [apply in_map; exact Hm|]. split; [congruence|]. rewrite B3, B4. exact Lm.
  - destruct BG as (n & Hn & In0 & _). eexists. split; [apply in_map_iff; exists n; split; [reflexivity|exact Hn]|exact In0].
  - intros s Hs. apply in_map_iff in Hs. destruct Hs as (n & <- & Hn). cbn [sf_id sf_coords]. rewrite map_length, (ONE n Hn). split.
    + intros [J O]. destruct (PourIn n Hn J) as (c & Hc' & P0 & Epix). destruct PP as [_ PP]. destruct (PP _ _ Hc') as [[[_ La] _] _].
      rewrite <- Epix in La. rewrite Ed in La; [lia|]. destruct Sl as [<- <-]. apply off_edge. exact O.
    + intros Z0. destruct BG as (m & Hm & Im & Jm & Lm). assert (m = n) as <- by (eapply NoDup_ids_inj; eauto; congruence). apply (ONE m Hm). exact Lm.
Qed.
End Terrain.

Section Lines.
Variable cc : raster bool -> raster Z * Z.
Hypothesis Hcc : labels_components cc.
Variables (sp : bool) (fuel fuel' : nat) (t1 t5 : b64) (dem : raster b64) (dout : dem_out) (t : geotransform b64)
  (f : @unit_stats b64 -> bool) (accum : option (raster b64)) (out : bluespot_out).
Hypothesis SO : size_ok sp dem.
Hypothesis H32 : dem32 dem.
Hypothesis HF : dem_finite dem.
Hypothesis Big : nrows dem * ncols dem <= 2 ^ 53.
Hypothesis HD : dem_process sp fuel t1 t5 dem = Ok dout.
Hypothesis HA : accum = None \/ accum = Some (accum64 (do_accum dout)).
Hypothesis HB : bluespot_process sp cc fuel' t (do_depths dout) (do_flowdir dout) (Some f) accum (Some dem) = Ok out.
Variables (pps : list (@pourpoint Q)) (k : nat) (nodes : list (@node_feature Q)) (sts : list (@stream_feature Q)).
Hypothesis HP : exact_pourpoints t (do_depths dout) out = Ok pps.
Hypothesis K1 : (length (rcells (do_flowdir dout)) <= k)%nat.
Hypothesis K2 : (length pps <= k)%nat.
Hypothesis HS : stream_process QOps k (gt_Q t) (do_flowdir dout) (bo_labeled out) pps true = Ok (nodes, sts).

Lemma lines_facts : (exists s, In s sts /\ sf_id s = 0) /\ (forall s, In s sts -> length (sf_coords s) = 1%nat <-> sf_id s = 0) /\
  forall s, In s sts -> sf_coords s <> [].
Proof.
  destruct (streams_drawn cc Hcc sp fuel fuel' t1 t5 dem dout t f accum out SO H32 HF Big HD HA HB) as (pps' & E & R).
  rewrite HP in E. injection E as <-. destruct (R k K1 K2) as (nodes' & sts' & E & _ & _ & D & B & O). rewrite HS in E. injection E as <- <-.
  split; [exact B|]. split; [exact O|]. intros s Hs. destruct (D s Hs) as (n & path & _ & _ & _ & (H & _) & F & _).
  intros X. rewrite X in F. inversion F. subst. discriminate.
Qed.

Theorem other_lines : forall s, In s sts -> sf_id s <> 0 -> (2 <= length (sf_coords s))%nat.
Proof.
  intros s Hs N. destruct lines_facts as (_ & O & NE). specialize (O s Hs). specialize (NE s Hs).
  destruct (sf_coords s) as [|a [|b l]]; [congruence| |cbn; lia]. destruct N. apply O. reflexivity.
Qed.

Theorem background_point : exists s, In s sts /\ sf_id s = 0 /\ length (sf_coords s) = 1%nat.
Proof. destruct lines_facts as ((s & Hs & E) & O & _). exists s. split; [exact Hs|]. split; [exact E|apply O; assumption]. Qed.
End Lines.

(** ** Example: two bluespots whose streams join *)
Definition stream_dem : raster b64 := zrows [[9;9;9;9;9]; [9;3;9;3;9]; [9;5;9;5;9]; [9;9;4;9;9]; [9;9;2;9;9]].

Definition stream_run : res (dem_out * bluespot_out * list (@pourpoint Q) * (list (@node_feature Q) * list (@stream_feature Q))) :=
  dout <- dem_process false 30 (gt1 ex_gt) (gt5 ex_gt) stream_dem ;;
  out <- bluespot_process false cc_memo 30 ex_gt (do_depths dout) (do_flowdir dout) (Some all_pass) None (Some stream_dem) ;;
  pps <- exact_pourpoints ex_gt (do_depths dout) out ;;
  r <- stream_process QOps 30 (gt_Q ex_gt) (do_flowdir dout) (bo_labeled out) pps true ;;
  Ok (dout, out, pps, r).

Definition stream_check (r : dem_out * bluespot_out * list (@pourpoint Q) * (list (@node_feature Q) * list (@stream_feature Q))) : bool :=
  let '(dout, out, pps, (nodes, sts)) := r in
  (length (rcells (do_flowdir dout)) <=? 30)%nat && (length pps <=? 30)%nat &&
  existsb (fun n => nf_junction n && (nf_id n =? 3)) nodes &&
  existsb (fun s => (length (sf_coords s) =? 3)%nat && match sf_dstr s with Some d => d =? 3 | None => false end) sts.

Lemma stream_run_ok : exists dout out pps nodes sts,
  dem_process false 30 (gt1 ex_gt) (gt5 ex_gt) stream_dem = Ok dout /\
  bluespot_process false cc_memo 30 ex_gt (do_depths dout) (do_flowdir dout) (Some all_pass) None (Some stream_dem) = Ok out /\
  exact_pourpoints ex_gt (do_depths dout) out = Ok pps /\
  (length (rcells (do_flowdir dout)) <= 30)%nat /\ (length pps <= 30)%nat /\
  stream_process QOps 30 (gt_Q ex_gt) (do_flowdir dout) (bo_labeled out) pps true = Ok (nodes, sts) /\
  (exists n, In n nodes /\ nf_junction n = true /\ nf_id n = 3) /\
  (exists s, In s sts /\ length (sf_coords s) = 3%nat /\ sf_dstr s = Some 3).
Proof.
  assert (C : on_ok stream_check stream_run = true) by (vm_compute; reflexivity).
  apply on_ok_ex in C. destruct C as ((((a & b) & c) & (d & e)) & E & C). unfold stream_run in E.
  apply bind_ok in E. destruct E as (dout & E1 & E). apply bind_ok in E. destruct E as (out & E2 & E).
  apply bind_ok in E. destruct E as (pps & E3 & E). apply bind_ok in E. destruct E as ((ns & sts) & E4 & E).
  injection E as <- <- <- <- <-. unfold stream_check in C.
  apply andb_prop in C. destruct C as [C C4]. apply andb_prop in C. destruct C as [C C3]. apply andb_prop in C. destruct C as [C1 C2].
  apply Nat.leb_le in C1, C2. apply existsb_exists in C3, C4. destruct C3 as (n & Hn & C3). destruct C4 as (s & Hs & C4).
  apply andb_prop in C3, C4. destruct C3 as [J I]. destruct C4 as [L D]. apply Z.eqb_eq in I. apply Nat.eqb_eq in L.
  exists dout, out, pps, ns, sts. do 6 (split; [assumption|]). split; [eauto|]. exists s. split; [exact Hs|]. split; [exact L|].
  destruct (sf_dstr s); [|discriminate]. apply Z.eqb_eq in D. congruence.
Qed.

Lemma stream_dem_ok : dem32 stream_dem /\ dem_finite stream_dem.
Proof. apply dem_ok. vm_compute. reflexivity. Qed.
