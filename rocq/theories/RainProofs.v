(** * Proofs about nodes, rain volumes and the whole chain *)

From Coq Require Import Permutation QArith Qabs Lqa.
From Flocq Require Import IEEE754.BinarySingleNaN.
From Verif Require Import Base BaseProofs Num Float64 Float64Proofs FillModel FillSpec FillProofs Dict DictProofs FlowModel FlowSpec FlowProofs AccumProofs
  LabelModel LabelSpec LabelProofs LabelFloat LabelThms CompSpec CompProofs VectorModel BluespotModel BluespotSpec BluespotProofs DemModel DemProofs
  LevelProofs NetModel NetSpec UntangleProofs UntangleFacts NetProofs NetThms NetworkModel NetworkSpec NetworkThms RainModel PipelineModel.
Local Open Scope Z_scope.
Local Arguments Qplus : simpl never.
Local Arguments Qmult : simpl never.
Local Arguments Qeq : simpl never.
Local Arguments Qdiv : simpl never.

(** ** The network, with or without junctions *)
Section Net.
Variables (f lab : raster Z) (pps : list cell).
Hypothesis Sh : same_shape f lab.
Hypothesis Dr : fully_draining f.
Hypothesis Ne : pps <> [].
Hypothesis PP : pourpoints_ok f lab pps.

Definition sound_nodes (ns : list gnode) : Prop :=
  NoDup (map g_id ns) /\
  Permutation (map g_id (filter (fun n => negb (g_junction n)) ns)) (zseq 0 (length pps)) /\
  (forall n, In n ns -> g_junction n = true -> Z.of_nat (length pps) <= g_id n) /\
  forall T (zero : T) water cap, acyclic_closed (as_network zero water cap ns).

Lemma filter_all : forall {A} (p : A -> bool) l, (forall x, In x l -> p x = true) -> filter p l = l.
Proof.
  induction l as [|x l IH]; intros H; cbn [filter]; auto. rewrite (H x (or_introl eq_refl)). f_equal. apply IH.
  intros; apply H; right; auto.
Qed.

Lemma network_sound : forall plain (streams : bool) fuel,
  (length (rcells f) <= fuel)%nat -> (length pps <= fuel)%nat ->
  pourpoint_network fuel f lab pps (Some 0) = Ok plain ->
  (forall T (zero : T) water cap, acyclic_closed (as_network zero water cap plain)) ->
  exists ns, (if streams then geometric_pourpoint_network else pourpoint_network) fuel f lab pps (Some 0) = Ok ns /\
    sound_nodes ns.
Proof.
  intros plain streams fuel F1 F2 EP AC. destruct (network_shape f lab Sh Dr pps Ne PP) as (N & A & B & C & D).
  destruct (D fuel F1 F2) as (out & b & E1 & E2 & U). rewrite EP in E1. injection E1 as ->.
  assert (Jf : forall n, In n N -> g_junction n = false) by (intros n Hn; destruct (C n Hn) as [[J _] _]; auto).
  destruct streams.
  - exists out. split; auto. destruct (unt_ids _ _ _ _ U) as [Lb Pi].
    assert (NE : forall n, In n N -> g_geom n <> []).
    { intros n Hn X. destruct (C n Hn) as [(_ & _ & W) _]. apply walk_hd in W. destruct W as (_ & t & E). congruence. }
    assert (Cl : forall n d, In n N -> g_dstr n = Some d -> In d (map g_id N)).
    { intros n d Hn E. rewrite A. apply in_zseq. destruct (node_label f lab pps Sh PP n d (C n Hn) E). lia. }
    split; [|split; [|split]].
    + eapply Permutation_NoDup; [apply Permutation_sym; exact Pi|]. rewrite A.
      pose proof (zseq_app (length pps) (Z.to_nat (b - Z.of_nat (length pps))) 0) as Z0. rewrite Z.add_0_l in Z0.
      rewrite <- Z0. apply zseq_NoDup.
    + rewrite <- A. pose proof (unt_pour _ _ _ _ U) as P. apply (Permutation_map fst) in P. rewrite !map_map in P.
      unfold key in P. cbn [fst] in P. change (fun n => negb (g_junction n)) with pour. etransitivity; [exact P|].
      rewrite (filter_all pour N); [reflexivity|]. intros n Hn. unfold pour. rewrite (Jf n Hn). auto.
    + intros n Hn Jn. destruct (unt_junction _ _ _ _ U Jf n Hn Jn). auto.
    + intros T zero water cap m Hm. apply net_in_inv in Hm. destruct Hm as (o & Ho & -> & _).
      assert (NO := unt_nonempty _ _ _ _ U NE).
      destruct (unt_reach_out _ _ _ _ U out (incl_refl _) NO o Ho) as (p & n & Hn & R).
      destruct (reach_root zero water cap _ _ _ _ R) as [R1 R2].
      destruct (g_dstr n) as [k|] eqn:Ek; [|apply R1; auto].
      pose proof (Cl n k Hn Ek) as Hk. apply in_map_iff in Hk. destruct Hk as (m2 & <- & Hm2).
      destruct (AC T zero water cap (mkNode (g_id m2) (g_dstr m2) (if g_junction m2 then zero else water (g_id m2))
        (if g_junction m2 then zero else cap (g_id m2)))) as (r & R0).
      { rewrite strip_net. apply net_in. auto. }
      cbn [n_id] in R0. rewrite strip_net in R0.
      destruct (rooted_out zero water cap N out _ b U NE (g_id m2) r R0) as (r' & R'). eapply R2; eauto.
  - exists (map strip N). split; auto. split; [|split; [|split]]; auto.
    + rewrite map_map. change (NoDup (map g_id N)). rewrite A. apply zseq_NoDup.
    + rewrite filter_all, map_map; [change (Permutation (map g_id N) (zseq 0 (length pps))); rewrite A; reflexivity|].
      intros n Hn. apply in_map_iff in Hn. destruct Hn as (m & <- & Hm). cbn [strip g_junction]. try rewrite (Jf m Hm). auto.
    + intros n Hn. apply in_map_iff in Hn. destruct Hn as (m & <- & Hm). unfold strip. cbn [g_junction].
      try rewrite (Jf m Hm). discriminate.
Qed.
End Net.

(** Roots depend on ids and downstream references only. *)
Lemma root_transport : forall {T U} (ns : list (@node T)) (ms : list (@node U)),
  map (fun n => (n_id n, n_dstr n)) ns = map (fun n => (n_id n, n_dstr n)) ms ->
  forall a r, root_of ns a r -> root_of ms a r.
Proof.
  intros T U ns ms E a r H.
  assert (K : forall n, In n ns -> exists m, In m ms /\ n_id m = n_id n /\ n_dstr m = n_dstr n).
  { intros n Hn. assert (X : In (n_id n, n_dstr n) (map (fun n => (n_id n, n_dstr n)) ms)).
    { rewrite <- E. apply (in_map (fun n => (n_id n, n_dstr n))). auto. }
    apply in_map_iff in X. destruct X as (m & Em & Hm). exists m. split; auto. split; congruence. }
  induction H as [n Hn Ed|n d r Hn Ed H IH]; destruct (K n Hn) as (m & Hm & Ei & Ex); rewrite <- Ei.
  - apply ro_root; congruence.
  - apply (ro_step ms m d r); congruence.
Qed.

Lemma acyclic_transport : forall {T U} (ns : list (@node T)) (ms : list (@node U)),
  map (fun n => (n_id n, n_dstr n)) ns = map (fun n => (n_id n, n_dstr n)) ms ->
  acyclic_closed ns -> acyclic_closed ms.
Proof.
  intros T U ns ms E AC m Hm.
  assert (X : In (n_id m, n_dstr m) (map (fun n => (n_id n, n_dstr n)) ns)).
  { rewrite E. apply (in_map (fun n => (n_id n, n_dstr n))). auto. }
  apply in_map_iff in X. destruct X as (n & En & Hn). destruct (AC n Hn) as (r & R). exists r.
  apply (root_transport ns ms E) in R. congruence.
Qed.

(** ** Exact attributes of the pour points *)
Section Assemble.
Context {T : Type}.
Variable ops : NumOps T.

Lemma assemble_q : forall t (pix : list (@index_record T)) (bst : list (@stat T)) wst ix,
  length bst = length pix -> length wst = length pix ->
  let l := assemble_from ops ix t pix bst wst in
  map pp_id l = zseq ix (length pix) /\ map (fun p => (pp_row p, pp_col p)) l = map (fun r => (i_row r, i_col r)) pix /\
  map pp_vol l = map (fun s => nmul ops (s_sum s) (cell_area ops t)) bst /\
  map pp_wshed l = map (fun w => nmul ops (nofZ ops w) (cell_area ops t)) wst.
Proof.
  induction pix as [|p pix IH]; intros [|s bst] [|w wst] ix L1 L2; cbn [length] in *; try lia.
  - cbn. auto.
  - cbn [assemble_from map zseq]. cbn [pp_id pp_row pp_col pp_vol pp_wshed].
    destruct (IH bst wst (ix + 1)) as (A & B & C & D); try lia. cbn in A, B, C, D. rewrite A, B, C, D. auto.
Qed.
End Assemble.

Lemma pp_index_get : forall {T} (l : list (@pourpoint T)) d, NoDup (map pp_id l) ->
  forall k, dget Z.eqb (fold_left (fun d p => dset Z.eqb d (pp_id p) p) l d) k =
    match find (fun p => pp_id p =? k) l with Some p => Some p | None => dget Z.eqb d k end.
Proof.
  induction l as [|p l IH]; intros d ND k; cbn [fold_left find]; auto.
  inversion ND; subst. rewrite IH by auto. destruct (Z.eqb_spec (pp_id p) k) as [<-|N].
  - destruct (find (fun q => pp_id q =? pp_id p) l) as [q|] eqn:F.
    + apply find_some in F. destruct F as [F1 F2]. apply Z.eqb_eq in F2. exfalso. apply H1. rewrite <- F2. apply in_map. auto.
    + apply dget_dset_same. apply Z.eqb_spec.
  - destruct (find (fun q => pp_id q =? k) l); auto. apply dget_dset_other; auto. apply Z.eqb_spec.
Qed.

Lemma find_by_id : forall {T} (l : list (@pourpoint T)) a, map pp_id l = zseq a (length l) ->
  forall k, find (fun p => pp_id p =? k) l = if (a <=? k) && (k <? a + Z.of_nat (length l)) then nth_error l (Z.to_nat (k - a)) else None.
Proof.
  induction l as [|p l IH]; intros a E k; cbn [find length].
  - destruct (Z.leb_spec a k), (Z.ltb_spec k (a + Z.of_nat 0)); cbn [andb]; auto. lia.
  - cbn [map length zseq] in E. injection E as E1 E2. rewrite E1. destruct (Z.eqb_spec a k) as [<-|N].
    + rewrite Z.leb_refl. destruct (Z.ltb_spec a (a + Z.of_nat (S (length l)))); [|lia]. cbn [andb].
      rewrite Z.sub_diag. reflexivity.
    + rewrite (IH (a + 1) E2 k).
      destruct (Z.leb_spec (a + 1) k), (Z.leb_spec a k), (Z.ltb_spec k (a + 1 + Z.of_nat (length l))),
        (Z.ltb_spec k (a + Z.of_nat (S (length l)))); cbn [andb]; auto; try lia.
      replace (Z.to_nat (k - a)) with (S (Z.to_nat (k - (a + 1)))) by lia. reflexivity.
Qed.

Lemma nabs_Q : forall x, (nabs QOps x == Qabs x)%Q.
Proof.
  intros x. unfold nabs. cbn [nltb nsub nofZ QOps]. unfold Qltb. destruct (Qle_bool (inject_Z 0) x) eqn:E; cbn [negb].
  - apply Qle_bool_iff in E. rewrite Qabs_pos; [reflexivity|exact E].
  - assert (~ (0 <= x)%Q) by (intros X; apply Qle_bool_iff in X; unfold inject_Z in E; congruence).
    rewrite Qabs_neg by lra. change (inject_Z 0) with 0%Q. ring.
Qed.

Lemma cell_area_Q : forall t, (cell_area QOps t == Qabs (gt1 t) * Qabs (gt5 t))%Q.
Proof. intros t. unfold cell_area. cbn [nmul QOps]. rewrite !nabs_Q. reflexivity. Qed.

Lemma Qsum_scale : forall {A} (g : A -> Q) c l, (Qsum (map (fun x => g x * c) l) == Qsum (map g l) * c)%Q.
Proof. induction l; cbn [map Qsum]; [ring|rewrite IHl; ring]. Qed.

Lemma Qsum_Z : forall l, (Qsum (map inject_Z l) == inject_Z (fold_right Z.add 0%Z l))%Q.
Proof. induction l; cbn [map Qsum fold_right]; [reflexivity|]. rewrite IHl, inject_Z_plus. reflexivity. Qed.

Lemma b64_Q_nonneg : forall x, le64 f64_zero x -> (0 <= b64_Q x)%Q.
Proof.
  intros x H. destruct x as [s|s| |s m e B]; cbn [b64_Q]; try (cbn; lra).
  destruct s; [discriminate H|]. destruct (Z.leb_spec 0 e).
  - change 0%Q with (inject_Z 0). rewrite <- Zle_Qle. apply Z.mul_nonneg_nonneg; [lia|apply Z.pow_nonneg; lia].
  - unfold Qle. cbn [Qnum Qden]. lia.
Qed.

Lemma fold_nonneg : forall l a, (0 <= a)%Q -> (forall x, In x l -> (0 <= x)%Q) -> (0 <= fold_left Qplus l a)%Q.
Proof. induction l as [|x l IH]; intros a Ha H; cbn [fold_left]; auto. apply IH; [|intros; apply H; right; auto].
  assert (0 <= x)%Q by (apply H; left; auto). lra. Qed.

(** ** The tool chain *)
Section Chain.
Variable cc : raster bool -> raster Z * Z.
Hypothesis Hcc : labels_components cc.
Variable sp : bool.
Variables (fuel fuel' : nat) (t1 t5 : b64) (dem : raster b64) (dout : dem_out) (t : geotransform b64)
  (f : @unit_stats b64 -> bool) (accum : option (raster b64)) (out : bluespot_out).
Hypothesis SO : size_ok sp dem.
Hypothesis H32 : dem32 dem.
Hypothesis HF : dem_finite dem.
Hypothesis Big : nrows dem * ncols dem <= 2 ^ 53.
Hypothesis HD : dem_process sp fuel t1 t5 dem = Ok dout.
Hypothesis HA : accum = None \/ accum = Some (accum64 (do_accum dout)).
Hypothesis HB : bluespot_process sp cc fuel' t (do_depths dout) (do_flowdir dout) (Some f) accum (Some dem) = Ok out.

Let area : Q := (Qabs (gt1 (gt_Q t)) * Qabs (gt5 (gt_Q t)))%Q.

Lemma exact_pps : exists pps, exact_pourpoints t (do_depths dout) out = Ok pps /\
  map (fun p => (pp_row p, pp_col p)) pps = pps_of out /\
  map pp_id pps = zseq 0 (length pps) /\
  (Qsum (map pp_wshed pps) == inject_Z (nrows dem * ncols dem) * area)%Q /\
  forall p, In p pps -> (0 <= pp_vol p)%Q /\ exists ws, lists_cells (has_label (bo_watersheds out) (pp_id p)) ws /\
    (pp_wshed p == inject_Z (Z.of_nat (length ws)) * area)%Q.
Proof.
  destruct (depths_facts sp fuel t1 t5 dem dout SO H32 HF HD) as (Sd & Dp & De).
  destruct (dem_flow sp fuel t1 t5 dem dout SO H32 HF HD) as (Sf & D & _).
  assert (Hr : 1 <= nrows (do_depths dout)) by (destruct Sd as [<- _]; destruct sp; cbn in SO; lia).
  assert (Hc : 1 <= ncols (do_depths dout)) by (destruct Sd as [_ <-]; destruct sp; cbn in SO; lia).
  destruct (process_filter cc Hcc sp _ _ _ _ _ _ _ _ Hr Hc HB) as (Sh & Nm & _).
  destruct (run_inv cc Hcc sp _ _ _ _ _ _ _ _ Hr Hc HB) as (st & new & bst & wst & pix & _ & _ & _ & _ & E3 & E4 & E5 & E6 & E7).
  set (lab := bo_labeled out) in *. set (n := bo_nlabels out) in *. set (w := bo_watersheds out) in *.
  assert (Hr2 : 1 <= nrows lab) by (destruct Sh; lia). assert (Hc2 : 1 <= ncols lab) by (destruct Sh; lia).
  assert (Sl : same_shape (do_flowdir dout) lab) by (destruct Sh, Sf, Sd; split; congruence).
  assert (Hr3 : 1 <= nrows (do_flowdir dout)) by (destruct Sl; lia). assert (Hc3 : 1 <= ncols (do_flowdir dout)) by (destruct Sl; lia).
  rewrite watersheds_either in E4 by auto.
  destruct (watersheds_numbered fuel' (do_flowdir dout) lab w n D Sl Hr3 Hc3 Nm E4) as [Sw Nw].
  assert (Sdf : same_shape (do_depths dout) (do_flowdir dout)) by (destruct Sd, Sf; split; congruence).
  destruct (process_pourpoints cc Hcc sp fuel' t _ _ _ _ _ _ Hr Hc Sdf D HB) as (pix' & _ & _ & Lpp & _).
  assert (NL : nlabels_is lab None n). { right. split; auto. apply numbered_largest; auto. }
  assert (Sq : same_shape (raster_Q (do_depths dout)) lab) by (destruct Sh; split; auto).
  destruct (label_stats_sums QOps 0%Q 0%Q (raster_Q (do_depths dout)) lab None n Sq NL (proj1 Nm) Hr2 Hc2) as (sq & B1 & B2 & B3).
  assert (Lw : largest_label w n) by (apply numbered_largest; auto; destruct Sw; lia).
  destruct (label_count_spec w n (proj1 Nw) Lw) as (wst' & W1 & W2 & W3).
  assert (wst' = wst) by congruence. subst wst'.
  set (qpix := map (fun p => mkIdx 0%Q (pp_row p) (pp_col p)) (bo_pourpoints out)).
  assert (Lq : length qpix = length (bo_pourpoints out)) by (unfold qpix; apply map_length).
  destruct (assemble_q QOps (gt_Q t) qpix sq wst 0) as (A1 & A2 & A3 & A4); [fold n in Lpp; lia|fold n in Lpp; lia|].
  unfold exact_pourpoints. fold lab w. rewrite B1. cbn [bind]. rewrite W1. cbn [bind]. fold qpix. eexists. split; [reflexivity|].
  unfold assemble_pourpoints. set (pps := assemble_from QOps 0 (gt_Q t) qpix sq wst) in *.
  assert (Lp : length pps = length qpix) by (rewrite <- (map_length pp_id), A1, zseq_length; auto).
  split; [rewrite A2; unfold qpix, pps_of; rewrite map_map; reflexivity|]. split; [rewrite Lp; exact A1|].
  split.
  - rewrite A4. cbn [nmul nofZ QOps]. rewrite Qsum_scale, Qsum_Z, cell_area_Q. fold area.
    rewrite (label_count_total w n wst (proj1 Nw) Lw W1).
    replace (Z.of_nat (length (rcells w))) with (nrows dem * ncols dem); [reflexivity|].
    assert (Q1 : nrows w = nrows dem) by (destruct Sw, Sl, Sh, Sd; congruence).
    assert (Q2 : ncols w = ncols dem) by (destruct Sw, Sl, Sh, Sd; congruence).
    unfold rcells. rewrite length_cells_of, Q1, Q2, Nat2Z.inj_mul, !Z2Nat.id; auto; destruct Sd; lia.
  - intros p Hp. apply In_nth_error in Hp. destruct Hp as (k & Hk).
    assert (Kl : (k < length pps)%nat) by (apply nth_error_Some; congruence).
    assert (Ei : pp_id p = Z.of_nat k).
    { assert (X : nth_error (map pp_id pps) k = Some (pp_id p)) by (rewrite nth_error_map, Hk; auto).
      rewrite A1 in X. rewrite (nth_error_nth' _ 0) in X by (rewrite zseq_length; lia). rewrite zseq_nth in X by lia.
      injection X as <-. lia. }
    assert (Kr : 0 <= Z.of_nat k <= n) by (fold n in Lpp; lia). split.
    + destruct (B3 (Z.of_nat k) Kr) as (s & cs & Es & Ls & _ & Sm). rewrite Nat2Z.id in Es.
      assert (X : nth_error (map pp_vol pps) k = Some (pp_vol p)) by (rewrite nth_error_map, Hk; auto).
      rewrite A3, nth_error_map, Es in X. cbn [option_map] in X. injection X as X. rewrite <- X.
      change (0 <= s_sum s * cell_area QOps (gt_Q t))%Q. rewrite cell_area_Q. fold area.
      apply Qmult_le_0_compat; [|unfold area; apply Qmult_le_0_compat; apply Qabs_nonneg].
      rewrite Sm. apply fold_nonneg; [apply Qle_refl|]. intros x Hx. apply in_map_iff in Hx. destruct Hx as (c & <- & Hc').
      apply Ls in Hc'. destruct Hc' as [Ic _]. unfold raster_Q, at_. cbn [rget]. apply b64_Q_nonneg.
      apply (Dp c). destruct Sd as [-> ->]. destruct Sh as [-> ->]. exact Ic.
    + destruct (W3 (Z.of_nat k) Kr) as (ws & Ls & Es). rewrite Nat2Z.id in Es. exists ws. rewrite Ei. split; auto.
      assert (X : nth_error (map pp_wshed pps) k = Some (pp_wshed p)) by (rewrite nth_error_map, Hk; auto).
      rewrite A4, nth_error_map, Es in X. cbn [option_map] in X. injection X as X. rewrite <- X.
      change (inject_Z (Z.of_nat (length ws)) * cell_area QOps (gt_Q t) == inject_Z (Z.of_nat (length ws)) * area)%Q.
      rewrite cell_area_Q. reflexivity.
Qed.

Theorem rain_shares : exists pps, exact_pourpoints t (do_depths dout) out = Ok pps /\
  (Z.of_nat (length pps) <= nrows dem * ncols dem + 1) /\
  forall (streams : bool) k, (length (rcells (do_flowdir dout)) <= k)%nat -> (length pps <= k)%nat ->
  exists nodes sts, stream_process QOps k (gt_Q t) (do_flowdir dout) (bo_labeled out) pps streams = Ok (nodes, sts) /\
  NoDup (map nf_id nodes) /\
  Permutation (map nf_id (filter (fun n => negb (nf_junction n)) nodes)) (zseq 0 (length pps)) /\
  (forall n, In n nodes -> 0 <= nf_vol n)%Q /\
  forall mm, let vols := simple_volumes QOps mm nodes in
  (Qsum (map snd vols) == inject_Z (nrows dem * ncols dem) * area * (mm / 1000))%Q /\
  (forall n v, In (n, v) vols ->
     if nf_junction n then v == 0 else
     exists ws, lists_cells (has_label (bo_watersheds out) (nf_id n)) ws /\
       v == inject_Z (Z.of_nat (length ws)) * area * (mm / 1000))%Q /\
  acyclic_closed (map solver_node vols).
Proof.
  destruct exact_pps as (pps & E & Ec & Ei & Sm & Pp). exists pps. split; auto.
  destruct (chain_points cc Hcc sp fuel fuel' t1 t5 dem dout t f accum out SO H32 HF Big HD HA HB)
    as (Sl & D & Hr & Hc & _ & PP & Ne & Ed & _).
  destruct (chain_network cc Hcc sp fuel fuel' t1 t5 dem dout t f accum out SO H32 HF Big HD HA HB)
    as (plain & EP & (_ & _ & _ & AC) & _).
  assert (Lp : length (pps_of out) = length pps) by (rewrite <- Ec, map_length; auto).
  split.
  { destruct (dem_flow sp fuel t1 t5 dem dout SO H32 HF HD) as (Sf & _ & _).
    assert (LI : incl (zseq 0 (length (pps_of out))) (map (at_ (bo_labeled out)) (rcells (bo_labeled out)))).
    { intros l Hl. apply in_zseq in Hl. destruct PP as [_ PP].
      destruct (nth_error (pps_of out) (Z.to_nat l)) as [c|] eqn:Ek; [|apply nth_error_None in Ek; lia].
      destruct (PP _ _ Ek) as [[[I La] _] _]. apply in_map_iff. exists c. split; [lia|]. apply in_cells_of. exact I. }
    apply NoDup_incl_length in LI; [|apply zseq_NoDup]. rewrite zseq_length, map_length in LI.
    assert (Q1 : nrows (bo_labeled out) = nrows dem) by (destruct Sl, Sf; congruence).
    assert (Q2 : ncols (bo_labeled out) = ncols dem) by (destruct Sl, Sf; congruence).
    assert (1 <= nrows dem) by (destruct sp; cbn in SO; lia). assert (1 <= ncols dem) by (destruct sp; cbn in SO; lia).
    unfold rcells in LI. rewrite length_cells_of, Q1, Q2 in LI.
    assert (Z.of_nat (Z.to_nat (nrows dem) * Z.to_nat (ncols dem)) = nrows dem * ncols dem) by (rewrite Nat2Z.inj_mul, !Z2Nat.id; auto; lia).
    lia. }
  intros streams k K1 K2.
  destruct (network_sound (do_flowdir dout) (bo_labeled out) (pps_of out) Sl D Ne PP plain streams k K1 ltac:(lia) (EP k K1) AC)
    as (ns & En & ND & Pm & Jn & ACn).
  unfold stream_process. rewrite Ec, En. cbn [bind].
  set (index := fold_left (fun d p => dset Z.eqb d (pp_id p) p) pps []).
  assert (NDp : NoDup (map pp_id pps)) by (rewrite Ei; apply zseq_NoDup).
  assert (Gx : forall j, dget Z.eqb index j = if (0 <=? j) && (j <? Z.of_nat (length pps)) then nth_error pps (Z.to_nat j) else None).
  { intros j. unfold index. rewrite pp_index_get by auto. rewrite (find_by_id pps 0 Ei j). rewrite Z.add_0_l, Z.sub_0_r.
    cbn [dget]. destruct ((0 <=? j) && (j <? Z.of_nat (length pps))); auto. destruct (nth_error pps (Z.to_nat j)); auto. }
  assert (Mk : forall n, nf_id (make_node QOps (gt_Q t) index n) = g_id n /\ nf_dstr (make_node QOps (gt_Q t) index n) = g_dstr n /\
     nf_junction (make_node QOps (gt_Q t) index n) = g_junction n).
  { intros n. unfold make_node. destruct (dget Z.eqb index (g_id n)); auto. }
  assert (Mi : map nf_id (map (make_node QOps (gt_Q t) index) ns) = map g_id ns).
  { rewrite map_map. apply map_ext. apply Mk. }
  (* pour point nodes carry the attributes of their pour point *)
  assert (Mn : forall n, In n ns -> g_junction n = false -> exists p, nth_error pps (Z.to_nat (g_id n)) = Some p /\ pp_id p = g_id n /\
    nf_wshed (make_node QOps (gt_Q t) index n) = pp_wshed p /\ nf_vol (make_node QOps (gt_Q t) index n) = pp_vol p).
  { intros n Hn Jf. assert (X : In (g_id n) (zseq 0 (length (pps_of out)))).
    { eapply Permutation_in; [exact Pm|]. apply in_map. apply filter_In. rewrite Jf. auto. }
    apply in_zseq in X. unfold make_node. rewrite Gx.
    destruct (Z.leb_spec 0 (g_id n)), (Z.ltb_spec (g_id n) (Z.of_nat (length pps))); try lia. cbn [andb].
    destruct (nth_error pps (Z.to_nat (g_id n))) as [p|] eqn:Ep; [|apply nth_error_None in Ep; lia].
    exists p. split; auto. split; [|auto].
    assert (Y : nth_error (map pp_id pps) (Z.to_nat (g_id n)) = Some (pp_id p)) by (rewrite nth_error_map, Ep; auto).
    rewrite Ei in Y. rewrite (nth_error_nth' _ 0) in Y by (rewrite zseq_length; lia). rewrite zseq_nth in Y by lia.
    injection Y as <-. lia. }
  assert (Mj : forall n, In n ns -> g_junction n = true -> nf_wshed (make_node QOps (gt_Q t) index n) = 0%Q /\
    nf_vol (make_node QOps (gt_Q t) index n) = 0%Q).
  { intros n Hn Jt. specialize (Jn n Hn Jt). unfold make_node. rewrite Gx.
    destruct (Z.leb_spec 0 (g_id n)), (Z.ltb_spec (g_id n) (Z.of_nat (length pps))); try lia; cbn [andb]; auto. }
  eexists. eexists. split; [reflexivity|]. split; [rewrite Mi; auto|]. split; [|split].
  - rewrite <- Lp. etransitivity; [|exact Pm]. clear - Mk. induction ns as [|n ns IH]; [reflexivity|].
    cbn [map filter]. destruct (Mk n) as (A & _ & B). rewrite B. destruct (negb (g_junction n)); auto.
    cbn [map]. rewrite A. apply perm_skip. auto.
  - intros n Hn. apply in_map_iff in Hn. destruct Hn as (m & <- & Hm). destruct (g_junction m) eqn:J.
    + rewrite (proj2 (Mj m Hm J)). lra.
    + destruct (Mn m Hm J) as (p & Ep & _ & _ & ->). apply Pp. eapply nth_error_In; eauto.
  - intros mm; cbv zeta; set (vols := simple_volumes QOps mm (map (make_node QOps (gt_Q t) index) ns)).
    assert (Ev : vols = map (fun n => (make_node QOps (gt_Q t) index n,
      (nf_wshed (make_node QOps (gt_Q t) index n) * mm * milli QOps)%Q)) ns).
    { unfold vols, simple_volumes. rewrite map_map. reflexivity. }
    assert (Mi2 : (milli QOps == 1 / 1000)%Q) by reflexivity.
    split; [|split].
    + rewrite Ev, map_map. cbn [snd].
      transitivity (Qsum (map (fun n => pp_wshed (nth (Z.to_nat (g_id n)) pps (mkPP 0 0 0 0 0 0 0 0 (0, 0)))%Q)
         (filter (fun n => negb (g_junction n)) ns)) * (mm / 1000))%Q.
      * clear - Mn Mj Mi2. induction ns as [|n ns IH]; cbn [map Qsum filter]; [ring|].
        rewrite IH by (intros; auto using in_cons).
        destruct (g_junction n) eqn:J; cbn [negb].
        -- rewrite (proj1 (Mj n (or_introl eq_refl) J)). ring.
        -- destruct (Mn n (or_introl eq_refl) J) as (p & Ep & _ & -> & _). cbn [map Qsum].
           rewrite (nth_error_nth _ _ _ Ep), Mi2. field.
      * rewrite <- (map_map g_id (fun j => pp_wshed (nth (Z.to_nat j) pps (mkPP 0 0 0 0 0 0 0 0 (0, 0)))%Q)).
        rewrite (Qsum_perm _ _ (Permutation_map _ Pm)). rewrite Lp.
        assert (X : map (fun j => pp_wshed (nth (Z.to_nat j) pps (mkPP 0 0 0 0 0 0 0 0 (0, 0)))%Q) (zseq 0 (length pps)) = map pp_wshed pps).
        { apply nth_error_ext. intros i. rewrite !nth_error_map. destruct (nth_error pps i) as [p|] eqn:Ep.
          - assert (i < length pps)%nat by (apply nth_error_Some; congruence).
            rewrite (nth_error_nth' _ 0) by (rewrite zseq_length; lia). rewrite zseq_nth by lia. cbn [option_map].
            rewrite Z.add_0_l, Nat2Z.id. rewrite (nth_error_nth _ _ _ Ep). reflexivity.
          - apply nth_error_None in Ep. replace (nth_error (zseq 0 (length pps)) i) with (@None Z); auto.
            symmetry. apply nth_error_None. rewrite zseq_length. auto. }
        rewrite X, Sm. reflexivity.
    + intros n v Hn. rewrite Ev in Hn. apply in_map_iff in Hn. destruct Hn as (m & Em & Hm). injection Em as <- <-.
      destruct (Mk m) as (Q1 & _ & Q3). rewrite Q1, Q3. destruct (g_junction m) eqn:J.
      * rewrite (proj1 (Mj m Hm J)). ring.
      * destruct (Mn m Hm J) as (p & Ep & Eid & -> & _). destruct (Pp p (nth_error_In _ _ Ep)) as (_ & ws & L & W).
        exists ws. rewrite <- Eid. split; auto. rewrite W, Mi2. field.
    + apply (acyclic_transport (as_network 0%Q (fun _ => 0%Q) (fun _ => 0%Q) ns)); [|apply ACn].
      unfold as_network. rewrite Ev, !map_map. apply map_ext. intros n. cbn [n_id n_dstr solver_node fst].
      destruct (Mk n) as (-> & -> & _). reflexivity.
Qed.
End Chain.

(** ** The whole chain *)
Theorem complete_balance : forall cc, labels_components cc ->
  forall sp t dem f (use_accum : bool) mm,
  size_ok sp dem -> dem32 dem -> dem_finite dem -> nrows dem * ncols dem <= 2 ^ 53 ->
  square_cells (gt1 t) (gt5 t) = true ->
  exists k, forall fuel, (fuel >= k)%nat -> exists o, complete sp cc fuel t dem f use_accum mm = Ok o /\
  let rain := (inject_Z (nrows dem * ncols dem) * (Qabs (gt1 (gt_Q t)) * Qabs (gt5 (gt_Q t))) * (mm / 1000))%Q in
  unique_ids (map solver_node (co_nodes o)) /\ acyclic_closed (map solver_node (co_nodes o)) /\
  (Qsum (map snd (co_nodes o)) == rain)%Q /\
  (Qsum (map out_vol (co_final o)) + Qsum (map out_spill (filter (fun p => is_root (fst p)) (co_final o))) == rain)%Q.
Proof.
  intros cc Hcc sp t dem f use_accum mm SO H32 HF Big SQ.
  destruct (chain_total cc Hcc sp use_accum t dem f SO H32 HF SQ) as (k & K).
  exists (Nat.max k (S (Z.to_nat (nrows dem * ncols dem)))). intros fuel Fu.
  destruct (K fuel ltac:(lia)) as (dout & out & ED & EB).
  set (accum := if use_accum then Some (accum64 (do_accum dout)) else None) in *.
  assert (HA : accum = None \/ accum = Some (accum64 (do_accum dout))) by (unfold accum; destruct use_accum; auto).
  destruct (rain_shares cc Hcc sp fuel fuel _ _ dem dout t f accum out SO H32 HF Big ED HA EB) as (pps & Ep & Lp & R).
  destruct (dem_flow sp fuel _ _ dem dout SO H32 HF ED) as ([Q1 Q2] & _ & _).
  destruct (R true fuel) as (nodes & sts & Es & ND & _ & _ & V).
  { assert (1 <= nrows dem) by (destruct sp; cbn in SO; lia). assert (1 <= ncols dem) by (destruct sp; cbn in SO; lia).
    unfold rcells. rewrite length_cells_of.
    assert (E : nrows (do_flowdir dout) = nrows dem) by congruence. assert (E' : ncols (do_flowdir dout) = ncols dem) by congruence.
    rewrite E, E'. assert (Z.of_nat (Z.to_nat (nrows dem) * Z.to_nat (ncols dem)) = nrows dem * ncols dem) by (rewrite Nat2Z.inj_mul, !Z2Nat.id; auto; lia).
    lia. }
  { lia. }
  destruct (V mm) as (Sm & _ & AC).
  assert (UI : unique_ids (map solver_node (simple_volumes QOps mm nodes))).
  { unfold unique_ids, simple_volumes. rewrite !map_map. exact ND. }
  destruct (process_total QOps (map solver_node (simple_volumes QOps mm nodes)) (length (simple_volumes QOps mm nodes))) as (fin & Ef);
    [rewrite map_length; lia|].
  exists (mkCO (simple_volumes QOps mm nodes) sts fin). split.
  { unfold complete. rewrite ED. cbn [bind]. fold accum. rewrite EB. cbn [bind]. rewrite Ep. cbn [bind]. rewrite Es. cbn [bind].
    rewrite Ef. reflexivity. }
  cbn [co_nodes co_final]. split; auto. split; auto. split; auto.
  rewrite <- (process_conserves _ _ _ UI AC Ef). rewrite <- Sm. rewrite map_map. reflexivity.
Qed.
