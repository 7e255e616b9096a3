(** * Theorems about rain given as a raster *)

From Coq Require Import Permutation QArith Qabs Lqa.
From Flocq Require Import IEEE754.BinarySingleNaN.
From Verif Require Import Base BaseProofs Num Float64 FillModel FillSpec FillThms FlowModel FlowSpec FlowProofs AccumProofs
  LabelModel LabelSpec LabelProofs LabelThms CompSpec CompProofs VectorModel BluespotModel BluespotSpec BluespotProofs BluespotThms DemModel DemProofs
  LevelProofs NetModel NetSpec NetThms NetworkModel NetworkSpec NetworkThms RainModel PipelineModel RainProofs RainThms.
Local Open Scope Z_scope.
Local Arguments Qplus : simpl never.
Local Arguments Qmult : simpl never.
Local Arguments Qeq : simpl never.

Lemma Qsum_filter : forall {A} (p : A -> bool) (g : A -> Q) l,
  (Qsum (map g (filter p l)) == Qsum (map (fun a => if p a then g a else 0) l))%Q.
Proof.
  induction l as [|a l IH]; cbn [filter map Qsum]; [reflexivity|]. destruct (p a); cbn [map Qsum]; rewrite IH; ring.
Qed.

Lemma Qsum_swap : forall {A B} (g : A -> B -> Q) la lb,
  (Qsum (map (fun a => Qsum (map (g a) lb)) la) == Qsum (map (fun b => Qsum (map (fun a => g a b) la)) lb))%Q.
Proof.
  induction la as [|a la IH]; intros lb; cbn [map Qsum].
  - induction lb as [|b lb IHb]; cbn [map Qsum]; [reflexivity|]. rewrite <- IHb. ring.
  - rewrite IH. clear IH. induction lb as [|b lb IHb]; cbn [map Qsum]; [ring|]. rewrite <- IHb. ring.
Qed.

Lemma Qsum_ext : forall {A} (g h : A -> Q) l, (forall a, In a l -> (g a == h a)%Q) -> (Qsum (map g l) == Qsum (map h l))%Q.
Proof.
  induction l as [|a l IH]; intros H; cbn [map Qsum]; [reflexivity|].
  rewrite IH by (intros; apply H; right; auto). rewrite (H a (or_introl eq_refl)). reflexivity.
Qed.

(** Exactly one element of a list without duplicates is [x]. *)
Lemma Qsum_pick : forall (w : Q) x l, NoDup l -> In x l -> (Qsum (map (fun y => if x =? y then w else 0) l) == w)%Q.
Proof.
  intros w x. assert (Z0 : forall l, ~ In x l -> (Qsum (map (fun y => if x =? y then w else 0) l) == 0)%Q).
  { induction l as [|y l IH]; intros H; cbn [map Qsum]; [reflexivity|]. rewrite IH by (intros X; apply H; right; auto).
    destruct (Z.eqb_spec x y); [exfalso; apply H; left; auto|ring]. }
  induction l as [|y l IH]; intros ND Hx; [destruct Hx|]. inversion ND as [|? ? N1 N2]; subst. cbn [map Qsum].
  destruct (Z.eqb_spec x y) as [->|Ne].
  - rewrite Z0 by auto. ring.
  - rewrite IH; auto; [ring|]. destruct Hx as [<-|]; auto. contradiction.
Qed.

(** One node per label: all the water on the raster is given to some node. *)
Theorem raster_total : forall t (lab : raster Z) (water : raster Q) u nodes n,
  same_shape lab water -> labels_in lab n -> largest_label lab n -> 1 <= nrows lab -> 1 <= ncols lab ->
  NoDup (map nf_id nodes) -> (forall nd, In nd nodes -> 0 <= nf_id nd) ->
  (forall c, inside (nrows lab) (ncols lab) c -> exists nd, In nd nodes /\ nf_id nd = at_ lab c) ->
  exists rv, raster_volumes QOps 0%Q 0%Q t lab water u nodes = Ok rv /\ map fst rv = nodes /\
  (Qsum (map snd rv) == Qsum (map (at_ water) (rcells water)) * unit_factor u (Qabs (gt1 t) * Qabs (gt5 t)))%Q.
Proof.
  intros t lab water u nodes n S LI LL Hr Hc ND Nn Cv.
  destruct (raster_volumes_spec t lab water u nodes n S LI LL Hr Hc Nn) as (rv & E & Ef & F).
  exists rv. split; auto. split; auto. set (k := unit_factor u (Qabs (gt1 t) * Qabs (gt5 t))) in *.
  transitivity (Qsum (map (fun p : @node_feature Q * Q =>
    Qsum (map (fun c => if at_ lab c =? nf_id (fst p) then at_ water c else 0%Q) (rcells lab)) * k) rv))%Q.
  { apply Qsum_ext. intros [nd v] Hp. cbn [fst snd]. destruct (F nd v Hp) as (cs & Lc & ->).
    rewrite (lists_unique _ _ _ Lc (lcells_spec lab (nf_id nd))). unfold lcells.
    rewrite (Qsum_filter (fun c => at_ lab c =? nf_id nd)). reflexivity. }
  rewrite (Qsum_scale (fun p : @node_feature Q * Q => Qsum (map (fun c => if at_ lab c =? nf_id (fst p) then at_ water c else 0%Q) (rcells lab)))).
  rewrite (Qsum_swap (fun (p : @node_feature Q * Q) c => if at_ lab c =? nf_id (fst p) then at_ water c else 0%Q)).
  apply Qmult_comp; [|reflexivity].
  assert (Rc : rcells water = rcells lab) by (unfold rcells; destruct S as [-> ->]; reflexivity). rewrite Rc.
  apply Qsum_ext. intros c Hi. unfold rcells in Hi. apply in_cells_of in Hi. destruct (Cv c Hi) as (nd & Hn & En).
  rewrite <- (Qsum_pick (at_ water c) (at_ lab c) (map nf_id nodes)); auto; [|rewrite <- En; apply in_map; auto].
  rewrite <- Ef, !map_map. reflexivity.
Qed.

(** Ids of the nodes of a processed DEM. *)
Lemma node_ids : forall cc, labels_components cc ->
  forall sp fuel fuel' t1 t5 dem dout t f accum out pps (streams : bool) k nodes sts,
  size_ok sp dem -> dem32 dem -> dem_finite dem -> nrows dem * ncols dem <= 2 ^ 53 ->
  dem_process sp fuel t1 t5 dem = Ok dout ->
  accum = None \/ accum = Some (accum64 (do_accum dout)) ->
  bluespot_process sp cc fuel' t (do_depths dout) (do_flowdir dout) (Some f) accum (Some dem) = Ok out ->
  exact_pourpoints t (do_depths dout) out = Ok pps ->
  (length (rcells (do_flowdir dout)) <= k)%nat -> (length pps <= k)%nat ->
  stream_process QOps k (gt_Q t) (do_flowdir dout) (bo_labeled out) pps streams = Ok (nodes, sts) ->
  Z.of_nat (length pps) = bo_nlabels out + 1 /\ same_shape dem (bo_labeled out) /\ numbered (bo_labeled out) (bo_nlabels out) /\
  forall nd, In nd nodes -> 0 <= nf_id nd /\ (nf_junction nd = true -> bo_nlabels out < nf_id nd).
Proof.
  intros cc Hcc sp fuel fuel' t1 t5 dem dout t f accum out pps streams k nodes sts SO H32 HF Big HD HA HB EP K1 K2 ES.
  destruct (depths_facts sp fuel t1 t5 dem dout SO H32 HF HD) as (Sd & _ & _).
  destruct (dem_flow sp fuel t1 t5 dem dout SO H32 HF HD) as (Sf & D & _).
  assert (Hr : 1 <= nrows (do_depths dout)) by (destruct Sd as [<- _]; destruct sp; cbn in SO; lia).
  assert (Hc : 1 <= ncols (do_depths dout)) by (destruct Sd as [_ <-]; destruct sp; cbn in SO; lia).
  destruct (process_filter cc Hcc sp _ _ _ _ _ _ _ _ Hr Hc HB) as (Sh & Nm & _).
  assert (Sl : same_shape (do_flowdir dout) (bo_labeled out)) by (destruct Sh, Sf, Sd; split; congruence).
  destruct (exact_pps cc Hcc sp fuel fuel' t1 t5 dem dout t f accum out SO H32 HF HD HB) as (pps' & EP' & Ec & _).
  rewrite EP in EP'. injection EP' as <-.
  destruct (chain_points cc Hcc sp fuel fuel' t1 t5 dem dout t f accum out SO H32 HF Big HD HA HB)
    as (_ & _ & _ & _ & _ & PP & Ne & _).
  destruct (chain_network cc Hcc sp fuel fuel' t1 t5 dem dout t f accum out SO H32 HF Big HD HA HB)
    as (plain & EPl & (_ & _ & _ & AC) & _).
  assert (Lp : length (pps_of out) = length pps) by (rewrite <- Ec, map_length; auto).
  assert (Sdf : same_shape (do_depths dout) (do_flowdir dout)) by (destruct Sd, Sf; split; congruence).
  destruct (process_pourpoints cc Hcc sp fuel' t _ _ _ _ _ _ Hr Hc Sdf D HB) as (pix' & _ & _ & Lpp & _).
  assert (Lo : length (pps_of out) = length (bo_pourpoints out)) by (unfold pps_of; apply map_length).
  split; [lia|]. split; [destruct Sd, Sh; split; congruence|]. split; [exact Nm|].
  unfold stream_process in ES. apply bind_ok in ES. destruct ES as (ns & En & ES). injection ES as <- <-.
  destruct (network_sound (do_flowdir dout) (bo_labeled out) (pps_of out) Sl D Ne PP plain streams k K1 ltac:(lia) (EPl k K1) AC)
    as (ns' & En' & _ & Pm' & Jn & _).
  rewrite Ec, En' in En. injection En as <-.
  intros nd Hn. apply in_map_iff in Hn. destruct Hn as (m & <- & Hm).
  assert (Mk : nf_id (make_node QOps (gt_Q t) (fold_left (fun d p => Dict.dset Z.eqb d (pp_id p) p) pps []) m) = g_id m /\
    nf_junction (make_node QOps (gt_Q t) (fold_left (fun d p => Dict.dset Z.eqb d (pp_id p) p) pps []) m) = g_junction m).
  { unfold make_node. destruct (Dict.dget _ _ _); auto. }
  destruct Mk as [-> ->]. destruct (g_junction m) eqn:J.
  - specialize (Jn m Hm J). split; [lia|]. intros _. lia.
  - split; [|discriminate]. assert (X : In (g_id m) (zseq 0 (length (pps_of out)))).
    { eapply Permutation_in; [exact Pm'|]. apply in_map. apply filter_In. rewrite J. auto. }
    apply in_zseq in X. lia.
Qed.

(** The same network with other volumes. *)
Lemma same_network : forall (a b : list (@node Q)), map (fun n => (n_id n, n_dstr n)) a = map (fun n => (n_id n, n_dstr n)) b ->
  acyclic_closed a -> acyclic_closed b.
Proof.
  intros a b E AC.
  assert (T : forall a b : list (@node Q), map (fun n => (n_id n, n_dstr n)) a = map (fun n => (n_id n, n_dstr n)) b ->
    forall n, In n a -> exists m, In m b /\ n_id m = n_id n /\ n_dstr m = n_dstr n).
  { intros a' b' E' n Hn. apply (in_map (fun n => (n_id n, n_dstr n))) in Hn. rewrite E' in Hn. apply in_map_iff in Hn.
    destruct Hn as (m & Em & Hm). injection Em as E1 E2. eauto. }
  intros n Hn. destruct (T b a (eq_sym E) n Hn) as (m & Hm & E1 & _). destruct (AC m Hm) as (r & R).
  exists r. rewrite <- E1. clear - R T E.
  induction R as [x Hx Dx|x d r Hx Dx _ IH]; destruct (T a b E x Hx) as (y & Hy & E1 & E2); rewrite <- E1.
  - apply ro_root; auto. congruence.
  - apply (ro_step _ y d r); auto. congruence.
Qed.

(** Rain given as a raster: all of it is accounted for in the final state, whether it is
    collected per bluespot or per watershed. *)
Theorem raster_balance : forall cc, labels_components cc ->
  forall sp t dem f (use_accum : bool) (water : raster Q) u,
  size_ok sp dem -> dem32 dem -> dem_finite dem -> nrows dem * ncols dem <= 2 ^ 53 ->
  square_cells (gt1 t) (gt5 t) = true -> same_shape dem water ->
  exists k, forall fuel, (fuel >= k)%nat -> exists dout out pps nodes sts,
  dem_process sp fuel (gt1 t) (gt5 t) dem = Ok dout /\
  bluespot_process sp cc fuel t (do_depths dout) (do_flowdir dout) (Some f)
    (if use_accum then Some (accum64 (do_accum dout)) else None) (Some dem) = Ok out /\
  exact_pourpoints t (do_depths dout) out = Ok pps /\
  stream_process QOps fuel (gt_Q t) (do_flowdir dout) (bo_labeled out) pps true = Ok (nodes, sts) /\
  let rain := (Qsum (map (at_ water) (rcells water)) * unit_factor u (Qabs (gt1 (gt_Q t)) * Qabs (gt5 (gt_Q t))))%Q in
  forall lab, lab = bo_labeled out \/ lab = bo_watersheds out -> exists rv fin,
  raster_volumes QOps 0%Q 0%Q (gt_Q t) lab water u nodes = Ok rv /\ map fst rv = nodes /\
  (Qsum (map snd rv) == rain)%Q /\
  process QOps (length rv) (map solver_node rv) = Ok fin /\
  (Qsum (map out_vol fin) + Qsum (map out_spill (filter (fun p => is_root (fst p)) fin)) == rain)%Q.
Proof.
  intros cc Hcc sp t dem f use_accum water u SO H32 HF Big SQ Sw.
  destruct (chain_total cc Hcc sp use_accum t dem f SO H32 HF SQ) as (k & K).
  exists (Nat.max k (S (Z.to_nat (nrows dem * ncols dem)))). intros fuel Fu.
  destruct (K fuel ltac:(lia)) as (dout & out & ED & EB).
  set (accum := if use_accum then Some (accum64 (do_accum dout)) else None) in *.
  assert (HA : accum = None \/ accum = Some (accum64 (do_accum dout))) by (unfold accum; destruct use_accum; auto).
  destruct (rain_shares cc Hcc sp fuel fuel _ _ dem dout t f accum out SO H32 HF Big ED HA EB) as (pps & Ep & Lp & R).
  destruct (dem_flow sp fuel _ _ dem dout SO H32 HF ED) as (Sf & D & _).
  assert (H1 : 1 <= nrows dem) by (destruct sp; cbn in SO; lia). assert (H2 : 1 <= ncols dem) by (destruct sp; cbn in SO; lia).
  assert (K1 : (length (rcells (do_flowdir dout)) <= fuel)%nat).
  { unfold rcells. rewrite length_cells_of. destruct Sf as [<- <-].
    assert (Z.of_nat (Z.to_nat (nrows dem) * Z.to_nat (ncols dem)) = nrows dem * ncols dem) by (rewrite Nat2Z.inj_mul, !Z2Nat.id; auto; lia).
    lia. }
  assert (K2 : (length pps <= fuel)%nat) by lia.
  destruct (R true fuel K1 K2) as (nodes & sts & Es & ND & Pm & _ & V).
  exists dout, out, pps, nodes, sts. split; auto. split; auto. split; auto. split; auto. cbn zeta.
  destruct (node_ids cc Hcc sp fuel fuel _ _ dem dout t f accum out pps true fuel nodes sts SO H32 HF Big ED HA EB Ep K1 K2 Es)
    as (Ln & Sl & Nm & Ni).
  intros lab HL.
  assert (X : same_shape dem lab /\ numbered lab (bo_nlabels out)).
  { destruct HL as [->| ->]; auto.
    destruct (depths_facts sp fuel _ _ dem dout SO H32 HF ED) as (Sd & _ & _).
    assert (Hr : 1 <= nrows (do_depths dout)) by (destruct Sd as [<- _]; lia).
    assert (Hc : 1 <= ncols (do_depths dout)) by (destruct Sd as [_ <-]; lia).
    destruct (run_inv cc Hcc sp _ _ _ _ _ _ _ _ Hr Hc EB) as (st & new & bst & wst & pix & _ & _ & _ & _ & E3 & E4 & _).
    assert (Sl' : same_shape (do_flowdir dout) (bo_labeled out)) by (destruct Sl, Sf; split; congruence).
    rewrite watersheds_either in E4 by (auto; destruct Sf; lia).
    destruct (watersheds_numbered fuel _ _ _ _ D Sl' ltac:(destruct Sf; lia) ltac:(destruct Sf; lia) Nm E4) as [Sww Nw].
    split; auto. destruct Sww, Sl, Sl'; split; congruence. }
  destruct X as [SL NL].
  destruct (raster_total (gt_Q t) lab water u nodes (bo_nlabels out)) as (rv & Er & Ef & Sm); auto.
  { destruct SL, Sw; split; congruence. } { apply NL. }
  { apply numbered_largest; auto; destruct SL; lia. } { destruct SL; lia. } { destruct SL; lia. }
  { intros nd Hn. apply Ni; auto. }
  { intros c I. assert (B : 0 <= at_ lab c <= bo_nlabels out) by (apply NL; auto).
    assert (Hz : In (at_ lab c) (zseq 0 (length pps))) by (apply in_zseq; lia).
    apply (Permutation_in _ (Permutation_sym Pm)) in Hz. apply in_map_iff in Hz. destruct Hz as (nd & En & Hn).
    apply filter_In in Hn. exists nd. tauto. }
  destruct (process_total QOps (map solver_node rv) (length rv)) as (fin & Efin); [rewrite map_length; lia|].
  exists rv, fin. split; auto. split; auto. split; auto. split; auto.
  destruct (V 0%Q) as (_ & _ & AC).
  assert (UI : unique_ids (map solver_node rv)).
  { unfold unique_ids. rewrite map_map. rewrite <- Ef, map_map in ND. exact ND. }
  assert (AC' : acyclic_closed (map solver_node rv)).
  { apply (same_network (map solver_node (simple_volumes QOps 0%Q nodes))); auto. unfold simple_volumes. rewrite <- Ef, !map_map. reflexivity. }
  rewrite <- (process_conserves _ _ _ UI AC' Efin). rewrite <- Sm. rewrite map_map. reflexivity.
Qed.

(** ** Example: rain in litres on the terrain of RainThms, different on each cell *)
Definition uneven : raster Q := mkRaster 3 6 (fun i j => inject_Z (i + 2 * j)).
Definition uneven_run : res (list (@node_feature Q * Q) * list (@node Q * option (@event Q))) :=
  dout <- dem_process false 20 (gt1 ex_gt) (gt5 ex_gt) rain_dem ;;
  out <- bluespot_process false cc_memo 20 ex_gt (do_depths dout) (do_flowdir dout) (Some all_pass) None (Some rain_dem) ;;
  pps <- exact_pourpoints ex_gt (do_depths dout) out ;;
  ns <- stream_process QOps 20 (gt_Q ex_gt) (do_flowdir dout) (bo_labeled out) pps true ;;
  rv <- raster_volumes QOps 0%Q 0%Q (gt_Q ex_gt) (bo_labeled out) uneven U_l (fst ns) ;;
  fin <- process QOps (length rv) (map solver_node rv) ;;
  Ok (rv, fin).
