(** * Flow: statements used by P_Flow.v, witnesses and examples *)

From Flocq Require Import IEEE754.BinarySingleNaN.
From Verif Require Import Base BaseProofs Num Float64 Float64Proofs FillModel FillSpec FillThms
  FlowModel FlowSpec FlowProofs AccumProofs WatershedProofs FlowDirProofs DemModel DemProofs.

(** ** Checking a concrete raster *)
Fixpoint drains_in (k : nat) (f : raster Z) (c : cell) : bool :=
  match k with
  | O => false
  | S k => match target f c with
           | Some d => if cell_in_raster (nrows f) (ncols f) d then drains_in k f d else true
           | None => false
           end
  end.

Lemma drains_in_ok : forall k f c, inside (nrows f) (ncols f) c -> drains_in k f c = true -> drains_off f c.
Proof.
  induction k as [|k IH]; intros f c I H; cbn in H; [discriminate|].
  destruct (target f c) as [d|] eqn:T; [|discriminate].
  destruct (cell_in_raster_spec (nrows f) (ncols f) d).
  - eapply do_step; [split; [|split]; eauto|]. auto.
  - apply do_off. split; eauto.
Qed.

Definition check_draining (f : raster Z) : bool :=
  forallb (fun c => (0 <=? at_ f c) && (at_ f c <=? 8) && drains_in (length (rcells f)) f c) (rcells f).

Lemma check_draining_ok : forall f, check_draining f = true -> fully_draining f.
Proof.
  intros f H. unfold check_draining in H. rewrite forallb_forall in H.
  assert (G : forall c, inside (nrows f) (ncols f) c ->
    0 <= at_ f c <= 8 /\ drains_in (length (rcells f)) f c = true).
  { intros c I. specialize (H c (proj2 (in_cells_of _ _ _) I)).
    apply andb_true_iff in H. destruct H as [H1 H2]. apply andb_true_iff in H1.
    destruct H1 as [H0 H1]. apply Z.leb_le in H0, H1. auto. }
  split; intros c I; destruct (G c I); auto. eapply drains_in_ok; eauto.
Qed.

(** A 4x4 flow raster: the four inner cells drain in a chain to the left edge. *)
Definition ex_flow : raster Z :=
  of_rows 0 [[7; 0; 0; 1]; [6; 6; 6; 2]; [6; 2; 0; 2]; [5; 4; 4; 3]].
Lemma ex_flow_ok : fully_draining ex_flow.
Proof. apply check_draining_ok. vm_compute. reflexivity. Qed.
Definition ex_labels : raster Z :=
  of_rows 0 [[0; 0; 0; 0]; [0; 5; 0; 0]; [0; 0; 0; 0]; [0; 0; 0; 0]].

(** ** C12 *)
Lemma dem_drains : forall (sp : bool) fuel t1 t5 dem out,
  (if sp then 4 <= nrows dem <= 2 ^ 50 /\ 4 <= ncols dem else 2 <= nrows dem /\ 2 <= ncols dem <= 2 ^ 50) ->
  dem32 dem -> dem_finite dem -> dem_process sp fuel t1 t5 dem = Ok out ->
  fully_draining (do_flowdir out) /\ same_shape dem (do_flowdir out) /\
  (exists short diag nf, minimum_safe_short_and_diag dem = Ok (short, diag) /\
     (if sp then fill_nf64_cy else fill_nf64) short diag fuel dem = Ok nf /\
     forall c d, flows (do_flowdir out) c d -> lt64 (at_ nf d) (at_ nf c)) /\
  (forall c, inside (nrows dem) (ncols dem) c ->
   exists path, NoDup path /\ (forall d, In d path <-> passes (do_flowdir out) c d) /\
     (forall d, In d path -> at_ (do_flowdir out) d <> 8) /\
     forall fuel, (length path <= fuel)%nat -> trace_downstream fuel (do_flowdir out) c = Ok path).
Proof.
  intros sp fuel t1 t5 dem out S H32 HF H.
  destruct (dem_flow sp fuel t1 t5 dem out S H32 HF H) as (SS & FD & short & diag & nf & fuel' & E1 & E2 & _ & _ & E3 & M & _).
  split; auto. split; auto. split.
  - destruct (dem_process_parts _ _ _ _ _ _ H) as (_ & _ & _ & short' & diag' & nf' & E1' & E2' & _).
    rewrite E1 in E1'. inversion E1'; subst short' diag'. exists short, diag, nf'.
    split; auto. split; auto.
    assert (nf = nf').
    { destruct (Nat.le_ge_cases fuel fuel').
      - symmetry. eapply (fuel_agree sp short diag dem fuel fuel'); eauto.
      - eapply (fuel_agree sp short diag dem fuel' fuel); eauto. }
    subst. auto.
  - intros c I. apply trace_drains; auto. destruct SS as [<- <-]. auto.
Qed.

Lemma dem_terminates : forall (sp : bool) t1 t5 dem, square_cells t1 t5 = true ->
  (if sp then 4 <= nrows dem <= 2 ^ 50 /\ 4 <= ncols dem else 2 <= nrows dem /\ 2 <= ncols dem <= 2 ^ 50) ->
  dem32 dem -> dem_finite dem ->
  exists k, forall fuel, (fuel >= k)%nat -> exists out, dem_process sp fuel t1 t5 dem = Ok out.
Proof.
  intros sp t1 t5 dem SQ S H32 HF. destruct (dem_total sp t1 t5 dem SQ S H32 HF) as (out & k & H).
  exists k. intros fuel L. destruct (H fuel L) as (acc & E & _). eauto.
Qed.

(** ** C13 *)
Lemma upstream_exact : forall f c, exists l, upstream_cells f c = Ok l /\ NoDup l /\
  forall u, In u l <-> inside (nrows f) (ncols f) u /\ target f u = Some c.
Proof.
  intros f c. exists (ups f c). split; [apply upstream_cells_eq|]. split; [apply ups_nodup | apply in_ups].
Qed.

(** ** C17 *)
Lemma c17_refuted : exists f : raster Z, codes_ok f /\
  forall fuel, (fuel > 0)%nat -> accumulated_flow fuel f = Exc TypeError.
Proof.
  exists (of_rows 0 [[8]]). split.
  - intros [r c] [H1 H2]. cbn in H1, H2. assert (r = 0) by lia. assert (c = 0) by lia. subst. vm_compute.
    split; discriminate.
  - intros [|fuel] H; [lia|]. vm_compute. reflexivity.
Qed.

(** ** C55: the compiled directions differ *)
Definition dir_witness : raster b64 :=
  let x := f64_ofZ 7 in
  of_rows f64_zero [[x; f64_sub x (f64_mul x f64_inv_sqrt2); f64_zero]; [x; x; x]; [x; x; x]].

Lemma flowdir_cy_differs : exists t f g, nrows t = 3 /\ ncols t = 3 /\ dem_finite t /\
  flowdir64 t true = Ok f /\ flowdir64_cy t true = Ok g /\ at_ f (1, 1) = 1 /\ at_ g (1, 1) = 0.
Proof.
  assert (F : dem_finite dir_witness).
  { intros [r c] [H1 H2]. cbn [fst snd] in *.
    change (nrows dir_witness) with 3 in H1. change (ncols dir_witness) with 3 in H2.
    assert (r = 0 \/ r = 1 \/ r = 2) as [-> | [-> | ->]] by lia;
    assert (c = 0 \/ c = 1 \/ c = 2) as [-> | [-> | ->]] by lia; vm_compute; reflexivity. }
  destruct (flowdir_ok (fun x => f64_div x f64_sqrt2) dir_witness true) as (f & Ef); [cbn; lia | cbn; lia|].
  destruct (flowdir_ok (fun x => f64_mul x f64_inv_sqrt2) dir_witness true) as (g & Eg); [cbn; lia | cbn; lia|].
  exists dir_witness, f, g.
  split; [reflexivity|]. split; [reflexivity|]. split; [exact F|]. split; [exact Ef|]. split; [exact Eg|].
  assert (Vf : match terrain_flowdirection F64Ops (fun x => f64_div x f64_sqrt2) dir_witness true with
    | Ok f => at_ f (1, 1) =? 1 | _ => false end = true) by (vm_compute; reflexivity).
  assert (Vg : match terrain_flowdirection F64Ops (fun x => f64_mul x f64_inv_sqrt2) dir_witness true with
    | Ok f => at_ f (1, 1) =? 0 | _ => false end = true) by (vm_compute; reflexivity).
  rewrite Ef in Vf. rewrite Eg in Vg. apply Z.eqb_eq in Vf, Vg. auto.
Qed.
