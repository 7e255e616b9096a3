(** * The DEM tool: everything it writes drains *)

From Flocq Require Import IEEE754.BinarySingleNaN.
From Verif Require Import Base BaseProofs Num Float64 Float64Proofs Float64Scale FillModel FillSpec
  FillProofs FillThms FlowModel FlowSpec FlowProofs AccumProofs FlowDirProofs DemModel.

Theorem py_steepest : forall t edges f, dem_finite t -> 1 <= nrows t -> 1 <= ncols t ->
  flowdir64 t edges = Ok f ->
  same_shape t f /\ codes_ok f /\
  (forall c, interior (nrows t) (ncols t) c ->
     (at_ f c = 8 /\ forall n, adjacent c n -> le64 (at_ t c) (at_ t n)) \/
     (steepest (fun x => f64_div x f64_sqrt2) t c (at_ f c) /\ downhill f t c)) /\
  (forall c, on_edge (nrows t) (ncols t) c -> if edges then flows_off f c else at_ f c = 8).
Proof. exact (flowdir_steepest _ slope_div). Qed.

Theorem cy_steepest : forall t edges f, dem_finite t -> 1 <= nrows t -> 1 <= ncols t ->
  flowdir64_cy t edges = Ok f ->
  same_shape t f /\ codes_ok f /\
  (forall c, interior (nrows t) (ncols t) c ->
     (at_ f c = 8 /\ forall n, adjacent c n -> le64 (at_ t c) (at_ t n)) \/
     (steepest (fun x => f64_mul x f64_inv_sqrt2) t c (at_ f c) /\ downhill f t c)) /\
  (forall c, on_edge (nrows t) (ncols t) c -> if edges then flows_off f c else at_ f c = 8).
Proof. exact (flowdir_steepest _ slope_mul). Qed.

Theorem py_flowdir_total : forall t edges, 1 <= nrows t -> 1 <= ncols t -> exists f, flowdir64 t edges = Ok f.
Proof. intros. apply flowdir_ok; auto. Qed.

(** What the DEM tool guarantees about flow. *)
Definition dem_flow_ok (speedups : bool) (dem : raster b64) (out : dem_out) : Prop :=
  same_shape dem (do_flowdir out) /\
  fully_draining (do_flowdir out) /\
  exists short diag nf fuel,
    minimum_safe_short_and_diag dem = Ok (short, diag) /\
    (if speedups then fill_nf64_cy else fill_nf64) short diag fuel dem = Ok nf /\
    same_shape dem nf /\ dem_finite nf /\
    (if speedups then flowdir64_cy else flowdir64) nf true = Ok (do_flowdir out) /\
    (forall c d, flows (do_flowdir out) c d -> lt64 (at_ nf d) (at_ nf c)) /\
    (if speedups then accumulated_flow_cy else accumulated_flow) fuel (do_flowdir out) = Ok (do_accum out).

Lemma dem_process_parts : forall (sp : bool) fuel t1 t5 dem out, dem_process sp fuel t1 t5 dem = Ok out ->
  square_cells t1 t5 = true /\
  (if sp then fill64_cy else fill64) fuel dem = Ok (do_filled out) /\
  do_depths out = raster_sub32 (do_filled out) dem /\
  exists short diag nf, minimum_safe_short_and_diag dem = Ok (short, diag) /\
    (if sp then fill_nf64_cy else fill_nf64) short diag fuel dem = Ok nf /\
    (if sp then flowdir64_cy else flowdir64) nf true = Ok (do_flowdir out) /\
    (if sp then accumulated_flow_cy else accumulated_flow) fuel (do_flowdir out) = Ok (do_accum out).
Proof.
  intros sp fuel t1 t5 dem out H. unfold dem_process in H.
  destruct (square_cells t1 t5); cbn [negb] in H; [|discriminate]. split; auto.
  apply bind_ok in H. destruct H as (filled & E1 & H). cbv zeta in H.
  apply bind_ok in H. destruct H as ((short & diag) & E2 & H).
  apply bind_ok in H. destruct H as (nf & E3 & H).
  apply bind_ok in H. destruct H as (fd & E4 & H).
  apply bind_ok in H. destruct H as (acc & E5 & H). inversion H; subst out. cbn.
  split; [auto|]. split; [auto|]. exists short, diag, nf. auto.
Qed.

Lemma fuel_agree : forall (sp : bool) short diag (dem : raster b64) n m f g, (n <= m)%nat ->
  (if sp then fill_nf64_cy else fill_nf64) short diag n dem = Ok f ->
  (if sp then fill_nf64_cy else fill_nf64) short diag m dem = Ok g -> f = g.
Proof.
  intros [|] short diag dem n m f g L H H'.
  - unfold fill_nf64_cy, fill_terrain_no_flats_cy in *.
    apply bind_ok in H. destruct H as (i & E & H). rewrite E in H'. cbn [bind] in H'.
    rewrite (fill_loop_mono _ _ _ _ H m L) in H'. congruence.
  - unfold fill_nf64, fill_terrain_no_flats in *.
    apply bind_ok in H. destruct H as (i & E & H). rewrite E in H'. cbn [bind] in H'.
    rewrite (fill_loop_mono _ _ _ _ H m L) in H'. congruence.
Qed.

Definition size_ok (sp : bool) (dem : raster b64) : Prop :=
  if sp then 4 <= nrows dem <= 2 ^ 50 /\ 4 <= ncols dem
  else 2 <= nrows dem /\ 2 <= ncols dem <= 2 ^ 50.

Lemma nf_either : forall (sp : bool) dem, size_ok sp dem -> dem32 dem -> dem_finite dem ->
  exists short diag f k, minimum_safe_short_and_diag dem = Ok (short, diag) /\
  (forall fuel, (fuel >= k)%nat -> (if sp then fill_nf64_cy else fill_nf64) short diag fuel dem = Ok f) /\
  nrows f = nrows dem /\ ncols f = ncols dem /\ dem_finite f /\
  (forall c, inside (nrows dem) (ncols dem) c -> le64 (at_ dem c) (at_ f c)) /\
  (forall c, interior (nrows dem) (ncols dem) c -> exists d, adjacent c d /\
     inside (nrows dem) (ncols dem) d /\ lt64 (at_ f d) (at_ f c)) /\
  (forall c, inside (nrows dem) (ncols dem) c -> drains_strictly (nrows dem) (ncols dem) lt64 (at_ f) c).
Proof.
  intros sp dem S H32 HF. pose proof (dem32_max1000 dem H32 HF) as HM.
  destruct sp; cbn in S; destruct S.
  - apply nf_cy_safe; auto.
  - apply nf_safe; auto.
Qed.

Lemma flow_mono : forall (sp : bool) t f, dem_finite t -> 1 <= nrows t -> 1 <= ncols t ->
  (forall c, interior (nrows t) (ncols t) c -> exists n, adjacent c n /\ inside (nrows t) (ncols t) n /\
     lt64 (at_ t n) (at_ t c)) ->
  (if sp then flowdir64_cy else flowdir64) t true = Ok f ->
  same_shape t f /\ fully_draining f /\ (forall c d, flows f c d -> lt64 (at_ t d) (at_ t c)).
Proof.
  intros sp t f HF Hr Hc L H. destruct sp.
  - destruct (flowdir_drains _ slope_mul t f HF Hr Hc L H). split; auto.
    apply (cy_steepest t true f HF Hr Hc H).
  - destruct (flowdir_drains _ slope_div t f HF Hr Hc L H). split; auto.
    apply (py_steepest t true f HF Hr Hc H).
Qed.

(** The fuel at which the no-flats fill ends does not matter for its result. *)
Theorem dem_flow : forall (sp : bool) fuel t1 t5 dem out, size_ok sp dem -> dem32 dem -> dem_finite dem ->
  dem_process sp fuel t1 t5 dem = Ok out -> dem_flow_ok sp dem out.
Proof.
  intros sp fuel t1 t5 dem out S H32 HF H.
  destruct (dem_process_parts _ _ _ _ _ _ H) as (_ & _ & _ & short & diag & nf & E1 & E2 & E3 & E4).
  destruct (nf_either sp dem S H32 HF) as (short' & diag' & f & k & E1' & E2' & Sr & Sc & Ff & _ & Low & _).
  rewrite E1 in E1'. inversion E1'; subst short' diag'.
  assert (nf = f).
  { apply (fuel_agree sp short diag dem fuel (Nat.max fuel k)); [lia | auto | apply E2'; lia]. }
  subst f.
  assert (R1 : 1 <= nrows nf) by (destruct sp; unfold size_ok in S; lia).
  assert (C1 : 1 <= ncols nf) by (destruct sp; unfold size_ok in S; lia).
  assert (Low' : forall c, interior (nrows nf) (ncols nf) c -> exists n, adjacent c n /\
     inside (nrows nf) (ncols nf) n /\ lt64 (at_ nf n) (at_ nf c)) by (rewrite Sr, Sc; exact Low).
  destruct (flow_mono sp nf _ Ff R1 C1 Low' E3) as ((F1 & F2) & FD & FM).
  split; [split; congruence|]. split; auto. exists short, diag, nf, fuel.
  split; [auto|]. split; [auto|]. split; [split; auto|]. split; [auto|]. split; [auto|]. split; [auto|]. auto.
Qed.

Theorem dem_total : forall sp t1 t5 dem, square_cells t1 t5 = true -> size_ok sp dem -> dem32 dem -> dem_finite dem ->
  exists out k, forall fuel, (fuel >= k)%nat -> exists acc,
    dem_process sp fuel t1 t5 dem = Ok (mkDemOut (do_filled out) (do_depths out) (do_flowdir out) acc) /\
    forall c, inside (nrows dem) (ncols dem) c -> at_ acc c = at_ (do_accum out) c.
Proof.
  intros sp t1 t5 dem SQ S H32 HF.
  assert (X : exists g k, forall fuel, (fuel >= k)%nat -> (if sp then fill64_cy else fill64) fuel dem = Ok g).
  { destruct sp; cbn in S; destruct S.
    - apply cy_total; auto; lia.
    - apply fill64_total; auto; lia. }
  destruct X as (g & k1 & Hg).
  destruct (nf_either sp dem S H32 HF) as (short & diag & nf & k2 & E1 & E2 & Sr & Sc & Ff & _ & Low & _).
  assert (R1 : 1 <= nrows nf) by (destruct sp; unfold size_ok in S; lia).
  assert (C1 : 1 <= ncols nf) by (destruct sp; unfold size_ok in S; lia).
  assert (Low' : forall c, interior (nrows nf) (ncols nf) c -> exists n, adjacent c n /\
     inside (nrows nf) (ncols nf) n /\ lt64 (at_ nf n) (at_ nf c)) by (rewrite Sr, Sc; exact Low).
  assert (Y : exists fd, (if sp then flowdir64_cy else flowdir64) nf true = Ok fd)
    by (destruct sp; apply flowdir_ok; auto).
  destruct Y as (fd & E3).
  destruct (flow_mono sp nf _ Ff R1 C1 Low' E3) as ((F1 & F2) & FD & FM).
  assert (Z : forall fuel, (fuel >= Z.to_nat (nrows fd * ncols fd))%nat -> exists acc,
     (if sp then accumulated_flow_cy else accumulated_flow) fuel fd = Ok acc /\
     forall c, inside (nrows fd) (ncols fd) c -> at_ acc c = cnt fd c).
  { intros fuel L. destruct sp.
    - destruct (accum_cy_terminates fd FD fuel L) as (acc & Ea). exists acc. split; auto.
      apply (accum_cy_cnt fd fuel acc FD Ea).
    - destruct (accum_terminates fd FD fuel L) as (acc & Ea). exists acc. split; auto.
      apply (accum_cnt fd fuel acc FD Ea). }
  exists (mkDemOut g (raster_sub32 g dem) fd (mkRaster (nrows dem) (ncols dem) (fun i j => cnt fd (i, j)))).
  exists (k1 + k2 + Z.to_nat (nrows fd * ncols fd))%nat. intros fuel L.
  destruct (Z fuel ltac:(lia)) as (acc & Ea & Va). exists acc. split.
  - unfold dem_process. rewrite SQ. cbn [negb]. rewrite Hg by lia. cbn [bind]. rewrite E1. cbn [bind].
    rewrite E2 by lia. cbn [bind]. rewrite E3. cbn [bind]. rewrite Ea. reflexivity.
  - cbn. intros [i j] I. rewrite Va; [reflexivity|]. rewrite <- F1, <- F2, Sr, Sc. exact I.
Qed.
