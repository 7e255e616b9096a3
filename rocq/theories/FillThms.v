(** * The lemmas that close the theorems of P_Fill.v *)

From Flocq Require Import IEEE754.BinarySingleNaN.
From Verif Require Import Base BaseProofs Num Float64 Float64Proofs FillModel FillSpec
  RelaxProofs FillProofs NoFlatsProofs.

Lemma fill64_total : forall dtm, 2 <= nrows dtm -> 2 <= ncols dtm -> dem32 dtm ->
  exists f k, (forall fuel, (fuel >= k)%nat -> fill64 fuel dtm = Ok f).
Proof.
  intros dtm Hr Hc Hd. destruct (fill64_run dtm Hr Hc Hd) as (f & k & _ & _ & H). eauto.
Qed.

Lemma fill64_basic : forall dtm, 2 <= nrows dtm -> 2 <= ncols dtm -> dem32 dtm ->
  forall fuel f, fill64 fuel dtm = Ok f ->
  nrows f = nrows dtm /\ ncols f = ncols dtm /\ dem32 f /\
  (forall c, inside (nrows dtm) (ncols dtm) c -> le64 (at_ dtm c) (at_ f c)) /\
  (forall c, on_edge (nrows dtm) (ncols dtm) c -> at_ f c = at_ dtm c).
Proof.
  intros dtm Hr Hc Hd fuel f H. destruct (fill64_result dtm Hr Hc Hd _ _ H) as [HS HF].
  destruct HS as ((Er & Ec & HI & HE) & _).
  split; [auto|]. split; [auto|]. split; [|split; [|auto]].
  - intros c Hin. rewrite Er, Ec in Hin. destruct (HI c Hin) as (G & S & _). auto.
  - intros c Hin. destruct (HI c Hin) as (G & S & L). apply le64_rank; auto. apply Hd; auto.
Qed.

Lemma fill64_least : forall dtm, 2 <= nrows dtm -> 2 <= ncols dtm -> dem32 dtm ->
  forall fuel f, fill64 fuel dtm = Ok f ->
  forall g : cell -> b64,
  (forall c, inside (nrows dtm) (ncols dtm) c -> not_nan (g c) /\ le64 (at_ dtm c) (g c)) ->
  (forall c, inside (nrows dtm) (ncols dtm) c -> drains le64 (nrows dtm) (ncols dtm) g c) ->
  forall c, inside (nrows dtm) (ncols dtm) c -> le64 (at_ f c) (g c).
Proof.
  intros dtm Hr Hc Hd fuel f H g Hg Hdr c Hin.
  destruct (Hg c Hin) as [Gc Dc].
  apply (fill64_level dtm Hr Hc Hd _ _ H); auto.
  apply (drains_escapes dtm Hd g Hg c (Hdr c Hin)); auto.
  apply le64_rank; auto. lia.
Qed.

Lemma rank_le_eq : forall x y, not_nan x -> not_nan y -> le64 x y -> le64 y x -> eq64 x y.
Proof. intros x y Gx Gy H1 H2. apply le64_rank in H1, H2; auto. apply eq64_rank; auto. lia. Qed.

Lemma fill64_idem : forall dtm, 2 <= nrows dtm -> 2 <= ncols dtm -> dem32 dtm ->
  forall fuel f fuel' g, fill64 fuel dtm = Ok f -> fill64 fuel' f = Ok g ->
  forall c, inside (nrows dtm) (ncols dtm) c -> eq64 (at_ g c) (at_ f c).
Proof.
  intros dtm Hr Hc Hd fuel f fuel' g H H' c Hin.
  destruct (fill64_basic dtm Hr Hc Hd _ _ H) as (Er & Ec & Df & _).
  assert (Hrf : 2 <= nrows f) by lia. assert (Hcf : 2 <= ncols f) by lia.
  destruct (fill64_basic f Hrf Hcf Df _ _ H') as (Er' & Ec' & Dg & Hge & _).
  assert (Hinf : inside (nrows f) (ncols f) c) by (rewrite Er, Ec; auto).
  assert (Hing : inside (nrows g) (ncols g) c) by (rewrite Er', Ec'; auto).
  destruct (Dg c Hing) as [Gg _]. destruct (Df c Hinf) as [Gf _].
  apply rank_le_eq; auto.
  apply (fill64_least f Hrf Hcf Df _ _ H' (at_ f)); auto.
  - intros e He. destruct (Df e He) as [Ge _]. split; auto. apply le64_rank; auto; lia.
  - intros e He. rewrite Er, Ec. apply (fill64_drains dtm Hr Hc Hd _ _ H). rewrite <- Er, <- Ec. auto.
Qed.

Lemma fill64_mono : forall dtm dtm', 2 <= nrows dtm -> 2 <= ncols dtm -> dem32 dtm -> dem32 dtm' ->
  same_shape dtm dtm' ->
  (forall c, inside (nrows dtm) (ncols dtm) c -> le64 (at_ dtm c) (at_ dtm' c)) ->
  forall fuel f fuel' g, fill64 fuel dtm = Ok f -> fill64 fuel' dtm' = Ok g ->
  forall c, inside (nrows dtm) (ncols dtm) c -> le64 (at_ f c) (at_ g c).
Proof.
  intros dtm dtm' Hr Hc Hd Hd' [Er Ec] Hle fuel f fuel' g H H' c Hin.
  assert (Hr' : 2 <= nrows dtm') by lia. assert (Hc' : 2 <= ncols dtm') by lia.
  destruct (fill64_basic dtm' Hr' Hc' Hd' _ _ H') as (Er' & Ec' & Dg & Hge & _).
  apply (fill64_least dtm Hr Hc Hd _ _ H (at_ g)); auto.
  - intros e He. assert (He' : inside (nrows dtm') (ncols dtm') e) by (rewrite <- Er, <- Ec; auto).
    assert (Ge : not_nan (at_ g e)) by (apply Dg; rewrite Er', Ec'; auto). split; auto.
    specialize (Hge e He'). specialize (Hle e He).
    destruct (Hd e He) as [G1 _]. destruct (Hd' e He') as [G2 _].
    apply le64_rank in Hge, Hle; auto. apply le64_rank; auto. lia.
  - intros e He. rewrite Er, Ec in *. apply (fill64_drains dtm' Hr' Hc' Hd' _ _ H'); auto.
Qed.

(** ** C05 *)
Definition c05_dem : raster b64 :=
  of_rows f64_zero [[f64_zero; f64_zero; f64_zero]; [f64_zero; f64_div (f64_ofZ 1) (f64_ofZ 10); f64_zero];
                    [f64_zero; f64_zero; f64_zero]].

Definition c05_state (f : raster b64) : Prop :=
  nrows f = 3 /\ ncols f = 3 /\
  (rget f 0 0 = f64_zero /\ rget f 0 1 = f64_zero /\ rget f 0 2 = f64_zero) /\
  (rget f 1 0 = f64_zero /\ rget f 1 2 = f64_zero) /\
  (rget f 2 0 = f64_zero /\ rget f 2 1 = f64_zero /\ rget f 2 2 = f64_zero) /\
  (rget f 1 1 = f64_inf \/ rget f 1 1 = store32 (f64_div (f64_ofZ 1) (f64_ofZ 10))).

Lemma c05_visit : forall f, c05_state f -> exists f',
  fill_cell F64Ops store32 c05_dem f 1 1 = Ok (f', true) /\ c05_state f'.
Proof.
  intros f (Hr & Hc & (a1 & a2 & a3) & (b1 & b2) & (d1 & d2 & d3) & Hv).
  exists (rset f 1 1 (store32 (f64_div (f64_ofZ 1) (f64_ofZ 10)))).
  split.
  - unfold fill_cell, rd, wr. rewrite Hr, Hc. cbn -[F64Ops pymin pymax store32 f64_div f64_ofZ of_rows c05_dem rget rset].
    rewrite a1, a2, a3, b1, b2, d1, d2, d3.
    change (nrows c05_dem) with 3. change (ncols c05_dem) with 3.
    cbn -[F64Ops pymin pymax store32 f64_div f64_ofZ of_rows c05_dem rget rset].
    change (rget c05_dem 1 1) with (f64_div (f64_ofZ 1) (f64_ofZ 10)).
    set (d := f64_div (f64_ofZ 1) (f64_ofZ 10)) in *.
    assert (P1 : pymin F64Ops f64_zero f64_inf = f64_zero).
    { unfold pymin. replace (nltb F64Ops f64_inf f64_zero) with false by (vm_compute; reflexivity). reflexivity. }
    assert (P2 : pymin F64Ops f64_zero (store32 d) = f64_zero).
    { unfold pymin. replace (nltb F64Ops (store32 d) f64_zero) with false by (vm_compute; reflexivity). reflexivity. }
    assert (P3 : pymin F64Ops f64_zero f64_zero = f64_zero).
    { unfold pymin. destruct (nltb F64Ops f64_zero f64_zero); reflexivity. }
    assert (P4 : pymax F64Ops f64_zero d = d).
    { unfold pymax. replace (nltb F64Ops f64_zero d) with true by (vm_compute; reflexivity). reflexivity. }
    destruct Hv as [->| ->]; rewrite ?P1, ?P2, !P3, P4.
    + replace (nleb F64Ops f64_inf d) with false by (vm_compute; reflexivity).
      replace (neqb F64Ops d f64_inf) with false by (vm_compute; reflexivity). reflexivity.
    + replace (nleb F64Ops (store32 d) d) with false by (vm_compute; reflexivity).
      replace (neqb F64Ops d (store32 d)) with false by (vm_compute; reflexivity). reflexivity.
  - unfold c05_state. cbn [nrows ncols rset rget]. cbn [Z.eqb Z.compare andb Pos.compare Pos.compare_cont Pos.eqb].
    auto 20.
Qed.

Lemma c05_sweep : forall f a b, c05_state f -> (a, b) = (1, 1) -> exists f',
  sweep_py (fill_cell F64Ops store32 c05_dem) f a b a b = Ok (f', true) /\ c05_state f'.
Proof.
  intros f a b Hf E. inversion E; subst. destruct (c05_visit f Hf) as (f' & E1 & Hf').
  exists f'. split; [|auto]. unfold sweep_py. cbn [Z.ltb Z.compare Pos.compare Pos.compare_cont].
  change (pyrange 1 (1 + -1) (-1)) with [1]. cbn [mfold fst]. rewrite E1. reflexivity.
Qed.

Lemma c05_loop : forall fuel f, c05_state f ->
  fill_loop (sweep_py (fill_cell F64Ops store32 c05_dem)) fuel f = Timeout.
Proof.
  induction fuel as [|fuel IH]; intros f Hf; [reflexivity|].
  cbn [fill_loop]. pose proof Hf as (Hr & Hc & _). rewrite Hr, Hc. change (3 - 2) with 1.
  destruct (c05_sweep f 1 1 Hf eq_refl) as (f1 & E1 & H1). rewrite E1. cbn [bind].
  destruct (c05_sweep f1 1 1 H1 eq_refl) as (f2 & E2 & H2). rewrite E2. cbn [bind].
  destruct (c05_sweep f2 1 1 H2 eq_refl) as (f3 & E3 & H3). rewrite E3. cbn [bind].
  destruct (c05_sweep f3 1 1 H3 eq_refl) as (f4 & E4 & H4). rewrite E4. cbn [bind]. auto.
Qed.

Lemma c05_refuted : exists dtm : raster b64, nrows dtm = 3 /\ ncols dtm = 3 /\ dem_finite dtm /\
  forall fuel, fill64 fuel dtm = Timeout.
Proof.
  exists c05_dem. split; [reflexivity|]. split; [reflexivity|]. split.
  - intros [r c] H. unfold inside in H. cbn in H.
    assert (Hr : r = 0 \/ r = 1 \/ r = 2) by lia. assert (Hc : c = 0 \/ c = 1 \/ c = 2) by lia.
    destruct Hr as [->|[->| ->]], Hc as [->|[->| ->]]; vm_compute; reflexivity.
  - intros fuel. unfold fill64, fill_terrain.
    rewrite initialize_filled_ok by (cbn; lia). cbn [bind]. apply c05_loop.
    unfold c05_state, init_f. cbn [nrows ncols rget].
    repeat split; try (vm_compute; reflexivity). left. vm_compute. reflexivity.
Qed.

(** ** C06 *)
Definition zrows (l : list (list Z)) : raster b64 := of_rows f64_zero (map (map f64_ofZ) l).

Definition c06_dem : raster b64 :=
  zrows [[100;100;100;0];[100;100;0;100];[100;0;0;100];[100;100;100;100]].

(** Decide dem32 /\ dem_finite on a concrete raster. *)
Lemma SFcompare_same : forall x : b64, is_finite x = true -> Beqb (store32 x) x = true ->
  Bsign (store32 x) = Bsign x -> store32 x = x.
Proof.
  intros x Hx He Hs.
  assert (Gx : not_nan x) by (apply finite_not_nan; auto).
  assert (Gs : not_nan (store32 x)).
  { unfold not_nan. destruct (store32 x); auto. }
  rewrite Beqb_rank in He by auto. apply Z.eqb_eq in He.
  assert (Fs : is_finite (store32 x) = true).
  { apply rank_finite; auto. rewrite He. apply rank_finite_bound; auto. }
  apply B2R_Bsign_inj; auto. apply rank_eq_R; auto.
Qed.

Definition dem_ok_b (dtm : raster b64) : bool :=
  forallb (fun c => let x := at_ dtm c in
                    is_finite x && Beqb (store32 x) x && Bool.eqb (Bsign (store32 x)) (Bsign x)) (rcells dtm).

Lemma dem_ok : forall dtm, dem_ok_b dtm = true -> dem32 dtm /\ dem_finite dtm.
Proof.
  intros dtm H. unfold dem_ok_b in H. rewrite forallb_forall in H.
  assert (HH : forall c, inside (nrows dtm) (ncols dtm) c -> is_finite (at_ dtm c) = true /\ is_f32 (at_ dtm c)).
  { intros c Hc. specialize (H c (proj2 (in_cells_of _ _ c) Hc)). cbn zeta in H.
    apply andb_prop in H. destruct H as [H H3]. apply andb_prop in H. destruct H as [H1 H2].
    split; auto. apply SFcompare_same; auto. apply Bool.eqb_prop; auto. }
  split; intros c Hc; destruct (HH c Hc) as [H1 H2]; auto.
  split; auto. apply finite_not_nan; auto.
Qed.

Definition at_ok (r : res (raster b64)) (c : cell) : b64 :=
  match r with Ok f => at_ f c | _ => f64_zero end.
Definition is_ok {A} (r : res A) : bool := match r with Ok _ => true | _ => false end.

Lemma is_ok_ex : forall {A} (r : res A), is_ok r = true -> exists a, r = Ok a.
Proof. intros A [a|e|] H; try discriminate. eauto. Qed.

Lemma c06_refuted : exists dtm f g c, nrows dtm = 4 /\ ncols dtm = 4 /\ dem32 dtm /\ dem_finite dtm /\
  (exists k, forall fuel, (fuel >= k)%nat -> fill64 fuel dtm = Ok f) /\
  (exists k, forall fuel, (fuel >= k)%nat -> fill64_cy fuel dtm = Ok g) /\
  inside 4 4 c /\ eq64 (at_ f c) (f64_ofZ 0) /\ eq64 (at_ g c) (f64_ofZ 100).
Proof.
  destruct (dem_ok c06_dem) as [H32 Hfin]; [vm_compute; reflexivity|].
  destruct (fill64_run c06_dem) as (f & k & _ & _ & Hf); auto; try (cbn; lia).
  destruct (fill64_cy_run c06_dem) as (g & k' & _ & _ & Hg); auto; try (cbn; lia).
  exists c06_dem, f, g, (2, 2).
  split; [reflexivity|]. split; [reflexivity|]. split; [auto|]. split; [auto|].
  split; [eauto|]. split; [eauto|]. split; [unfold inside; cbn; lia|].
  destruct (is_ok_ex (fill64 20 c06_dem)) as [f1 E1]; [vm_compute; reflexivity|].
  destruct (is_ok_ex (fill64_cy 20 c06_dem)) as [g1 E2]; [vm_compute; reflexivity|].
  assert (V1 : Beqb (at_ok (fill64 20 c06_dem) (2, 2)) (f64_ofZ 0) = true) by (vm_compute; reflexivity).
  assert (V2 : Beqb (at_ok (fill64_cy 20 c06_dem) (2, 2)) (f64_ofZ 100) = true) by (vm_compute; reflexivity).
  rewrite E1 in V1. rewrite E2 in V2. cbn [at_ok] in V1, V2.
  unfold fill64, fill_terrain, fill64_cy, fill_terrain_cy in *.
  rewrite initialize_filled_ok in * by (cbn; lia).
  cbn [bind] in *.
  rewrite <- (loop_det _ _ _ _ _ _ E1 Hf), <- (loop_det _ _ _ _ _ _ E2 Hg). auto.
Qed.

Lemma safe_ok : forall dtm, 1 <= nrows dtm -> 1 <= ncols dtm ->
  exists short diag, minimum_safe_short_and_diag dtm = Ok (short, diag).
Proof.
  intros dtm Hr Hc. unfold minimum_safe_short_and_diag, np_amax, np_amin.
  assert (Hin : In (at_ dtm (0, 0)) (map (at_ dtm) (rcells dtm))).
  { apply in_map. apply in_cells_of. unfold inside. cbn. lia. }
  destruct (map (at_ dtm) (rcells dtm)) as [|x l]; [contradiction|]. cbn [bind]. eauto.
Qed.

(** Same for the no-flats variants with the increments malstroem uses. *)
Definition c06_nf_dem : raster b64 :=
  zrows [[0;100;100;100];[0;100;0;100];[0;0;100;100];[0;0;0;0]].

Lemma c06_nf_refuted : exists dtm short diag c, nrows dtm = 4 /\ ncols dtm = 4 /\ dem32 dtm /\ dem_finite dtm /\
  minimum_safe_short_and_diag dtm = Ok (short, diag) /\ inside 4 4 c /\
  exists f g, fill_nf64 short diag 20 dtm = Ok f /\ fill_nf64_cy short diag 20 dtm = Ok g /\
  lt64 (at_ f c) (f64_ofZ 1) /\ le64 (f64_ofZ 100) (at_ g c).
Proof.
  destruct (dem_ok c06_nf_dem) as [H32 Hfin]; [vm_compute; reflexivity|].
  destruct (safe_ok c06_nf_dem) as (short & diag & E); [cbn; lia | cbn; lia |].
  exists c06_nf_dem, short, diag, (1, 2).
  split; [reflexivity|]. split; [reflexivity|]. split; [auto|]. split; [auto|]. split; [auto|].
  split; [unfold inside; cbn; lia|].
  assert (V : match minimum_safe_short_and_diag c06_nf_dem with
              | Ok (s, d) => is_ok (fill_nf64 s d 20 c06_nf_dem) && is_ok (fill_nf64_cy s d 20 c06_nf_dem) &&
                             Bltb (at_ok (fill_nf64 s d 20 c06_nf_dem) (1, 2)) (f64_ofZ 1) &&
                             Bleb (f64_ofZ 100) (at_ok (fill_nf64_cy s d 20 c06_nf_dem) (1, 2))
              | _ => false end = true) by (vm_compute; reflexivity).
  rewrite E in V. apply andb_prop in V. destruct V as [V V4]. apply andb_prop in V. destruct V as [V V3].
  apply andb_prop in V. destruct V as [V1 V2].
  apply is_ok_ex in V1, V2. destruct V1 as [f Ef], V2 as [g Eg]. rewrite Ef in V3. rewrite Eg in V4.
  exists f, g. auto.
Qed.

Lemma cy_three : forall dtm fuel, nrows dtm = 3 -> 2 <= ncols dtm \/ ncols dtm = 3 -> (fuel > 0)%nat ->
  fill64_cy fuel dtm = Exc ValueError.
Proof.
  intros dtm fuel Hr Hc Hf. destruct fuel as [|fuel]; [lia|].
  unfold fill64_cy, fill_terrain_cy, initialize_filled. rewrite Hr.
  destruct (Z.leb_spec (ncols dtm) 0); [lia|]. cbn [Z.leb Z.compare orb bind fill_loop nrows ncols].
  unfold sweep_cy. change (3 - 2) with 1.
  destruct (Z.ltb_spec (ncols dtm - 2) 0); [lia|]. reflexivity.
Qed.

(** ** C07 *)
Lemma cy_total : forall dtm, 4 <= nrows dtm -> 4 <= ncols dtm -> dem32 dtm -> dem_finite dtm ->
  exists g k, (forall fuel, (fuel >= k)%nat -> fill64_cy fuel dtm = Ok g).
Proof.
  intros dtm Hr Hc Hd Hf. destruct (fill64_cy_run dtm) as (g & k & _ & _ & H); auto; try lia. eauto.
Qed.

Lemma cy_safe : forall dtm, 4 <= nrows dtm -> 4 <= ncols dtm -> dem32 dtm -> dem_finite dtm ->
  forall fuel g, fill64_cy fuel dtm = Ok g ->
  nrows g = nrows dtm /\ ncols g = ncols dtm /\ dem32 g /\ dem_finite g /\
  (forall c, inside (nrows dtm) (ncols dtm) c ->
     le64 (at_ dtm c) (at_ g c) /\ drains le64 (nrows dtm) (ncols dtm) (at_ g) c) /\
  (forall c, on_edge (nrows dtm) (ncols dtm) c -> at_ g c = at_ dtm c) /\
  (forall fuel' f, fill64 fuel' dtm = Ok f ->
     forall c, inside (nrows dtm) (ncols dtm) c -> le64 (at_ f c) (at_ g c)).
Proof.
  intros dtm Hr Hc Hd Hf fuel g H.
  assert (Hr2 : 2 <= nrows dtm) by lia. assert (Hc2 : 2 <= ncols dtm) by lia.
  destruct (fill64_cy_result dtm Hr2 Hc2 Hd Hr Hc Hf _ _ H) as [HS Hfin].
  pose proof HS as ((Er & Ec & HI & HE) & _ & HD & _).
  assert (Hg : forall c, inside (nrows dtm) (ncols dtm) c -> not_nan (at_ g c)) by (intros; apply HI; auto).
  split; [auto|]. split; [auto|]. split; [|split; [|split; [|split; [auto|]]]].
  - intros c Hin. rewrite Er, Ec in Hin. destruct (HI c Hin) as (G & S & _). auto.
  - intros c Hin. rewrite Er, Ec in Hin. destruct (HI c Hin) as (G & S & L). specialize (Hfin c Hin).
    apply rank_finite; auto. unfold f64_inf in Hfin. rewrite rank_pinf in Hfin.
    pose proof (rank_finite_bound _ (Hf c Hin)). lia.
  - intros c Hin. destruct (HI c Hin) as (G & S & L). split; [apply le64_rank; auto; apply Hd; auto|].
    apply drains_ext; auto.
  - intros fuel' f Hf' c Hin. apply le64_rank; auto.
    + destruct (fill64_basic dtm Hr2 Hc2 Hd _ _ Hf') as (Er' & Ec' & Df & _). apply Df. rewrite Er', Ec'; auto.
    + apply (cy_above_py dtm Hr2 Hc2 Hd Hr Hc Hf _ _ _ _ Hf' H); auto.
Qed.

(** ** C08 *)
Lemma nf_safe : forall dtm, 2 <= nrows dtm -> 2 <= ncols dtm <= 2 ^ 50 -> dem_finite dtm -> dem_max1000 dtm ->
  exists short diag f k, minimum_safe_short_and_diag dtm = Ok (short, diag) /\
  (forall fuel, (fuel >= k)%nat -> fill_nf64 short diag fuel dtm = Ok f) /\
  nrows f = nrows dtm /\ ncols f = ncols dtm /\ dem_finite f /\
  (forall c, inside (nrows dtm) (ncols dtm) c -> le64 (at_ dtm c) (at_ f c)) /\
  (forall c, interior (nrows dtm) (ncols dtm) c -> exists d, adjacent c d /\
     inside (nrows dtm) (ncols dtm) d /\ lt64 (at_ f d) (at_ f c)) /\
  (forall c, inside (nrows dtm) (ncols dtm) c -> drains_strictly (nrows dtm) (ncols dtm) lt64 (at_ f) c).
Proof.
  intros dtm Hr Hc Hf Hm. destruct (safe_ok dtm) as (short & diag & E); [lia | lia |].
  assert (Hc2 : 2 <= ncols dtm) by lia. assert (Hc50 : ncols dtm <= 2 ^ 50) by lia.
  destruct (safe_increments_ok dtm short diag Hf Hm E) as [Hs Hd].
  pose proof (Hdem64 dtm Hf) as H64.
  destruct (fill_nf64_run dtm short diag Hr Hc2 H64 Hs Hd) as (f & k & HS & HF & HL).
  exists short, diag, f, k. split; [auto|]. split; [auto|].
  destruct (nf_bounded dtm short diag Hc50 Hf Hm E f HS HF) as (j & Hj & Fs & Bs & Fd & Bd & Hb).
  pose proof HS as ((Er & Ec & HI & HE) & _).
  split; [auto|]. split; [auto|]. split; [|split; [|split]].
  - intros c Hin. rewrite Er, Ec in Hin. apply Hb; auto.
  - intros c Hin. destruct (HI c Hin) as (G & _ & L). apply le64_rank; auto.
  - intros c Hin. destruct (nf_lower_neighbour dtm short diag f _ HS j Hj Fs Bs Fd Bd Hb c Hin) as (d & Ha & Hdi & Hlt).
    exists d. split; [auto|]. split; [auto|].
    apply lt64_rank; auto; apply finite_not_nan; apply Hb; auto. apply interior_inside; auto.
  - intros c Hin. apply (nf_strict dtm short diag f _ HS j Hj Fs Bs Fd Bd Hb c Hin).
Qed.

Lemma nf_cy_safe : forall dtm, 4 <= nrows dtm <= 2 ^ 50 -> 4 <= ncols dtm -> dem_finite dtm -> dem_max1000 dtm ->
  exists short diag f k, minimum_safe_short_and_diag dtm = Ok (short, diag) /\
  (forall fuel, (fuel >= k)%nat -> fill_nf64_cy short diag fuel dtm = Ok f) /\
  nrows f = nrows dtm /\ ncols f = ncols dtm /\ dem_finite f /\
  (forall c, inside (nrows dtm) (ncols dtm) c -> le64 (at_ dtm c) (at_ f c)) /\
  (forall c, interior (nrows dtm) (ncols dtm) c -> exists d, adjacent c d /\
     inside (nrows dtm) (ncols dtm) d /\ lt64 (at_ f d) (at_ f c)) /\
  (forall c, inside (nrows dtm) (ncols dtm) c -> drains_strictly (nrows dtm) (ncols dtm) lt64 (at_ f) c).
Proof.
  intros dtm Hr Hc Hf Hm. destruct (safe_ok dtm) as (short & diag & E); [lia | lia |].
  destruct (nf_cy_run dtm short diag) as (f & j & HS & Hj & Fs & Bs & Fd & Bd & Hb & k & HL); auto; try lia.
  pose proof (Hdem64 dtm Hf) as H64.
  exists short, diag, f, k. split; [auto|]. split; [auto|].
  pose proof HS as ((Er & Ec & HI & HE) & _).
  split; [auto|]. split; [auto|]. split; [|split; [|split]].
  - intros c Hin. rewrite Er, Ec in Hin. apply Hb; auto.
  - intros c Hin. destruct (HI c Hin) as (G & _ & L). apply le64_rank; auto.
  - intros c Hin. destruct (nf_lower_neighbour dtm short diag f _ HS j Hj Fs Bs Fd Bd Hb c Hin) as (d & Ha & Hdi & Hlt).
    exists d. split; [auto|]. split; [auto|].
    apply lt64_rank; auto; apply finite_not_nan; apply Hb; auto. apply interior_inside; auto.
  - intros c Hin. apply (nf_strict dtm short diag f _ HS j Hj Fs Bs Fd Bd Hb c Hin).
Qed.

Lemma dem32_max1000 : forall dtm, dem32 dtm -> dem_finite dtm -> dem_max1000 dtm.
Proof. intros dtm H1 H2 c Hc. apply f32_small; [apply H1; auto | apply H2; auto]. Qed.

(** ** C09 *)
Lemma nonneg_rank : forall x, nonneg64 x -> finite64 x /\ 0 <= rank x.
Proof.
  intros x [Hf Hle]. split; auto. apply le64_rank in Hle; [exact Hle | reflexivity | apply finite_not_nan; auto].
Qed.

Lemma nf_total : forall dtm short diag, 2 <= nrows dtm -> 2 <= ncols dtm -> dem64 dtm ->
  nonneg64 short -> nonneg64 diag ->
  exists f k, forall fuel, (fuel >= k)%nat -> fill_nf64 short diag fuel dtm = Ok f.
Proof.
  intros dtm short diag Hr Hc Hd Hs Hg. apply nonneg_rank in Hs, Hg.
  destruct (fill_nf64_run dtm short diag Hr Hc Hd Hs Hg) as (f & k & _ & _ & H). eauto.
Qed.

Lemma nf_cheapest : forall dtm short diag, 2 <= nrows dtm -> 2 <= ncols dtm -> dem64 dtm ->
  nonneg64 short -> nonneg64 diag ->
  forall fuel f, fill_nf64 short diag fuel dtm = Ok f ->
  nrows f = nrows dtm /\ ncols f = ncols dtm /\ dem64 f /\
  forall c, inside (nrows dtm) (ncols dtm) c ->
  le64 (at_ dtm c) (at_ f c) /\
  (on_edge (nrows dtm) (ncols dtm) c -> at_ f c = at_ dtm c) /\
  (exists v, route_cost (nrows dtm) (ncols dtm) (pymax F64Ops) (raise_by short diag) (at_ dtm) c v /\ eq64 v (at_ f c)) /\
  (forall v, route_cost (nrows dtm) (ncols dtm) (pymax F64Ops) (raise_by short diag) (at_ dtm) c v -> le64 (at_ f c) v).
Proof.
  intros dtm short diag Hr Hc Hd Hs Hg fuel f H. apply nonneg_rank in Hs, Hg.
  destruct (fill_nf64_result dtm short diag Hr Hc Hd Hs Hg _ _ H) as [HS HF].
  pose proof HS as ((Er & Ec & HI & HE) & _).
  split; [auto|]. split; [auto|]. split.
  { intros c Hin. rewrite Er, Ec in Hin. apply HI; auto. }
  intros c Hin. destruct (HI c Hin) as (G & _ & L).
  split; [apply le64_rank; auto|]. split; [auto|]. split.
  - destruct (nf_attained dtm short diag Hd Hs Hg f HS HF c Hin) as (v & Hv & Ev). exists v. split; auto.
    destruct (nf_min dtm short diag Hd Hs Hg f HS HF c v Hv) as [Gv _]. apply eq64_rank; auto.
  - intros v Hv. destruct (nf_min dtm short diag Hd Hs Hg f HS HF c v Hv) as [Gv Hle]. apply le64_rank; auto.
Qed.

Lemma nf_drains_surface : forall dtm short diag, 2 <= nrows dtm -> 2 <= ncols dtm -> dem64 dtm ->
  nonneg64 short -> nonneg64 diag ->
  forall fuel f, fill_nf64 short diag fuel dtm = Ok f ->
  forall c, inside (nrows dtm) (ncols dtm) c -> drains le64 (nrows dtm) (ncols dtm) (at_ f) c.
Proof.
  intros dtm short diag Hr Hc Hd Hs Hg fuel f H c Hin. apply nonneg_rank in Hs, Hg.
  destruct (fill_nf64_result dtm short diag Hr Hc Hd Hs Hg _ _ H) as [((Er & Ec & HI & HE) & _ & HD & _) HF].
  apply drains_ext; [intros; apply HI; auto | apply HD; auto].
Qed.

Lemma nf_above_fill : forall dtm short diag, 2 <= nrows dtm -> 2 <= ncols dtm -> dem32 dtm ->
  nonneg64 short -> nonneg64 diag ->
  forall fuel f fuel' g, fill64 fuel dtm = Ok f -> fill_nf64 short diag fuel' dtm = Ok g ->
  forall c, inside (nrows dtm) (ncols dtm) c -> le64 (at_ f c) (at_ g c).
Proof.
  intros dtm short diag Hr Hc Hd Hs Hg fuel f fuel' g H H' c Hin.
  assert (Hd64 : dem64 dtm) by (intros e He; apply Hd; auto).
  destruct (nf_cheapest dtm short diag Hr Hc Hd64 Hs Hg _ _ H') as (Er & Ec & Dg & Hc').
  apply (fill64_least dtm Hr Hc Hd _ _ H (at_ g)); auto.
  - intros e He. split; [apply Dg; rewrite Er, Ec; auto | apply Hc'; auto].
  - intros e He. apply (nf_drains_surface dtm short diag Hr Hc Hd64 Hs Hg _ _ H'); auto.
Qed.

Lemma add_zero_rank : forall x, not_nan x -> rank (f64_add x f64_zero) = rank x.
Proof.
  intros x Hx. destruct x as [s|s| |s m e H]; try reflexivity.
  destruct s; reflexivity.
Qed.

Lemma nf_zero : forall dtm, 2 <= nrows dtm -> 2 <= ncols dtm -> dem32 dtm ->
  forall fuel f fuel' g, fill64 fuel dtm = Ok f -> fill_nf64 f64_zero f64_zero fuel' dtm = Ok g ->
  forall c, inside (nrows dtm) (ncols dtm) c -> eq64 (at_ f c) (at_ g c).
Proof.
  intros dtm Hr Hc Hd fuel f fuel' g H H' c Hin.
  assert (Hd64 : dem64 dtm) by (intros e He; apply Hd; auto).
  assert (H0 : nonneg64 f64_zero) by (split; reflexivity).
  assert (H0r : finite64 f64_zero /\ 0 <= rank f64_zero) by (apply nonneg_rank; auto).
  destruct (fill64_basic dtm Hr Hc Hd _ _ H) as (Erf & Ecf & Df & _).
  destruct (nf_cheapest dtm _ _ Hr Hc Hd64 H0 H0 _ _ H') as (Er & Ec & Dg & Hc').
  assert (Gf : forall e, inside (nrows dtm) (ncols dtm) e -> not_nan (at_ f e)).
  { intros e He. apply Df. rewrite Erf, Ecf; auto. }
  assert (Gg : forall e, inside (nrows dtm) (ncols dtm) e -> not_nan (at_ g e)).
  { intros e He. apply Dg. rewrite Er, Ec; auto. }
  apply rank_le_eq; auto.
  - apply (nf_above_fill dtm _ _ Hr Hc Hd H0 H0 _ _ _ _ H H'); auto.
  - destruct (fill64_result dtm Hr Hc Hd _ _ H) as [(HI & HB & _) HF].
    destruct (fill_nf64_result dtm _ _ Hr Hc Hd64 H0r H0r _ _ H') as [HS' HF'].
    apply le64_rank; auto.
    (* escapes at level f c *)
    assert (He : escapes le64 (nrows dtm) (ncols dtm) (at_ dtm) (at_ f c) c).
    { apply (fill64_level dtm Hr Hc Hd _ _ H); auto. apply le64_rank; auto; lia. }
    remember (at_ f c) as L eqn:EL. assert (GL : not_nan L) by (subst; auto). clear EL.
    clear Hin. induction He as [e He Hle | e d He Hle Ha Hs IH].
    + destruct (Hc' e (edge_inside _ _ _ He)) as (_ & Heq & _). rewrite Heq by auto.
      apply le64_rank in Hle; auto. apply Hd64. apply edge_inside; auto.
    + apply le64_rank in Hle; auto.
      destruct (inside_cases _ _ _ He) as [Hee|Hei].
      * destruct (Hc' e He) as (_ & Heq & _). rewrite Heq by auto. auto.
      * specialize (HF' e Hei d Ha). unfold raise_by in HF'.
        rewrite Tauto.if_same in HF'.
        rewrite add_zero_rank in HF'; [lia|]. apply Gg. apply (adjacent_inside _ _ _ _ Hei Ha).
Qed.

(** ** Concrete rasters for the examples *)

(** A pit of depth 3 and 4 behind a rim of 5, pour level 2 at the lower edge. *)
Definition ex_dem : raster b64 :=
  zrows [[9;9;9;9;9];[9;5;5;5;9];[9;5;1;5;9];[9;5;0;5;9];[9;9;2;9;9]].
Definition ex_dem' : raster b64 :=
  zrows [[9;9;9;9;9];[9;5;5;5;9];[9;5;1;5;9];[9;5;0;5;9];[9;9;4;9;9]].

Lemma ex_dem_ok : dem32 ex_dem /\ dem_finite ex_dem.
Proof. apply dem_ok. vm_compute. reflexivity. Qed.
Lemma ex_dem'_ok : dem32 ex_dem' /\ dem_finite ex_dem'.
Proof. apply dem_ok. vm_compute. reflexivity. Qed.

Definition value_is (r : res (raster b64)) (c : cell) (z : Z) : bool :=
  match r with Ok f => Beqb (at_ f c) (f64_ofZ z) | _ => false end.

Definition leb_cells (a b : raster b64) : bool :=
  forallb (fun c => Bleb (at_ a c) (at_ b c)) (rcells a).
Lemma leb_cells_ok : forall a b, leb_cells a b = true ->
  forall c, inside (nrows a) (ncols a) c -> le64 (at_ a c) (at_ b c).
Proof.
  intros a b H c Hc. unfold leb_cells in H. rewrite forallb_forall in H. apply H. apply in_cells_of. auto.
Qed.
