(** * C43-C46, C58, C59: approximate water levels and extents

    water_level QOps, approx_bluespots QOps: approx.py in exact arithmetic;
    F64Ops: in rounded arithmetic.  volume_at area zs L: the water over cells at
    elevations zs when the level is L. *)

From Coq Require Import QArith.
From Verif Require Import Base Num Float64 FillSpec LabelModel LabelSpec BluespotSpec HypsModel HypsSpec HypsThms
  LabelThms ApproxModel ApproxSpec ApproxThms.
Local Open Scope Z_scope.

(** ** C43: between bottom and spill level, full, empty, monotone *)

Theorem C43_water_level : forall (lab : raster Z) (dem : raster Q) resolution n pinf ninf st l h cs area spill max_depth max_vol,
  same_shape dem lab -> numbered lab n -> largest_label lab n -> (0 < resolution)%Q ->
  (forall c, inside (nrows lab) (ncols lab) c -> (ninf < at_ dem c < pinf)%Q) ->
  bluespot_hypsometry_stats QOps Q_int pinf ninf lab dem resolution None 0 = Ok st ->
  1 <= l <= n -> nth_error st (Z.to_nat l) = Some (l, h) -> lists_cells (has_label lab l) cs ->
  (forall c, In c cs -> (0 <= at_ dem c <= spill)%Q) -> (0 < area)%Q ->
  (max_depth == spill - z_min h)%Q -> (max_vol == volume_at area (map (at_ dem) cs) spill)%Q ->
  (forall v, exists L, water_level QOps h area max_depth max_vol v = Ok L /\ (z_min h <= L <= spill)%Q /\
     (max_vol <= v -> L == spill)%Q /\ (v <= 0 -> L == z_min h)%Q) /\
  (forall v v' L L', (v <= v')%Q -> water_level QOps h area max_depth max_vol v = Ok L ->
     water_level QOps h area max_depth max_vol v' = Ok L' -> (L <= L')%Q).
Proof. exact water_level_sane. Qed.
Print Assumptions C43_water_level.

Example C43_example : exists st h, same_shape hy_dem hy_lab /\ numbered hy_lab 2 /\ largest_label hy_lab 2 /\
  bluespot_hypsometry_stats QOps Q_int 1000%Q (-1000)%Q hy_lab hy_dem (1#4)%Q None 0 = Ok st /\
  nth_error st 1 = Some (1, h) /\ lists_cells (has_label hy_lab 1) hy_cells /\
  (forall c, In c hy_cells -> (0 <= at_ hy_dem c <= 2)%Q) /\
  (volume_at 1 (map (at_ hy_dem) hy_cells) 2 == 7#4)%Q /\
  exists L, water_level QOps h 1%Q (3#2)%Q (7#4)%Q (1#2)%Q = Ok L /\ (L == 9#8)%Q.
Proof. exact ex_level. Qed.

(** ** C44: within two bins of the exact level *)

Theorem C44_two_bins : forall (lab : raster Z) (dem : raster Q) resolution n pinf ninf st l h cs area spill max_depth max_vol v,
  same_shape dem lab -> numbered lab n -> largest_label lab n -> (0 < resolution)%Q ->
  (forall c, inside (nrows lab) (ncols lab) c -> (ninf < at_ dem c < pinf)%Q) ->
  bluespot_hypsometry_stats QOps Q_int pinf ninf lab dem resolution None 0 = Ok st ->
  1 <= l <= n -> nth_error st (Z.to_nat l) = Some (l, h) -> lists_cells (has_label lab l) cs ->
  (forall c, In c cs -> (0 <= at_ dem c <= spill)%Q) -> (0 < area)%Q ->
  (max_depth == spill - z_min h)%Q -> (max_vol == volume_at area (map (at_ dem) cs) spill)%Q ->
  (0 <= v <= (9999 # 10000) * max_vol)%Q ->
  (v <= volume_at area (map (at_ dem) cs) (b_upper (h_bins (z_hist h)) - 2 * resolution) \/
   exists x, nth_error (cumulative_volume QOps (z_hist h) area) (Z.to_nat (b_num (h_bins (z_hist h)) - 2)) = Some x /\ v <= x)%Q ->
  exists L E, water_level QOps h area max_depth max_vol v = Ok L /\
    (z_min h <= E)%Q /\ (volume_at area (map (at_ dem) cs) E == v)%Q /\
    (L - E <= 2 * resolution /\ E - L <= 2 * resolution)%Q.
Proof. exact level_two_bins. Qed.
Print Assumptions C44_two_bins.

(** The exact level of C44 exists for every volume and is unique. *)
Theorem C44_exact_level : forall area zs v, (0 < area)%Q -> zs <> [] -> (0 <= v)%Q -> exists E, (volume_at area zs E == v)%Q.
Proof. exact exact_level. Qed.
Print Assumptions C44_exact_level.

Theorem C44_exact_level_unique : forall area zs zmin E E', (0 < area)%Q -> In zmin zs -> (zmin <= E)%Q -> (zmin <= E')%Q ->
  (volume_at area zs E == volume_at area zs E')%Q -> (E == E')%Q.
Proof. exact exact_level_unique. Qed.
Print Assumptions C44_exact_level_unique.

(** The bluespot of C43_example, volume 1/2: approximate level 9/8, exact level 1. *)
Example C44_example : exists st h,
  bluespot_hypsometry_stats QOps Q_int 1000%Q (-1000)%Q hy_lab hy_dem (1#4)%Q None 0 = Ok st /\
  nth_error st 1 = Some (1, h) /\
  (0 <= 1#2 <= (9999 # 10000) * (7#4))%Q /\
  (1#2 <= volume_at 1 (map (at_ hy_dem) hy_cells) (b_upper (h_bins (z_hist h)) - 2 * (1#4)))%Q /\
  (volume_at 1 (map (at_ hy_dem) hy_cells) 1 == 1#2)%Q.
Proof. exact ex_two_bins. Qed.

(** ** C58
    Full statement: within two bins of the exact level for every volume.  Refuted: above the
    highest cell the interpolation runs to zmax instead of the spill level. *)

Theorem C58_two_bins_refuted : exists (lab : raster Z) (dem : raster Q) st h cs L,
  same_shape dem lab /\ numbered lab 1 /\ largest_label lab 1 /\
  bluespot_hypsometry_stats QOps Q_int 1000%Q (-1000)%Q lab dem 1%Q None 0 = Ok st /\
  nth_error st 1 = Some (1, h) /\ lists_cells (has_label lab 1) cs /\
  (forall c, In c cs -> (0 <= at_ dem c <= 100)%Q) /\
  water_level QOps h 1%Q (100 - z_min h)%Q (volume_at 1 (map (at_ dem) cs) 100) 99%Q = Ok L /\
  (99 <= (9999 # 10000) * volume_at 1 (map (at_ dem) cs) 100)%Q /\
  (volume_at 1 (map (at_ dem) cs) 99 == 99)%Q /\ (L == 0)%Q.
Proof. exact two_bins_refuted. Qed.
Print Assumptions C58_two_bins_refuted.

(** ** C59: each pour point gets the level of its own bluespot *)

Theorem C59_levels_sound : forall {T} (ops : NumOps T) finalvols hfs out, NoDup (map hi_bspot hfs) ->
  approx_water_level_io ops finalvols hfs = Ok out ->
  map (fun o => (lf_bspot o, lf_v o)) out = map (fun f => (ff_bspot f, ff_v f)) (filter ff_pourpoint finalvols) /\
  forall o, In o out -> exists i h, In i hfs /\ hi_bspot i = lf_bspot o /\ hyps_from_flatdict (hi_dict i) = Ok h /\
    water_level ops h (hi_cell_area i) (hi_max_depth i) (hi_max_vol i) (lf_v o) = Ok (lf_z o) /\
    lf_dmax o = nsub ops (lf_z o) (z_min h).
Proof. exact (@levels_io_sound). Qed.
Print Assumptions C59_levels_sound.

(** The level of every parsed histogram can be computed, with any arithmetic. *)
Theorem C59_levels_total : forall {T} (ops : NumOps T) finalvols hfs,
  (forall f, In f finalvols -> ff_pourpoint f = true -> In (ff_bspot f) (map hi_bspot hfs)) ->
  (forall i, In i hfs -> exists h, hyps_from_flatdict (hi_dict i) = Ok h /\
     Z.of_nat (List.length (h_counts (z_hist h))) = b_num (h_bins (z_hist h))) ->
  NoDup (map hi_bspot hfs) ->
  exists out, approx_water_level_io ops finalvols hfs = Ok out.
Proof. exact @levels_io_total. Qed.
Print Assumptions C59_levels_total.

Example C59_example : exists h zs, hypsometry_of zs 1 h /\ bluespot_attributes zs 1 5 h 5 5 /\
  let i := mkHI 1 (hyps_to_flatdict h) 1%Q 5%Q 5%Q in
  hyps_from_flatdict (hi_dict i) = Ok h /\ Z.of_nat (List.length (h_counts (z_hist h))) = b_num (h_bins (z_hist h)) /\
  NoDup (map hi_bspot [i]) /\
  exists o, approx_water_level_io QOps [mkFF true 1 5%Q; mkFF false 1 0%Q] [i] = Ok [o] /\
    lf_bspot o = 1 /\ (lf_z o == 5)%Q /\ (lf_dmax o == 5)%Q.
Proof. exact ex_levels_io. Qed.

(** ** C45: depths and extents *)

Theorem C45_depths_extents : forall (lab : raster Z) levels (dem : raster Q) background lab' depths,
  (forall c, inside (nrows lab) (ncols lab) c -> 0 <= at_ lab c) -> NoDup (map fst levels) ->
  approx_bluespots QOps lab levels dem background = Ok (lab', depths) ->
  same_shape dem lab /\ same_shape lab' lab /\ same_shape depths lab /\
  forall c, inside (nrows lab) (ncols lab) c ->
    (at_ lab c = background -> at_ lab' c = background /\ (-999 <= at_ dem c -> at_ depths c == 0)%Q) /\
    (at_ lab c <> background -> exists z, In (at_ lab c, z) levels /\
       (z < at_ dem c -> at_ depths c == 0)%Q /\ ((z < at_ dem c)%Q -> at_ lab' c = background) /\
       (at_ dem c <= z -> at_ depths c == z - at_ dem c)%Q /\ ((at_ dem c <= z)%Q -> at_ lab' c = at_ lab c)).
Proof. exact approx_exact. Qed.
Print Assumptions C45_depths_extents.

(** Rounded arithmetic: the same, with the rounded difference as depth. *)
Theorem C45_depths_extents_float : forall (lab : raster Z) levels (dem : raster b64) background lab' depths,
  (forall c, inside (nrows lab) (ncols lab) c -> 0 <= at_ lab c) -> NoDup (map fst levels) ->
  (forall c, inside (nrows lab) (ncols lab) c -> finite64 (at_ dem c)) -> (forall l z, In (l, z) levels -> finite64 z) ->
  approx_bluespots F64Ops lab levels dem background = Ok (lab', depths) ->
  same_shape dem lab /\ same_shape lab' lab /\ same_shape depths lab /\
  forall c, inside (nrows lab) (ncols lab) c ->
    (at_ lab c = background -> at_ lab' c = background /\ (le64 (f64_ofZ (-999)) (at_ dem c) -> eq64 (at_ depths c) f64_zero)) /\
    (at_ lab c <> background -> exists z, In (at_ lab c, z) levels /\
       (lt64 z (at_ dem c) -> at_ depths c = f64_zero /\ at_ lab' c = background) /\
       (le64 (at_ dem c) z -> at_ depths c = f64_sub z (at_ dem c) /\ le64 f64_zero (at_ depths c) /\ at_ lab' c = at_ lab c)).
Proof. exact approx_float. Qed.
Print Assumptions C45_depths_extents_float.

(** It succeeds when every label up to the largest has a level. *)
Theorem C45_total : forall {T} (ops : NumOps T) (lab : raster Z) levels (dem : raster T) background n,
  same_shape dem lab -> 0 <= n -> In n (map fst levels) -> (forall k, In k (map fst levels) -> k <= n) ->
  (forall k, 0 <= k <= n -> k <> background -> In k (map fst levels)) -> labels_in lab n ->
  exists r, approx_bluespots ops lab levels dem background = Ok r.
Proof. exact (@approx_total). Qed.
Print Assumptions C45_total.

(** approx_bluespots_io writes the same, or fails when there is nothing to write to. *)
Theorem C45_io : forall {T} (ops : NumOps T) (lab : raster Z) (levels : list (bool * Z * T)) (dem : raster T)
    w_depths w_labels background,
  let d := map (fun x => (snd (fst x), snd x)) (filter (fun x => fst (fst x)) levels) in
  NoDup (map fst d) -> w_depths = true \/ w_labels = true ->
  approx_bluespots_io ops lab levels dem w_depths w_labels background =
  match approx_bluespots ops lab d dem background with
  | Ok (lab', depths) => Ok (if w_depths then Some depths else None, if w_labels then Some lab' else None)
  | Exc e => Exc e
  | Timeout => Timeout
  end.
Proof. exact (@approx_io_agrees). Qed.
Print Assumptions C45_io.

Example C45_example : labels_in hy_lab 2 /\ NoDup (map fst [(1, 1%Q); (2, 3%Q)]) /\
  match approx_bluespots QOps hy_lab [(1, 1%Q); (2, 3%Q)] hy_dem 0 with
  | Ok (lab', depths) => to_rows lab' = [[1; 0; 0; 2]] /\ (at_ depths (0, 0)%Z == 1#2)%Q /\ (at_ depths (0, 1)%Z == 0)%Q
  | _ => False
  end.
Proof.
  split; [apply hy_lab_ok|]. split; [repeat constructor; cbn; lia|]. vm_compute. auto.
Qed.

(** ** C46
    Full statement: depth 0 on every background cell.  Holds where the terrain is not below
    -999 (C45_depths_extents); otherwise: *)

Theorem C46_background_depth_refuted : exists (lab : raster Z) (dem : raster Q) levels lab' depths,
  labels_in lab 1 /\ NoDup (map fst levels) /\ approx_bluespots QOps lab levels dem 0 = Ok (lab', depths) /\
  at_ lab (0, 0) = 0 /\ (at_ depths (0, 0)%Z == 1)%Q.
Proof. exact background_depth_refuted. Qed.
Print Assumptions C46_background_depth_refuted.

Theorem C46_background_depth_partial : forall (lab : raster Z) levels (dem : raster b64) background lab' depths,
  (forall c, inside (nrows lab) (ncols lab) c -> 0 <= at_ lab c) -> NoDup (map fst levels) ->
  (forall c, inside (nrows lab) (ncols lab) c -> finite64 (at_ dem c) /\ le64 (f64_ofZ (-999)) (at_ dem c)) ->
  (forall l z, In (l, z) levels -> finite64 z) ->
  approx_bluespots F64Ops lab levels dem background = Ok (lab', depths) ->
  forall c, inside (nrows lab) (ncols lab) c -> at_ lab c = background -> eq64 (at_ depths c) f64_zero.
Proof. exact background_depth. Qed.
Print Assumptions C46_background_depth_partial.

Example C46_example : le64 (f64_ofZ (-999)) (f64_ofZ 3) /\
  match approx_bluespots F64Ops (of_rows 0 [[0; 1]]) [(1, f64_ofZ 5)] (of_rows f64_zero [[f64_ofZ 3; f64_ofZ 2]]) 0 with
  | Ok (lab', depths) => eq64 (at_ depths (0, 0)) f64_zero /\ eq64 (at_ depths (0, 1)) (f64_ofZ 3)
  | _ => False
  end.
Proof. vm_compute. auto. Qed.
