(** * Example data for the complete command in floats *)

From Coq Require Import QArith Qabs Qpower Lqa Lia.
From Flocq Require Import IEEE754.BinarySingleNaN.
From Verif Require Import Base BaseProofs Num Float64 FillSpec FillThms DemModel DemProofs LabelModel LabelSpec CompSpec CompProofs VectorModel
  BluespotModel BluespotThms PipelineModel NetworkModel NetworkFloatThms RainThms HypsModel ApproxModel FloatPipeModel OverflowSpec
  FloatFinishModel FloatFinishSpec HypsSpec.
Local Open Scope Z_scope.

(** ** A check for [sane_inputs] *)
Definition at_mostb (e : positive) (x : b64) : bool := Qle_bool (Qabs (b64_Q x)) (inject_Z (2 ^ Zpos e)).
Definition at_leastb (e : positive) (x : b64) : bool := Qle_bool (1 # 2 ^ e) (Qabs (b64_Q x)).

Definition saneb (t : geotransform b64) (dem : raster b64) (mm zresolution : b64) : bool :=
  (nrows dem * ncols dem <? 2 ^ 53) && forallb (fun c => at_mostb 126 (at_ dem c)) (rcells dem) &&
  forallb (fun c => Qle_bool (Qabs (b64_Q (at_ dem c))) (inject_Z (2 ^ 40) * b64_Q zresolution)) (rcells dem) &&
  square_cells (gt1 t) (gt5 t) && is_finite (gt1 t) && is_finite (gt5 t) && (at_mostb 100 (gt1 t) && at_leastb 100 (gt1 t)) &&
  (at_mostb 100 (gt5 t) && at_leastb 100 (gt5 t)) &&
  (is_finite zresolution && Bleb f64_zero zresolution && (at_mostb 100 zresolution && at_leastb 100 zresolution)) &&
  (is_finite mm && Bleb f64_zero mm && at_mostb 300 mm).

Lemma saneb_ok : forall t dem mm w, saneb t dem mm w = true -> sane_inputs t dem mm w.
Proof.
  intros t dem mm w H. unfold saneb in H. repeat (apply andb_prop in H; destruct H as [H ?]).
  repeat match goal with X : _ && _ = true |- _ => apply andb_prop in X; destruct X end.
  apply Z.ltb_lt in H.
  constructor; auto; try (split; [|split]); try (split; assumption); try (split; apply Qle_bool_iff; assumption); try (apply Qle_bool_iff; assumption).
  - intros c Hc. apply Qle_bool_iff. rewrite forallb_forall in *. match goal with X : forall x, In x _ -> at_mostb _ _ = true |- _ => apply X end. apply in_cells_of. exact Hc.
  - intros c Hc. apply Qle_bool_iff. rewrite forallb_forall in *. match goal with X : forall x, In x _ -> Qle_bool _ (_ * _) = true |- _ => apply X end. apply in_cells_of. exact Hc.
  - split; [split; assumption|]. apply Qle_bool_iff. assumption.
Qed.

(** ** A small terrain in decimetres, held as float32 metres *)
Definition dm_gt : geotransform b64 := mkGT f64_zero (f64_ofZ 1) f64_zero f64_zero f64_zero (f64_ofZ (-1)).
Definition dm_dem : raster b64 :=
  of_rows f64_zero (map (map (fun x => store32 (tenth x))) [[12;12;12;12;12];[12;7;9;10;12];[12;12;12;12;12];[12;12;12;12;12]]).

(** Half a cell's rain: bluespot 1 is partly filled. *)
Definition partly_filled (o : complete64_out) : bool :=
  (bo_nlabels (c64_bluespots o) =? 1) &&
  existsb (fun v => (lf_bspot v =? 1) && Bltb f64_zero (lf_v v) && Bltb (at_ dm_dem (1, 1)) (lf_z v) && Bltb (lf_z v) (at_ dm_dem (1, 3)))
    (ff_levels (c64_finish o)).

Lemma dm_sane : forall k, k = 20 \/ k = 0 -> sane_inputs dm_gt dm_dem (f64_ofZ k) (tenth 1).
Proof. intros k [-> | ->]; apply saneb_ok; vm_compute; reflexivity. Qed.

Lemma dm_ok : labels_components cc_memo /\ size_ok false dm_dem /\ dem32 dm_dem /\ dem_finite dm_dem.
Proof.
  destruct (dem_ok dm_dem) as [A B]; [vm_compute; reflexivity|]. split; [apply cc_memo_ok|]. split; [|split; [exact A|exact B]].
  cbn. lia.
Qed.

Lemma dm_partly : exists o, complete_all64 false cc_memo 60 dm_gt dm_dem all_pass true (f64_ofZ 20) (tenth 1) = Ok o /\ partly_filled o = true.
Proof. apply on_ok_ex. vm_compute. reflexivity. Qed.

(** No rain at all: bluespot 1 holds nothing, yet cell (1, 1) gets more than 4 cm of water. *)
Definition wet_without_rain (o : complete64_out) : bool :=
  (at_ (bo_labeled (c64_bluespots o)) (1, 1) =? 1) &&
  existsb (fun v => (lf_bspot v =? 1) && Beqb (lf_v v) f64_zero) (ff_levels (c64_finish o)) &&
  Bltb (f64_div (f64_ofZ 4) (f64_ofZ 100)) (at_ (ff_depths (c64_finish o)) (1, 1)).

Lemma dm_wet : exists o, complete_all64 false cc_memo 60 dm_gt dm_dem all_pass true (f64_ofZ 0) (tenth 1) = Ok o /\ wet_without_rain o = true.
Proof. apply on_ok_ex. vm_compute. reflexivity. Qed.

Theorem dry_refuted : exists cc t dem f (use_accum : bool) mm zresolution fuel o v c,
  labels_components cc /\ size_ok false dem /\ dem32 dem /\ dem_finite dem /\ sane_inputs t dem mm zresolution /\
  complete_all64 false cc fuel t dem f use_accum mm zresolution = Ok o /\
  In v (ff_levels (c64_finish o)) /\ lf_bspot v = 1 /\ eq64 (lf_v v) f64_zero /\ at_ (bo_labeled (c64_bluespots o)) c = 1 /\
  lt64 (f64_div (f64_ofZ 4) (f64_ofZ 100)) (at_ (ff_depths (c64_finish o)) c).
Proof.
  destruct dm_ok as (A & B & C & D). destruct dm_wet as (o & E & W).
  unfold wet_without_rain in W. apply andb_prop in W. destruct W as [W W3]. apply andb_prop in W. destruct W as [W1 W2].
  apply existsb_exists in W2. destruct W2 as (v & Hv & W2). apply andb_prop in W2. destruct W2 as [W2 W4].
  exists cc_memo, dm_gt, dm_dem, all_pass, true, (f64_ofZ 0), (tenth 1), 60%nat, o, v, (1, 1).
  split; [exact A|]. split; [exact B|]. split; [exact C|]. split; [exact D|]. split; [apply dm_sane; right; reflexivity|].
  split; [exact E|]. split; [exact Hv|]. split; [apply Z.eqb_eq; exact W2|]. split; [exact W4|]. split; [apply Z.eqb_eq; exact W1|exact W3].
Qed.

(** ** The cells of one bluespot *)
Definition spot_cells (o : complete64_out) (l : Z) : list cell :=
  filter (fun c => at_ (bo_labeled (c64_bluespots o)) c =? l) (rcells (bo_labeled (c64_bluespots o))).

(** The statistics of bluespot 1 cover its three cells, none below zero, in more than one bin. *)
Definition three_counted (dem : raster b64) (o : complete64_out) : bool :=
  forallb (fun c => Bleb f64_zero (at_ dem c)) (spot_cells o 1) && (Z.of_nat (length (spot_cells o 1)) =? 3) &&
  existsb (fun i => (hi_bspot i =? 1) && match hyps_from_flatdict (hi_dict i) with
    | Ok h => (zsum (h_counts (z_hist h)) =? 3) && (1 <? Z.of_nat (length (h_counts (z_hist h))))
    | _ => false end) (ff_hyps (c64_finish o)).

Lemma dm_counted : exists o, complete_all64 false cc_memo 60 dm_gt dm_dem all_pass true (f64_ofZ 20) (tenth 1) = Ok o /\ three_counted dm_dem o = true.
Proof. apply on_ok_ex. vm_compute. reflexivity. Qed.

(** Bluespot 1 has three cells, none below zero, the lowest being (1, 1), and no water. *)
Definition no_water (dem : raster b64) (o : complete64_out) : bool :=
  forallb (fun c => Bleb f64_zero (at_ dem c) && Bleb (at_ dem (1, 1)) (at_ dem c)) (spot_cells o 1) && (Z.of_nat (length (spot_cells o 1)) =? 3) &&
  (at_ (bo_labeled (c64_bluespots o)) (1, 1) =? 1) &&
  existsb (fun v => (lf_bspot v =? 1) && Beqb (lf_v v) f64_zero) (ff_levels (c64_finish o)).

(** A resolution of an eighth of a metre. *)
Definition eighth : b64 := f64_div (f64_ofZ 1) (f64_ofZ 8).
Lemma dm_eighth : sane_inputs dm_gt dm_dem (f64_ofZ 0) eighth /\ (b64_Q eighth == Qpower 2 (-3))%Q /\
  (forall c, inside (nrows dm_dem) (ncols dm_dem) c -> (b64_Q (at_ dm_dem c) <= inject_Z (2 ^ 23) * b64_Q eighth)%Q) /\
  exists o, complete_all64 false cc_memo 60 dm_gt dm_dem all_pass true (f64_ofZ 0) eighth = Ok o /\ no_water dm_dem o = true.
Proof.
  split; [apply saneb_ok; vm_compute; reflexivity|]. split; [vm_compute; reflexivity|]. split.
  - assert (B : forallb (fun c => Qle_bool (b64_Q (at_ dm_dem c)) (inject_Z (2 ^ 23) * b64_Q eighth)) (rcells dm_dem) = true) by (vm_compute; reflexivity).
    intros c Hc. apply Qle_bool_iff. rewrite forallb_forall in B. apply B. apply in_cells_of. exact Hc.
  - apply on_ok_ex. vm_compute. reflexivity.
Qed.

(** The lowest cell half way between two multiples of 0.1 m. *)
Definition mid_dem : raster b64 :=
  of_rows f64_zero (map (map (fun x => store32 (f64_div (f64_ofZ x) (f64_ofZ 20)))) [[24;24;24;24;24];[24;15;18;20;24];[24;24;24;24;24];[24;24;24;24;24]]).

Lemma between_off : forall w z m, (0 < w)%Q -> (inject_Z m * w * (1 + (1 # 2 ^ 22)) < z)%Q -> (z < inject_Z (m + 1) * w * (1 - (1 # 2 ^ 22)))%Q -> 0 <= m ->
  forall k, 1 <= k -> ((1 # 2 ^ 22) * (inject_Z k * w) < Qabs (z - inject_Z k * w))%Q.
Proof.
  change (2 ^ 22)%positive with 4194304%positive. intros w z m W A B M k K. apply Qabs_case; intros S; destruct (Z.le_gt_cases k m) as [H|H].
  - assert (inject_Z k * w <= inject_Z m * w)%Q by (apply Qmult_le_compat_r; [rewrite <- Zle_Qle; exact H|apply Qlt_le_weak; exact W]). lra.
  - assert (inject_Z (m + 1) * w <= inject_Z k * w)%Q by (apply Qmult_le_compat_r; [rewrite <- Zle_Qle; lia|apply Qlt_le_weak; exact W]).
    assert (0 < inject_Z k * w)%Q by (apply Qmult_lt_0_compat; [change 0%Q with (inject_Z 0); rewrite <- Zlt_Qlt; lia|exact W]). lra.
  - assert (inject_Z k * w <= inject_Z m * w)%Q by (apply Qmult_le_compat_r; [rewrite <- Zle_Qle; exact H|apply Qlt_le_weak; exact W]).
    assert (0 < inject_Z k * w)%Q by (apply Qmult_lt_0_compat; [change 0%Q with (inject_Z 0); rewrite <- Zlt_Qlt; lia|exact W]). lra.
  - assert (inject_Z (m + 1) * w <= inject_Z k * w)%Q by (apply Qmult_le_compat_r; [rewrite <- Zle_Qle; lia|apply Qlt_le_weak; exact W]). lra.
Qed.

Lemma mid_off : forall k, 1 <= k -> ((1 # 2 ^ 22) * (inject_Z k * b64_Q (tenth 1)) < Qabs (b64_Q (at_ mid_dem (1, 1)%Z) - inject_Z k * b64_Q (tenth 1)))%Q.
Proof. apply (between_off _ _ 7); try (vm_compute; reflexivity). lia. Qed.

Lemma mid_ok : size_ok false mid_dem /\ dem32 mid_dem /\ dem_finite mid_dem /\ sane_inputs dm_gt mid_dem (f64_ofZ 0) (tenth 1) /\
  exists o, complete_all64 false cc_memo 60 dm_gt mid_dem all_pass true (f64_ofZ 0) (tenth 1) = Ok o /\ no_water mid_dem o = true.
Proof.
  destruct (dem_ok mid_dem) as [A B]; [vm_compute; reflexivity|]. split; [cbn; lia|]. split; [exact A|]. split; [exact B|].
  split; [apply saneb_ok; vm_compute; reflexivity|]. apply on_ok_ex. vm_compute. reflexivity.
Qed.

Lemma dm_above : exists o, complete_all64 false cc_memo 60 dm_gt dm_dem all_pass true (f64_ofZ 20) (tenth 1) = Ok o /\ three_counted dm_dem o && partly_filled o = true.
Proof. apply on_ok_ex. vm_compute. reflexivity. Qed.
