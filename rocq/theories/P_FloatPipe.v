(** * C82: the complete command in floating point *)

From Coq Require Import QArith Qabs.
From Flocq Require Import IEEE754.BinarySingleNaN.
From Verif Require Import Base Num Float64 FillModel FillSpec DemModel DemProofs LabelSpec CompSpec CompProofs VectorModel BluespotModel
  NetworkModel NetworkSpec NetworkThms NetworkFloatSpec NetworkFloatThms RainModel RainThms PipelineModel FloatPipeModel FloatPipeSpec RoundSpec RoundEx FloatPipeThms OverflowSpec OverflowThms FloatPipeEx.
Local Open Scope Z_scope.

(** The complete command computed with floats throughout finishes and gives the nodes of the complete command in
    exact arithmetic.  Unless something overflows, every initial volume is right up to six roundings and every
    capacity up to one rounding per cell of the terrain; held and lost water differ from the rain by at most the
    stated bound; and the volume and spill of a node differ from the exact ones by at most what the nodes that
    reach it contribute. *)
Theorem C82_complete_accuracy : forall cc, labels_components cc ->
  forall sp t dem f (use_accum : bool) mm,
  size_ok sp dem -> dem32 dem -> dem_finite dem -> nrows dem * ncols dem <= 2 ^ 53 ->
  square_cells (gt1 t) (gt5 t) = true -> ordinary (gt1 t) -> ordinary (gt5 t) -> ordinary mm -> le64 f64_zero mm ->
  exists k, forall fuel, (fuel >= k)%nat -> exists o oq,
  complete64 sp cc fuel t dem f use_accum mm = Ok o /\ complete sp cc fuel t dem f use_accum (b64_Q mm) = Ok oq /\
  Forall2 same_feature (fo_nodes o) (co_nodes oq) /\
  (no_overflow o ->
   Forall2 (close (nrows dem * ncols dem)) (fo_nodes o) (co_nodes oq) /\
   (let rain := inject_Z (nrows dem * ncols dem) * area_Q (gt1 t) (gt5 t) * (b64_Q mm / 1000) in
    Qabs (Qsum (map (written e_vol) (fo_final o)) + Qsum (map (written e_spill) (filter (fun p => is_root (fst p)) (fo_final o))) - rain)
    <= ((1 + (1 # 2 ^ 53)) ^ 6 - 1) * rain +
       (1 # 2 ^ 52) * Qsum (map (fun p => fan_in (map fst (fo_final o)) (fst p) * (written e_vol p + written e_spill p)) (fo_final o)))%Q /\
   Forall2 same_place (map fst (fo_final o)) (map fst (co_final oq)) /\
   forall x, In x (combine (fo_final o) (co_final oq)) -> exists us, NoDup us /\
    (forall y, In y us <-> In y (combine (fo_final o) (co_final oq)) /\ reaches (map fst (fo_final o)) (both_id y) (both_id x)) /\
    (Qabs (written e_vol (fst x) - out_vol (snd x)) <= Qsum (map (node_error (map fst (fo_final o))) us))%Q /\
    (Qabs (written e_spill (fst x) - out_spill (snd x)) <= Qsum (map (node_error (map fst (fo_final o))) us))%Q).
Proof. exact complete64_close. Qed.
Print Assumptions C82_complete_accuracy.

(** Not exactly: 10.1 mm of rain on 18 cells of 0.7 m by 0.7 m. *)
Theorem C82_balance_exact_refuted : exists cc t dem f (use_accum : bool) mm o,
  labels_components cc /\ size_ok false dem /\ dem32 dem /\ dem_finite dem /\ nrows dem * ncols dem <= 2 ^ 53 /\
  square_cells (gt1 t) (gt5 t) = true /\ ordinary (gt1 t) /\ ordinary (gt5 t) /\ ordinary mm /\ le64 f64_zero mm /\
  complete64 false cc 25 t dem f use_accum mm = Ok o /\ no_overflow o /\
  ~ (Qsum (map (written e_vol) (fo_final o)) + Qsum (map (written e_spill) (filter (fun p => is_root (fst p)) (fo_final o))) ==
     inject_Z (nrows dem * ncols dem) * area_Q (gt1 t) (gt5 t) * (b64_Q mm / 1000))%Q.
Proof.
  destruct fp_run as (o & E & N & _ & X). exists cc_memo, acc_gt, rain_dem, all_pass, true, fp_mm, o.
  split; [apply cc_memo_ok|]. split; [cbn; lia|]. split; [apply rain_dem_ok|]. split; [apply rain_dem_ok|].
  split; [cbn; lia|]. split; [vm_compute; reflexivity|]. split; [apply acc_gt_ok|]. split; [apply acc_gt_ok|].
  split; [apply ordinary_ok; vm_compute; reflexivity|]. split; [vm_compute; reflexivity|].
  split; [exact E|]. split; [exact N|exact X].
Qed.
Print Assumptions C82_balance_exact_refuted.

Example C82_example : labels_components cc_memo /\ size_ok false rain_dem /\ dem32 rain_dem /\ dem_finite rain_dem /\
  nrows rain_dem * ncols rain_dem <= 2 ^ 53 /\ square_cells (gt1 acc_gt) (gt5 acc_gt) = true /\
  ordinary (gt1 acc_gt) /\ ordinary (gt5 acc_gt) /\ ordinary fp_mm /\ le64 f64_zero fp_mm /\
  exists o, complete64 false cc_memo 25 acc_gt rain_dem all_pass true fp_mm = Ok o /\ no_overflow o /\ length (fo_nodes o) = 3%nat.
Proof.
  split; [apply cc_memo_ok|]. split; [cbn; lia|]. split; [apply rain_dem_ok|]. split; [apply rain_dem_ok|].
  split; [cbn; lia|]. split; [vm_compute; reflexivity|]. split; [apply acc_gt_ok|]. split; [apply acc_gt_ok|].
  split; [apply ordinary_ok; vm_compute; reflexivity|]. split; [vm_compute; reflexivity|].
  destruct fp_run as (o & E & N & L & _). exists o. split; [exact E|]. split; [exact N|exact L].
Qed.

(** And nothing overflows on terrains up to 2^126 m high or low, with cells up to 2^300 m and up to 2^300 mm of rain. *)
Theorem C82_no_overflow : forall cc, labels_components cc ->
  forall sp t dem f (use_accum : bool) mm,
  size_ok sp dem -> dem32 dem -> dem_finite dem -> nrows dem * ncols dem < 2 ^ 53 ->
  (forall c, inside (nrows dem) (ncols dem) c -> at_most 126 (at_ dem c)) ->
  square_cells (gt1 t) (gt5 t) = true -> finite64 (gt1 t) -> finite64 (gt5 t) -> at_most 300 (gt1 t) -> at_most 300 (gt5 t) ->
  nonneg64 mm -> at_most 300 mm ->
  exists k, forall fuel, (fuel >= k)%nat -> exists o,
  complete64 sp cc fuel t dem f use_accum mm = Ok o /\ no_overflow o.
Proof. exact complete64_no_overflow. Qed.
Print Assumptions C82_no_overflow.

Example C82_ordinary_example : dem32 rain_dem /\ dem_finite rain_dem /\ size_ok false rain_dem /\ nrows rain_dem * ncols rain_dem < 2 ^ 53 /\
  (forall c, inside (nrows rain_dem) (ncols rain_dem) c -> at_most 126 (at_ rain_dem c)) /\
  square_cells (gt1 acc_gt) (gt5 acc_gt) = true /\ finite64 (gt1 acc_gt) /\ finite64 (gt5 acc_gt) /\
  at_most 300 (gt1 acc_gt) /\ at_most 300 (gt5 acc_gt) /\ nonneg64 fp_mm /\ at_most 300 fp_mm.
Proof.
  split; [apply rain_dem_ok|]. split; [apply rain_dem_ok|]. split; [cbn; lia|]. split; [cbn; lia|].
  split; [apply rain_dem_small|]. split; [vm_compute; reflexivity|]. split; [vm_compute; reflexivity|]. split; [vm_compute; reflexivity|].
  split; [vm_compute; discriminate|]. split; [vm_compute; discriminate|]. split; [split; vm_compute; reflexivity|vm_compute; discriminate].
Qed.

(** ** C34, C36, C37, C81 without a hypothesis on the result: spills that cannot overflow *)
Theorem C34_no_overflow : forall (fs : list (@node b64)) fuel out, unique_ids fs -> acyclic_closed fs ->
  (forall n, In n fs -> nonneg64 (n_water n) /\ nonneg64 (n_cap n) /\ at_most 970 (n_water n)) ->
  wet_nodes fs <= 2 ^ 53 ->
  process F64Ops fuel fs = Ok out -> forall n e, In (n, Some e) out -> finite64 (e_spill e).
Proof. exact spills_finite'. Qed.
Print Assumptions C34_no_overflow.

(** A bound is needed: two nodes with 2^1023 m3 each. *)
Theorem C34_overflow_refuted : exists (fs : list (@node b64)) fuel out n e, unique_ids fs /\ acyclic_closed fs /\
  (forall n, In n fs -> nonneg64 (n_water n) /\ nonneg64 (n_cap n)) /\
  process F64Ops fuel fs = Ok out /\ In (n, Some e) out /\ ~ finite64 (e_spill e).
Proof.
  destruct flood_overflows as (out & n & e & X). exists flood, 5%nat, out, n, e.
  split; [apply ids_ok_ok; reflexivity|]. split; [apply acyclic_ok; reflexivity|]. split; [apply flood_ok|exact X].
Qed.
Print Assumptions C34_overflow_refuted.

Example C34_no_overflow_example : unique_ids tenths /\ acyclic_closed tenths /\
  (forall n, In n tenths -> nonneg64 (n_water n) /\ nonneg64 (n_cap n) /\ at_most 970 (n_water n)) /\ wet_nodes tenths <= 2 ^ 53.
Proof.
  split; [apply ids_ok_ok; reflexivity|]. split; [apply acyclic_ok; reflexivity|]. split; [|vm_compute; discriminate].
  intros n Hn. destruct (tenths_ok n (or_introl Hn)) as [A B]. split; [exact A|]. split; [exact B|apply tenths_small; exact Hn].
Qed.
