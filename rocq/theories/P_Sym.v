(** * C98: turned and mirrored terrains, converted elevations *)

From Flocq Require Import IEEE754.BinarySingleNaN.
From Verif Require Import Base BaseProofs Num Float64 FillModel FillSpec FillThms FlowModel FlowSpec DemModel LabelModel CompSpec CompProofs VectorModel BluespotModel BluespotSpec BluespotThms
  RainThms SymSpec SymProofs SymThms SymChain SymRuns.

(** Filling a terrain turned or mirrored by s gives the filled terrain, turned likewise. *)
Theorem C98_fill_turned : forall s dem dem', turned s dem dem' -> 2 <= nrows dem -> 2 <= ncols dem -> dem32 dem -> dem32 dem' ->
  forall fuel f fuel' f', fill64 fuel dem = Ok f -> fill64 fuel' dem' = Ok f' -> turned s f f'.
Proof. exact fill_turned. Qed.
Print Assumptions C98_fill_turned.

(** So does filling without flats. *)
Theorem C98_no_flats_turned : forall short diag s dem dem', turned s dem dem' -> 2 <= nrows dem -> 2 <= ncols dem -> nonneg64 short -> nonneg64 diag ->
  dem64 dem -> dem64 dem' -> forall fuel f fuel' f', fill_nf64 short diag fuel dem = Ok f -> fill_nf64 short diag fuel' dem' = Ok f' -> turned s f f'.
Proof. exact nf_turned. Qed.
Print Assumptions C98_no_flats_turned.

(** Filling and a conversion of the elevations that keeps their order (other units, rounding)
    can be exchanged. *)
Theorem C98_fill_converted : forall (g : b64 -> b64) dem dem', same_shape dem dem' -> 2 <= nrows dem -> 2 <= ncols dem -> dem32 dem -> dem32 dem' ->
  (forall x, inside (nrows dem) (ncols dem) x -> at_ dem' x = g (at_ dem x)) -> (forall a b, le64 a b -> le64 (g a) (g b)) ->
  forall fuel f fuel' f', fill64 fuel dem = Ok f -> fill64 fuel' dem' = Ok f' ->
  forall x, inside (nrows dem) (ncols dem) x -> eq64 (at_ f' x) (g (at_ f x)).
Proof. exact fill_mapped. Qed.
Print Assumptions C98_fill_converted.

(** Depths and bluespots turn with the terrain.  Directions, accumulated flow and watersheds do
    when every inner cell of the surface has one steepest way down. *)
Theorem C98_chain_turned_partial : forall cc, labels_components cc -> forall s dem dem', turned s dem dem' -> 2 <= nrows dem <= 2 ^ 50 -> 2 <= ncols dem <= 2 ^ 50 ->
  dem32 dem -> dem32 dem' -> dem_finite dem -> dem_finite dem' ->
  forall f t t', reads_no_sum f -> cell_area F64Ops t = cell_area F64Ops t' ->
  forall fuel d out fuel' d' out' (u u' : bool),
  dem_process false fuel (gt1 t) (gt5 t) dem = Ok d -> dem_process false fuel' (gt1 t') (gt5 t') dem' = Ok d' ->
  bluespot_process false cc fuel t (do_depths d) (do_flowdir d) (Some f) (if u then Some (accum64 (do_accum d)) else None) (Some dem) = Ok out ->
  bluespot_process false cc fuel' t' (do_depths d') (do_flowdir d') (Some f) (if u' then Some (accum64 (do_accum d')) else None) (Some dem') = Ok out' ->
  turned s (do_filled d) (do_filled d') /\ turned s (do_depths d) (do_depths d') /\
  same_areas s (bo_labeled out) (bo_labeled out') /\ bo_nlabels out = bo_nlabels out' /\
  ((forall short diag nf c, minimum_safe_short_and_diag dem = Ok (short, diag) -> fill_nf64 short diag fuel dem = Ok nf -> interior (nrows nf) (ncols nf) c ->
      exists n, only_steepest (fun x => f64_div x f64_sqrt2) nf c n) ->
   (forall a b, flows (do_flowdir d) a b <-> flows (do_flowdir d') (s a) (s b)) /\
   (forall c, inside (nrows dem) (ncols dem) c -> at_ (do_accum d') (s c) = at_ (do_accum d) c) /\
   same_areas s (bo_watersheds out) (bo_watersheds out')).
Proof. exact chain_turned. Qed.
Print Assumptions C98_chain_turned_partial.

(** With ties the first direction wins: directions and watersheds of a terrain that is its own
    mirror image are not. *)
Theorem C98_ties_refuted : exists cc s dem t f fuel d out, labels_components cc /\ turned s dem dem /\ dem32 dem /\ dem_finite dem /\ reads_no_sum f /\
  dem_process false fuel (gt1 t) (gt5 t) dem = Ok d /\
  bluespot_process false cc fuel t (do_depths d) (do_flowdir d) (Some f) None (Some dem) = Ok out /\
  ~ same_areas s (bo_watersheds out) (bo_watersheds out) /\
  exists a b, flows (do_flowdir d) a b /\ ~ flows (do_flowdir d) (s a) (s b).
Proof. exact ties_refuted. Qed.
Print Assumptions C98_ties_refuted.

(** The compiled filling depends on which way the terrain is turned. *)
Theorem C98_compiled_refuted : exists s dem dem' f f' c, turned s dem dem' /\ 4 <= nrows dem /\ 4 <= ncols dem /\ dem32 dem /\ dem32 dem' /\ dem_finite dem /\ dem_finite dem' /\
  fill64_cy 20 dem = Ok f /\ fill64_cy 20 dem' = Ok f' /\ inside (nrows dem) (ncols dem) c /\ eq64 (at_ f c) (f64_ofZ 100) /\ eq64 (at_ f' (s c)) (f64_ofZ 0).
Proof. exact compiled_turned_refuted. Qed.
Print Assumptions C98_compiled_refuted.

(** A terrain with a bluespot and its transpose; no ties. *)
Example C98_example : turned (fun x => (snd x, fst x)) plain_dem plain_turned /\ dem32 plain_dem /\ dem32 plain_turned /\ dem_finite plain_dem /\ dem_finite plain_turned /\
  reads_no_sum all_pass /\ labels_components cc_memo /\
  on_ok (fun o => bo_nlabels o =? 1) (chain false true (Some all_pass) plain_dem) = true /\
  on_ok (fun o => (bo_nlabels o =? 1) && (at_ (bo_watersheds o) (2, 1) =? 1)) (chain false true (Some all_pass) plain_turned) = true /\
  on_ok (fun nf => forallb (one_best nf) [(1, 1); (1, 2)])
    (sd <- minimum_safe_short_and_diag plain_dem ;; fill_nf64 (fst sd) (snd sd) 20 plain_dem) = true.
Proof.
  destruct (dem_ok plain_dem) as [A B]; [vm_compute; reflexivity|]. destruct (dem_ok plain_turned) as [A' B']; [vm_compute; reflexivity|].
  split; [apply turned_by; [exact (sy_swap 3 4)|vm_compute; reflexivity]|]. repeat (split; [assumption|]). split; [intros p q _ _ _ _; reflexivity|].
  split; [apply cc_memo_ok|]. split; [vm_compute; reflexivity|]. split; vm_compute; reflexivity.
Qed.

(** Raising everything below 4 to 4, before or after filling. *)
Example C98_converted : (forall a b, le64 a b -> le64 (at_least_4 a) (at_least_4 b)) /\
  dem32 plain_dem /\ dem32 (zrows [[9;9;9;9]; [5;4;8;9]; [9;9;9;9]]) /\
  forallb (fun c => Beqb (at_ (zrows [[9;9;9;9]; [5;4;8;9]; [9;9;9;9]]) c) (at_least_4 (at_ plain_dem c))) (rcells plain_dem) = true /\
  value_is (fill64 20 (zrows [[9;9;9;9]; [5;4;8;9]; [9;9;9;9]])) (1, 1) 5 = true /\ value_is (fill64 20 plain_dem) (1, 1) 5 = true.
Proof.
  split; [exact at_least_mono|].
  split; [apply dem_ok; vm_compute; reflexivity|]. split; [apply dem_ok; vm_compute; reflexivity|]. split; [vm_compute; reflexivity|]. split; vm_compute; reflexivity.
Qed.
