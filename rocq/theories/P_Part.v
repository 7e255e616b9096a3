(** * C108: accumulated flow and watersheds on part of a raster

    [flow_part r0 c0 f g]: g has the directions of part of f, starting at row r0, column c0, with its edge flowing outward;
    [moved r0 c0 c]: cell c of the part in the whole. *)

From Flocq Require Import IEEE754.BinarySingleNaN.
From Verif Require Import Base Num Float64 FillModel FillSpec FillThms FlowModel FlowSpec WindowSpec PartSpec FlowThms CutFlow.

(** Cutting directions out and letting the edge flow outward gives such a part, *)
Theorem C108_cut : forall r0 c0 f w g, window r0 c0 f w -> 1 <= nrows w -> 1 <= ncols w -> set_edges_flow_outward w = Ok g -> flow_part r0 c0 f g.
Proof. exact cut_facts. Qed.
Print Assumptions C108_cut.

(** and so does processing part of the terrain by itself, when the whole is dry on the edge of the part. *)
Theorem C108_dry_edge : forall r0 c0 dem w, window r0 c0 dem w -> 2 <= nrows w -> 2 <= ncols w ->
  forall short diag, nonneg64 short -> nonneg64 diag -> dem64 dem ->
  forall fuel fuel' f g, fill_nf64 short diag fuel dem = Ok f -> fill_nf64 short diag fuel' w = Ok g ->
  (forall c, on_edge (nrows w) (ncols w) c -> eq64 (at_ f (moved r0 c0 c)) (at_ dem (moved r0 c0 c))) ->
  forall edges fd gd, flowdir64 f edges = Ok fd -> flowdir64 g true = Ok gd -> flow_part r0 c0 fd gd.
Proof. exact dry_part. Qed.
Print Assumptions C108_dry_edge.

(** The part drains; flow accumulates to no more than in the whole, and to as much exactly where only cells from inside the part
    flow through. *)
Theorem C108_accum : forall r0 c0 f g, flow_part r0 c0 f g -> fully_draining f ->
  fully_draining g /\
  forall (sp sp' : bool) fuel fuel' a b, (if sp then accumulated_flow_cy else accumulated_flow) fuel f = Ok a -> (if sp' then accumulated_flow_cy else accumulated_flow) fuel' g = Ok b ->
  forall c, inside (nrows g) (ncols g) c -> at_ b c <= at_ a (moved r0 c0 c) /\
    (at_ b c = at_ a (moved r0 c0 c) <->
     forall d, passes f d (moved r0 c0 c) -> d = moved r0 c0 c \/ exists e, interior (nrows g) (ncols g) e /\ d = moved r0 c0 e).
Proof. exact cut_accum. Qed.
Print Assumptions C108_accum.

(** A cell is in the watershed it has in the whole, or in none; in none only if its flow reaches the edge of the part outside the bluespots. *)
Theorem C108_watersheds : forall r0 c0 f g lab lw un, flow_part r0 c0 f g -> fully_draining f ->
  same_shape f lab -> window r0 c0 lab lw -> same_shape g lw -> 1 <= nrows g -> 1 <= ncols g ->
  forall fuel fuel' ws wp, watersheds_from_labels fuel f lab un = Ok ws -> watersheds_from_labels fuel' g lw un = Ok wp ->
  forall c, inside (nrows g) (ncols g) c ->
    at_ wp c = at_ ws (moved r0 c0 c) \/
    (at_ wp c = un /\ exists e, on_edge (nrows g) (ncols g) e /\ at_ lab (moved r0 c0 e) = un /\ passes f (moved r0 c0 c) (moved r0 c0 e)).
Proof. exact cut_watersheds. Qed.
Print Assumptions C108_watersheds.

(** A part whose edge cuts the stream into a bluespot. *)
Example C108_example : window 0 0 ex_flow part_flow /\ window 0 0 ex_labels part_labels /\
  exists g a b ws wp, set_edges_flow_outward part_flow = Ok g /\ accumulated_flow 16 ex_flow = Ok a /\ accumulated_flow 16 g = Ok b /\
    watersheds_from_labels 16 ex_flow ex_labels 0 = Ok ws /\ watersheds_from_labels 16 g part_labels 0 = Ok wp /\
    (at_ a (1, 1), at_ b (1, 1), at_ a (2, 1), at_ b (2, 1)) = (4, 1, 1, 1) /\ (at_ ws (2, 1), at_ wp (2, 1), at_ ws (1, 1), at_ wp (1, 1)) = (5, 0, 5, 5).
Proof. exact ex_part. Qed.
