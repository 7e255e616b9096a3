(** * Inputs the floats of the complete command can handle *)

From Coq Require Import QArith Qabs.
From Verif Require Import Base Float64 VectorModel BluespotModel FillSpec DemModel NetworkSpec PipelineModel OverflowSpec LabelSpec.
Local Open Scope Z_scope.

(** At least 2^-e in size. *)
Definition at_least (e : positive) (x : b64) : Prop := (1 # 2 ^ e <= Qabs (b64_Q x))%Q.

(** Fewer than 2^53 cells; cells and resolution between 2^-100 and 2^100; elevations of at most 2^126 and at most
    2^40 times the resolution; rain of at most 2^300 mm. *)
Record sane_inputs (t : geotransform b64) (dem : raster b64) (mm zresolution : b64) : Prop := mkSane {
  si_cells : nrows dem * ncols dem < 2 ^ 53;
  si_elev : forall c, inside (nrows dem) (ncols dem) c -> at_most 126 (at_ dem c);
  si_steps : forall c, inside (nrows dem) (ncols dem) c ->
    (Qabs (b64_Q (at_ dem c)) <= inject_Z (2 ^ 40) * b64_Q zresolution)%Q;
  si_square : square_cells (gt1 t) (gt5 t) = true;
  si_fin1 : finite64 (gt1 t);
  si_fin5 : finite64 (gt5 t);
  si_size1 : at_most 100 (gt1 t) /\ at_least 100 (gt1 t);
  si_size5 : at_most 100 (gt5 t) /\ at_least 100 (gt5 t);
  si_res : nonneg64 zresolution /\ at_most 100 zresolution /\ at_least 100 zresolution;
  si_rain : nonneg64 mm /\ at_most 300 mm
}.

(** Bin j counts the cells from edge j up to, but not including, edge j + 1; the last bin includes it. *)
Definition counted_between (dem : raster b64) (P : cell -> Prop) (counts : list Z) (edge : Z -> b64) : Prop :=
  forall j x, nth_error counts j = Some x -> exists ds,
    lists_cells (fun c => P c /\ le64 (edge (Z.of_nat j)) (at_ dem c) /\
      (S j = length counts \/ lt64 (at_ dem c) (edge (Z.of_nat j + 1)%Z))) ds /\ x = Z.of_nat (length ds).
