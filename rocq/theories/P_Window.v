(** * C107: part of a terrain, processed by itself

    [window r0 c0 dem w]: w is the part of dem that starts at row r0, column c0; [moved r0 c0 c]: its cell c in dem. *)

From Flocq Require Import IEEE754.BinarySingleNaN.
From Verif Require Import Base Num Float64 FillModel FillSpec FillThms DemModel DemProofs FlowModel BluespotSpec WindowSpec WindowThms WindowFlow.

(** A part is filled no higher than the whole, and just as high exactly when the whole has no water on the edge of the part. *)
Theorem C107_fill : forall r0 c0 dem w, window r0 c0 dem w -> 2 <= nrows w -> 2 <= ncols w -> dem32 dem ->
  forall fuel fuel' f g, fill64 fuel dem = Ok f -> fill64 fuel' w = Ok g ->
  (forall c, inside (nrows w) (ncols w) c -> le64 (at_ g c) (at_ f (moved r0 c0 c))) /\
  ((forall c, inside (nrows w) (ncols w) c -> eq64 (at_ g c) (at_ f (moved r0 c0 c))) <->
   (forall c, on_edge (nrows w) (ncols w) c -> eq64 (at_ f (moved r0 c0 c)) (at_ dem (moved r0 c0 c)))).
Proof. exact window_fill. Qed.
Print Assumptions C107_fill.

(** The same without flats, for the same increments. *)
Theorem C107_no_flats : forall r0 c0 dem w, window r0 c0 dem w -> 2 <= nrows w -> 2 <= ncols w ->
  forall short diag, nonneg64 short -> nonneg64 diag -> dem64 dem ->
  forall fuel fuel' f g, fill_nf64 short diag fuel dem = Ok f -> fill_nf64 short diag fuel' w = Ok g ->
  (forall c, inside (nrows w) (ncols w) c -> le64 (at_ g c) (at_ f (moved r0 c0 c))) /\
  ((forall c, inside (nrows w) (ncols w) c -> eq64 (at_ g c) (at_ f (moved r0 c0 c))) <->
   (forall c, on_edge (nrows w) (ncols w) c -> eq64 (at_ f (moved r0 c0 c)) (at_ dem (moved r0 c0 c)))).
Proof. exact window_nf. Qed.
Print Assumptions C107_no_flats.

(** When that is so, the directions inside the part are those of the whole. *)
Theorem C107_directions : forall r0 c0 dem w, window r0 c0 dem w -> 2 <= nrows w -> 2 <= ncols w ->
  forall short diag, nonneg64 short -> nonneg64 diag -> dem64 dem ->
  forall fuel fuel' f g, fill_nf64 short diag fuel dem = Ok f -> fill_nf64 short diag fuel' w = Ok g ->
  (forall c, on_edge (nrows w) (ncols w) c -> eq64 (at_ f (moved r0 c0 c)) (at_ dem (moved r0 c0 c))) ->
  forall edges edges' fd gd, flowdir64 f edges = Ok fd -> flowdir64 g edges' = Ok gd ->
  forall c, interior (nrows w) (ncols w) c -> at_ gd c = at_ fd (moved r0 c0 c).
Proof. exact window_directions. Qed.
Print Assumptions C107_directions.

Example C107_directions_example : nonneg64 dir_short /\ nonneg64 dir_diag /\ window 0 3 tile_dem whole_tile /\ dem64 tile_dem /\ dir_edge = true /\
  dir_row tile_dem 4 [2; 3] = true /\ dir_row whole_tile 1 [2; 3] = true.
Proof. exact dir_tiles. Qed.

(** The DEM tool on the part: depths are no larger, bluespots lie in bluespots of the whole, and the depths agree exactly when no
    cell on the edge of the part is under water in the whole. *)
Theorem C107_depths : forall r0 c0 dem w, window r0 c0 dem w -> 2 <= nrows w -> 2 <= ncols w ->
  dem32 dem -> dem_finite dem -> ncols dem <= 2 ^ 50 ->
  forall fuel fuel' t1 t5 t1' t5' out out', dem_process false fuel t1 t5 dem = Ok out -> dem_process false fuel' t1' t5' w = Ok out' ->
  (forall c, inside (nrows w) (ncols w) c -> le64 (at_ (do_depths out') c) (at_ (do_depths out) (moved r0 c0 c))) /\
  (forall c d, bluespot (do_depths out') c d -> bluespot (do_depths out) (moved r0 c0 c) (moved r0 c0 d)) /\
  ((forall c, inside (nrows w) (ncols w) c -> eq64 (at_ (do_depths out') c) (at_ (do_depths out) (moved r0 c0 c))) <->
   (forall c, on_edge (nrows w) (ncols w) c -> eq64 (at_ (do_depths out) (moved r0 c0 c)) f64_zero)).
Proof. exact depths_window. Qed.
Print Assumptions C107_depths.

(** Two parts of a terrain with two bluespots: one cuts the first bluespot, which is then dry; the other has the second one whole. *)
Example C107_example : window 0 1 tile_dem cut_tile /\ window 0 3 tile_dem whole_tile /\ dem32 tile_dem /\ dem_finite tile_dem /\
  tile_run tile_dem [0;6;5;0;2;1;0] = true /\ tile_run cut_tile [0;0;0;0] = true /\ tile_run whole_tile [0;2;1;0] = true.
Proof. exact tiles. Qed.

(** Not with the compiled functions: a part may be filled higher than the whole. *)
Theorem C107_compiled_refuted : exists r0 c0 dem w fuel f g c, window r0 c0 dem w /\ dem32 dem /\ dem_finite dem /\ size_ok true dem /\ size_ok true w /\
  fill64_cy fuel dem = Ok f /\ fill64_cy fuel w = Ok g /\ inside (nrows w) (ncols w) c /\ lt64 (at_ f (moved r0 c0 c)) (at_ g c).
Proof. exact window_compiled. Qed.
Print Assumptions C107_compiled_refuted.
