(** * C105: rain given as a raster adds up *)

From Coq Require Import QArith Qabs Lia List Bool.
From Verif Require Import Base Num Float64 LabelModel LabelSpec LabelThms VectorModel BluespotThms NetworkSpec RainModel RainThms AddThms.
Import ListNotations.
Local Open Scope Z_scope.

(** The volumes for a weighted sum of two rasters are the weighted sums of their volumes. *)
Theorem C105_rain_adds : forall t lab (w1 w2 w3 : raster Q) u nodes n a b,
  same_shape lab w1 -> same_shape lab w2 -> same_shape lab w3 ->
  labels_in lab n -> largest_label lab n -> 1 <= nrows lab -> 1 <= ncols lab ->
  (forall nd, In nd nodes -> 0 <= nf_id nd) ->
  (forall c, inside (nrows lab) (ncols lab) c -> at_ w3 c == a * at_ w1 c + b * at_ w2 c)%Q ->
  exists r1 r2 r3, raster_volumes QOps 0%Q 0%Q t lab w1 u nodes = Ok r1 /\ raster_volumes QOps 0%Q 0%Q t lab w2 u nodes = Ok r2 /\
    raster_volumes QOps 0%Q 0%Q t lab w3 u nodes = Ok r3 /\ map fst r1 = nodes /\ map fst r2 = nodes /\ map fst r3 = nodes /\
    forall nd v1 v2 v3, In (nd, v1) r1 -> In (nd, v2) r2 -> In (nd, v3) r3 -> (v3 == a * v1 + b * v2)%Q.
Proof. exact rain_adds. Qed.
Print Assumptions C105_rain_adds.

(** More rain on every cell: no node gets less. *)
Theorem C105_more_rain : forall t lab (w1 w2 : raster Q) u nodes n,
  same_shape lab w1 -> same_shape lab w2 ->
  labels_in lab n -> largest_label lab n -> 1 <= nrows lab -> 1 <= ncols lab ->
  (forall nd, In nd nodes -> 0 <= nf_id nd) ->
  (forall c, inside (nrows lab) (ncols lab) c -> at_ w1 c <= at_ w2 c)%Q ->
  exists r1 r2, raster_volumes QOps 0%Q 0%Q t lab w1 u nodes = Ok r1 /\ raster_volumes QOps 0%Q 0%Q t lab w2 u nodes = Ok r2 /\
    map fst r1 = nodes /\ map fst r2 = nodes /\
    forall nd v1 v2, In (nd, v1) r1 -> In (nd, v2) r2 -> (v1 <= v2)%Q.
Proof. exact more_raster_rain. Qed.
Print Assumptions C105_more_rain.

(** The same rain in millimetres, in litres per cell and in cubic metres per cell. *)
Theorem C105_units_convert : forall t lab (mm l m3 : raster Q) nodes n,
  same_shape lab mm -> same_shape lab l -> same_shape lab m3 ->
  labels_in lab n -> largest_label lab n -> 1 <= nrows lab -> 1 <= ncols lab ->
  (forall nd, In nd nodes -> 0 <= nf_id nd) ->
  (forall c, inside (nrows lab) (ncols lab) c -> at_ l c == at_ mm c * (Qabs (gt1 t) * Qabs (gt5 t)))%Q ->
  (forall c, inside (nrows lab) (ncols lab) c -> at_ m3 c == at_ l c / 1000)%Q ->
  exists r1 r2 r3, raster_volumes QOps 0%Q 0%Q t lab mm U_mm nodes = Ok r1 /\ raster_volumes QOps 0%Q 0%Q t lab l U_l nodes = Ok r2 /\
    raster_volumes QOps 0%Q 0%Q t lab m3 U_m3 nodes = Ok r3 /\ map fst r1 = nodes /\ map fst r2 = nodes /\ map fst r3 = nodes /\
    forall nd v1 v2 v3, In (nd, v1) r1 -> In (nd, v2) r2 -> In (nd, v3) r3 -> (v1 == v2)%Q /\ (v2 == v3)%Q.
Proof. exact units_convert. Qed.
Print Assumptions C105_units_convert.

(** Half a millimetre and its multiples on cells of 2 m. *)
Example C105_example : labels_in ex_lab 3 /\ largest_label ex_lab 3 /\
  let nd := mkNF 1 None false 0 0 (Some 1) 0%Q 0%Q 0%Q (0%Q, 0%Q) in
  let run x u := match raster_volumes QOps 0%Q 0%Q (mkGT 0 2 0 0 0 (-2))%Q ex_lab (const_raster 3 3 x) u [nd] with
                 | Ok [(_, v)] => Qred v | _ => (-1)%Q end in
  run (1 # 2) U_mm = (3 # 500)%Q /\ run 3%Q U_mm = (9 # 250)%Q /\ run (2 * (1 # 2) + 3 * 3)%Q U_mm = Qred (2 * (3 # 500) + 3 * (9 # 250)) /\
  run (2 # 1) U_l = (3 # 500)%Q /\ run (2 # 1000) U_m3 = (3 # 500)%Q.
Proof.
  split; [apply ex_lab_in|]. split; [apply ex_lab_nlabels|]. cbv zeta. repeat split; vm_compute; reflexivity.
Qed.

(** With binary64 numbers two volumes can add up to more than the volume of the sum. *)
Theorem C105_rounded_refuted : exists t lab (w1 w2 w3 : raster b64) nd r1 r2 r3 v1 v2 v3,
  same_shape lab w1 /\ same_shape lab w2 /\ same_shape lab w3 /\
  (forall c, inside (nrows lab) (ncols lab) c -> at_ w3 c = f64_add (at_ w1 c) (at_ w2 c)) /\
  raster_volumes F64Ops f64_inf f64_ninf t lab w1 U_m3 [nd] = Ok r1 /\ map snd r1 = [v1] /\
  raster_volumes F64Ops f64_inf f64_ninf t lab w2 U_m3 [nd] = Ok r2 /\ map snd r2 = [v2] /\
  raster_volumes F64Ops f64_inf f64_ninf t lab w3 U_m3 [nd] = Ok r3 /\ map snd r3 = [v3] /\
  lt64 v3 (f64_add v1 v2).
Proof. exact rounded_rain. Qed.
Print Assumptions C105_rounded_refuted.
