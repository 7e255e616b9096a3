(** * C92, C93: what filters mean and select *)

From Coq Require Import Reals String.
From Flocq Require Import Core.Core IEEE754.BinarySingleNaN.
From Verif Require Import Base Num Float64 FillSpec LabelModel LabelSpec VectorModel BluespotModel BluespotSpec BluespotThms CompSpec CompProofs
  FilterModel FilterSpec FilterEvalModel FilterEvalSpec FilterEvalThms FilterSelect.
Local Open Scope Z_scope.

(** ** C92: a filter means what it says *)

(** Every text made of documented properties, numbers, comparisons (also in a row), and, or and
    parentheses gives a function that is true exactly where the formula holds. *)
Theorem C92_filter_meaning : forall text f, means text f ->
  exists g, filter_function (Some text) = Ok g /\ forall st, g st = true <-> holds st f.
Proof. exact filter_meaning. Qed.
Print Assumptions C92_filter_meaning.

(** Run with that function, the tool labels exactly the bluespots for which the formula holds. *)
Theorem C92_filter_selects : forall cc, labels_components cc ->
  forall text f g sp fuel t depths flowdir accum dem out, means text f -> filter_function (Some text) = Ok g ->
  1 <= nrows depths -> 1 <= ncols depths ->
  bluespot_process sp cc fuel t depths flowdir (Some g) accum dem = Ok out ->
  forall c, inside (nrows depths) (ncols depths) c ->
    (at_ (bo_labeled out) c <> 0 <-> at_ (nonzero depths) c = true /\
       exists s, describes depths (bluespot depths c) (cell_area F64Ops t) s /\ holds s f).
Proof. exact filter_selects. Qed.
Print Assumptions C92_filter_selects.

(** A filter with all elements on the terrain of C24: the second bluespot is kept. *)
Example C92_example : means (lit "maxdepth > 0.05 and (area>=8 or volume > 8.5)")
    (Both (Compare (Of Maxdepth) [(Greater, Number [0] (Some [0; 5]))])
       (Either (Compare (Of Area) [(AtLeast, Number [8] None)]) (Compare (Of Volume) [(Greater, Number [8] (Some [5]))]))) /\
  match filter_function (Some (lit "maxdepth > 0.05 and (area>=8 or volume > 8.5)")) with
  | Ok g => labels_are (chain false false (Some g) bs_dem)
      [[0;0;0;0;0;0;0]; [0;0;0;0;1;1;0]; [0;0;0;0;0;0;0]; [0;0;0;0;0;0;0]; [0;0;0;0;0;0;0]]
      [(0, 4, 3); (1, 1, 4)]
  | _ => false
  end = true.
Proof. split; [exact ex_means|vm_compute; reflexivity]. Qed.

(** ** C93: thresholds *)

(** A filter that implies another one keeps no bluespot the other drops. *)
Theorem C93_stricter_filter : forall cc, labels_components cc ->
  forall text f g text' f' g' sp fuel t depths flowdir accum dem out sp' fuel' accum' dem' out',
  means text f -> filter_function (Some text) = Ok g -> means text' f' -> filter_function (Some text') = Ok g' ->
  (forall s, holds s f' -> holds s f) -> 1 <= nrows depths -> 1 <= ncols depths ->
  bluespot_process sp cc fuel t depths flowdir (Some g) accum dem = Ok out ->
  bluespot_process sp' cc fuel' t depths flowdir (Some g') accum' dem' = Ok out' ->
  forall c, inside (nrows depths) (ncols depths) c -> at_ (bo_labeled out') c <> 0 -> at_ (bo_labeled out) c <> 0.
Proof. exact stricter_filter. Qed.
Print Assumptions C93_stricter_filter.

(** Raising a threshold, written with any number of decimals, never adds a bluespot. *)
Theorem C93_higher_threshold : forall cc, labels_components cc ->
  forall p o text ip fp g text' ip' fp' g' sp fuel t depths flowdir accum dem out sp' fuel' accum' dem' out',
  o = Greater \/ o = AtLeast ->
  means text (above p o ip fp) -> filter_function (Some text) = Ok g ->
  means text' (above p o ip' fp') -> filter_function (Some text') = Ok g' ->
  (decimal ip fp <= decimal ip' fp')%R -> 1 <= nrows depths -> 1 <= ncols depths ->
  bluespot_process sp cc fuel t depths flowdir (Some g) accum dem = Ok out ->
  bluespot_process sp' cc fuel' t depths flowdir (Some g') accum' dem' = Ok out' ->
  forall c, inside (nrows depths) (ncols depths) c -> at_ (bo_labeled out') c <> 0 -> at_ (bo_labeled out) c <> 0.
Proof. exact higher_threshold. Qed.
Print Assumptions C93_higher_threshold.

Example C93_example : means (lit "area > 3") (above Area Greater [3] None) /\ means (lit "area > 7") (above Area Greater [7] None) /\
  match filter_function (Some (lit "area > 3")), filter_function (Some (lit "area > 7")) with
  | Ok g, Ok g' =>
      labels_are (chain false false (Some g) bs_dem)
        [[0;0;0;0;0;0;0]; [0;1;0;0;2;2;0]; [0;0;0;0;0;0;0]; [0;0;0;0;0;0;0]; [0;0;0;0;0;0;0]]
        [(0, 4, 3); (1, 1, 1); (2, 1, 4)] &&
      labels_are (chain false false (Some g') bs_dem)
        [[0;0;0;0;0;0;0]; [0;0;0;0;1;1;0]; [0;0;0;0;0;0;0]; [0;0;0;0;0;0;0]; [0;0;0;0;0;0;0]]
        [(0, 4, 3); (1, 1, 4)]
  | _, _ => false
  end = true.
Proof. split; [apply (area_means 3); lia|]. split; [apply (area_means 7); lia|vm_compute; reflexivity]. Qed.

(** The full claim: the figure, as a real number, is compared with the decimal number.  Shown
    unless the figure is the double closest to a number that is not a double itself ... *)
Theorem C93_threshold_real_partial : forall st p ip fp, proper (Number ip fp) -> finite64 (figure st p) ->
  (forall y, closest (decimal ip fp) y -> B2R y = decimal ip fp \/ B2R y <> B2R (figure st p)) ->
  (holds st (above p Greater ip fp) <-> (decimal ip fp < B2R (figure st p))%R) /\
  (holds st (above p AtLeast ip fp) <-> (decimal ip fp <= B2R (figure st p))%R).
Proof. exact threshold_real. Qed.
Print Assumptions C93_threshold_real_partial.

(** ... and wrong there: a volume above 0.1 that is not > 0.1. *)
Theorem C93_threshold_real_refuted : exists st p ip fp, proper (Number ip fp) /\ finite64 (figure st p) /\
  (decimal ip fp < B2R (figure st p))%R /\ ~ holds st (above p Greater ip fp).
Proof. exact threshold_real_refuted. Qed.
Print Assumptions C93_threshold_real_refuted.

(** 8.5 is a double. *)
Example C93_example_real : proper (Number [8] (Some [5])) /\
  forall y, closest (decimal [8] (Some [5])) y -> B2R y = decimal [8] (Some [5]).
Proof. exact exact_half. Qed.
