(** * Model of the two functions of malstroem/hyps.py that the commands do not call *)

From Verif Require Import Base Num VectorModel HypsModel ApproxModel.
Local Open Scope Z_scope.

Section HypsCheck.
Context {T : Type}.
Variable ops : NumOps T.

(** [np.testing.assert_almost_equal(actual, desired)] on two finite numbers, with the
    default of seven decimals: raise AssertionError when
    [abs(desired - actual) >= 1.5 * 10.0**(-7)]. *)
Definition assert_almost_equal (actual desired : T) : res Datatypes.unit :=
  let tolerance := ndiv ops (nofZ ops 15) (nofZ ops 100000000) in
  if nleb ops tolerance (nabs ops (nsub ops desired actual)) then Exc AssertionError else Ok tt.

(** hyps.py 122-126, [assert_hypsometrystats_valid] *)
Definition assert_hypsometrystats_valid (h : @hyps T) : res Datatypes.unit :=
  let b := h_bins (z_hist h) in
  if negb (Z.of_nat (List.length (h_counts (z_hist h))) =? b_num b) then Exc AssertionError
  else if negb (nleb ops (b_lower b) (b_upper b)) then Exc AssertionError
  else
    let num_bins := ndiv ops (nsub ops (b_upper b) (b_lower b)) (b_resolution b) in
    assert_almost_equal (nofZ ops (b_num b)) num_bins.

(** hyps.py 78-86, [cumulative_volume]; [step_volumes[0]] raises IndexError on an empty
    array. *)
Definition hyps_cumulative_volume (h : @histogram T) (cell_area : T) : res (list T) :=
  let cumulative := cumsum ops (map (nofZ ops) (h_counts h)) in
  let step_volumes := map (nmul ops (nmul ops cell_area (b_resolution (h_bins h)))) cumulative in
  first <- list_rd step_volumes 0 ;;
  Ok (cumsum ops (map (fun s => nsub ops s first) step_volumes)).
End HypsCheck.
