(** * C73: the vector files

    after ws: the datasource after the writes ws, each by a new VectorWriter, in order;
    written n ws: the features written under the layer name n; carries fs f g: g has the
    values of f, and null for properties only other features of fs have. *)

From Coq Require Import QArith String.
From Verif Require Import Base Num Dict NetworkModel OgrModel OgrSpec OgrThms RerunThms.
Local Open Scope list_scope.

(** ** C73 *)

(** A reader gets everything that was ever written under the name, in order, and nothing
    from other layers. *)
Theorem C73_reads_all_written_partial : forall V (ws : list (string * list (feature V))) n,
  n <> ""%string -> (exists w, In w ws /\ fst w = n) ->
  exists gs, read_features (after ws) (Some n) = Ok gs /\ Forall2 (carries (written n ws)) (written n ws) gs.
Proof. exact @read_written. Qed.
Print Assumptions C73_reads_all_written_partial.

Theorem C73_missing_layer_raises : forall V (ws : list (string * list (feature V))) n,
  n <> ""%string -> (forall w, In w ws -> fst w <> n) ->
  read_features (after ws) (Some n) = Exc PlainException.
Proof. exact @read_missing. Qed.
Print Assumptions C73_missing_layer_raises.

(** Whatever is written: writing it again doubles it. *)
Theorem C73_written_again_refuted : forall V (ws : list (string * list (feature V))) n fs,
  n <> ""%string -> (forall w, In w ws -> fst w <> n) -> fs <> [] ->
  exists g gs, read_features (write_features (after ws) n fs) (Some n) = Ok g /\
    read_features (write_features (write_features (after ws) n fs) n fs) (Some n) = Ok gs /\
    length g = length fs /\ length gs = (2 * length fs)%nat /\ g <> gs.
Proof. exact @twice_doubles. Qed.
Print Assumptions C73_written_again_refuted.

(** initvolumes run again, with other rain or the same: finalvolumes uses the last volumes,
    as if initvolumes had been run once (any arithmetic). *)
Theorem C73_last_rain_counts_partial : forall T (ops : NumOps T) fuel (old new : list (@node T)),
  map n_id old = map n_id new -> NoDup (map n_id new) -> process ops fuel (old ++ new) = process ops fuel new.
Proof. exact @latest_rain. Qed.
Print Assumptions C73_last_rain_counts_partial.

(** pourpts run again: the network command stops with an IndexError. *)
Theorem C73_pourpts_again_refuted : (exists r, network_run 1 = Ok r) /\ network_run 2 = Exc IndexError.
Proof. exact pourpts_twice. Qed.
Print Assumptions C73_pourpts_again_refuted.

(** Two layers; the features of "b" have different properties. *)
Example C73_example :
  let f1 := [("id"%string, Some 1%Z); ("v"%string, Some 5%Z)] in
  let f2 := [("id"%string, Some 2%Z); ("w"%string, None)] in
  read_features (after [("a"%string, [f1]); ("b"%string, [f1; f2])]) (Some "b"%string) =
    Ok [[("id"%string, Some 1%Z); ("v"%string, Some 5%Z); ("w"%string, None)];
        [("id"%string, Some 2%Z); ("v"%string, None); ("w"%string, None)]] /\
  NoDup (map (@n_id Q) [mkNode 0%Z None 1%Q 0%Q; mkNode 1%Z (Some 0%Z) 2%Q 1%Q]).
Proof.
  split; [vm_compute; reflexivity|]. cbn. constructor; [intros [H|[]]; discriminate H|]. constructor; [intros []|constructor].
Qed.
