(** * C47, C48, C60: raster input and output *)

From Coq Require Import Reals.
From Flocq Require Import Core IEEE754.BinarySingleNaN.
From Verif Require Import Base Num Float64 IoModel IoThms.
Local Open Scope Z_scope.

(** ** C47
    Full statement: integers are stored in a type that represents every value, or
    NotImplementedError is raised.  The second half is wrong (C47_unbound_refuted): when no
    type fits, UnboundLocalError is raised. *)

Theorem C47_write_partial : forall d vs g b, is_int d = true -> int_array_ok d vs -> write (Ints d vs) = Ok (g, b) ->
  exists d' lo hi, b = Ints d' vs /\ gdal_range g = Some (lo, hi) /\ int_range d' = Some (lo, hi) /\
    forall v, In v vs -> lo <= v <= hi.
Proof. exact write_int_sound. Qed.
Print Assumptions C47_write_partial.

(** It succeeds exactly when some GDAL integer type holds all values. *)
Theorem C47_write_total : forall d vs, is_int d = true -> int_array_ok d vs -> vs <> [] ->
  ((exists g b, write (Ints d vs) = Ok (g, b)) /\
   ((forall v, In v vs -> 0 <= v <= 4294967295) \/ (forall v, In v vs -> -2147483648 <= v <= 2147483647))) \/
  (write (Ints d vs) = Exc UnboundLocalError /\
   ~ (forall v, In v vs -> 0 <= v <= 4294967295) /\ ~ (forall v, In v vs -> -2147483648 <= v <= 2147483647)).
Proof. exact write_int_total. Qed.
Print Assumptions C47_write_total.

Theorem C47_unbound_refuted : exists d vs, is_int d = true /\ int_array_ok d vs /\ vs <> [] /\
  write (Ints d vs) = Exc UnboundLocalError.
Proof. exact write_unbound_refuted. Qed.
Print Assumptions C47_unbound_refuted.

Example C47_example : int_array_ok Int64 [0; 65536] /\ write (Ints Int64 [0; 65536]) = Ok (GDT_UInt32, Ints UInt32 [0; 65536]) /\
  write (Ints Int8 [-1; 5]) = Ok (GDT_Int16, Ints Int16 [-1; 5]).
Proof.
  split; [do 2 eexists; split; [reflexivity|]; intros v [<-|[<-|[]]]; split; discriminate|]. split; reflexivity.
Qed.

(** ** C60: float arrays keep their values *)

Theorem C60_write_floats : forall d vs g b, int_range d = None -> (d <> Float64 -> forall x, In x vs -> is_f32 x) ->
  write (Floats d vs) = Ok (g, b) ->
  exists d', b = Floats d' vs /\
    ((d' = Float64 /\ g = GDT_Float64) \/ (d' = Float32 /\ g = GDT_Float32 /\ forall x, In x vs -> is_f32 x)).
Proof. exact write_float_sound. Qed.
Print Assumptions C60_write_floats.

Theorem C60_write_floats_total : forall d vs, int_range d = None -> vs <> [] -> exists r, write (Floats d vs) = Ok r.
Proof. exact write_float_total. Qed.
Print Assumptions C60_write_floats_total.

(** Bool arrays are written as 0.0 and 1.0. *)
Theorem C60_write_bool : forall vs, vs <> [] -> (forall v, In v vs -> 0 <= v <= 1) ->
  write (Ints Bool_ vs) = Ok (GDT_Float32, Floats Float32 (map f64_ofZ vs)).
Proof. exact write_bool. Qed.
Print Assumptions C60_write_bool.

Example C60_example : int_range Float16 = None /\ is_f32 (f64_ofZ 1) /\ exists r, write (Floats Float16 [f64_ofZ 1]) = Ok r.
Proof. exact ex_float16. Qed.

(** ** C48
    Full statement: exactly the cells equal to the nodata value are replaced.  Refuted for
    nodata 0 and for values close to nodata.  What holds: *)

Theorem C48_read_partial : forall store nodata subst (data : raster b64),
  let out := reader_read store nodata subst data in
  same_shape out data /\
  forall c, inside (nrows data) (ncols data) c ->
    match nodata, subst with
    | Some nd, Some s =>
        (~ eq64 nd f64_zero -> is_nodata nd (at_ data c) -> at_ out c = store s) /\
        (at_ out c = at_ data c \/ at_ out c = store s /\
          (is_nodata nd (at_ data c) \/ finite64 nd /\ finite64 (at_ data c) /\
           (Rabs (B2R (at_ data c) - B2R nd) <= 101 / 100 * (1 / 100000000 + 1 / 100000 * Rabs (B2R nd)))%R))
    | _, _ => at_ out c = at_ data c
    end.
Proof. exact reader_sound. Qed.
Print Assumptions C48_read_partial.

Theorem C48_zero_refuted : exists data, at_ data (0, 0) = f64_zero /\
  ~ eq64 (at_ (reader_read (fun x => x) (Some f64_zero) (Some (f64_ofZ (-999))) data) (0, 0)) (f64_ofZ (-999)).
Proof. exact nodata_zero_refuted. Qed.
Print Assumptions C48_zero_refuted.

Theorem C48_close_refuted : exists data, lt64 (f64_ofZ 100) (at_ data (0, 0)) /\
  eq64 (at_ (reader_read (fun x => x) (Some (f64_ofZ 100)) (Some (f64_ofZ (-999))) data) (0, 0)) (f64_ofZ (-999)).
Proof. exact nodata_close_refuted. Qed.
Print Assumptions C48_close_refuted.

Example C48_example : ~ eq64 (f64_ofZ (-9999)) f64_zero /\
  let data := of_rows f64_zero [[f64_ofZ (-9999); f64_ofZ 7]] in
  let out := reader_read store32 (Some (f64_ofZ (-9999))) (Some (f64_ofZ (-999))) data in
  is_nodata (f64_ofZ (-9999)) (at_ data (0, 0)) /\ eq64 (at_ out (0, 0)) (f64_ofZ (-999)) /\ eq64 (at_ out (0, 1)) (f64_ofZ 7).
Proof. split; [vm_compute; discriminate|]. split; [left; vm_compute; reflexivity|]. split; vm_compute; reflexivity. Qed.
