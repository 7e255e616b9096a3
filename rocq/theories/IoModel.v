(** * Model of malstroem/io.py: RasterReader.read and the type choice of RasterWriter.write

    GDAL itself, the vector classes and the file options are not modelled. *)

From Flocq Require Import Core IEEE754.BinarySingleNaN.
From Verif Require Import Base Num Float64.
Local Open Scope Z_scope.

(** ** Reader *)

(** Defaults of [np.isclose]: rtol = 1e-5, atol = 1e-8. *)
Definition rtol : b64 := f64_div (f64_ofZ 1) (f64_ofZ 100000).
Definition atol : b64 := f64_div (f64_ofZ 1) (f64_ofZ 100000000).

(** [np.isclose(x, y)], numpy documentation: |x - y| <= atol + rtol * |y| for finite values,
    equality for infinite ones, False for NaN.  (IEEE addition and multiplication commute.)
    Computed in float64 (older numpy computes
    the difference of a float32 array and a number in float32). *)
Definition isclose (x y : b64) : bool :=
  if is_finite x && is_finite y
  then Bleb (Babs (f64_sub x y)) (f64_add (f64_mul (Babs y) rtol) atol)
  else Beqb x y.

(** io.py 70-81, [RasterReader.read].  [store] is the conversion to the type of the array.
    [if self.nodata]: false for None and 0.0, true for NaN. *)
Definition reader_read (store : b64 -> b64) (nodata nodatasubst : option b64) (data : raster b64) : raster b64 :=
  match nodata, nodatasubst with
  | Some nd, Some subst =>
      if Beqb nd f64_zero then data
      else
        let mask x := if is_nan nd then is_nan x else isclose x nd in
        mkRaster (nrows data) (ncols data)
          (fun i j => if mask (rget data i j) then store subst else rget data i j)
  | _, _ => data
  end.

(** ** Writer *)

Inductive dtype := Int8 | Int16 | Int32 | Int64 | UInt8 | UInt16 | UInt32 | UInt64 | Bool_ | Float16 | Float32 | Float64.
Inductive gdal_type := GDT_Byte | GDT_UInt16 | GDT_Int16 | GDT_UInt32 | GDT_Int32 | GDT_Float32 | GDT_Float64.

(** The numbers of an integer type (0 and 1 for bool). *)
Definition int_range (d : dtype) : option (Z * Z) :=
  match d with
  | Int8 => Some (-128, 127)
  | Int16 => Some (-32768, 32767)
  | Int32 => Some (-2147483648, 2147483647)
  | Int64 => Some (-9223372036854775808, 9223372036854775807)
  | UInt8 => Some (0, 255)
  | UInt16 => Some (0, 65535)
  | UInt32 => Some (0, 4294967295)
  | UInt64 => Some (0, 18446744073709551615)
  | Bool_ => Some (0, 1)
  | _ => None
  end.

(** An array: integers or floats. *)
Inductive array := Ints (d : dtype) (vs : list Z) | Floats (d : dtype) (vs : list b64).

Definition dtype_of (a : array) : dtype := match a with Ints d _ => d | Floats d _ => d end.

(** [astype] of an integer to an integer type: wraps. *)
Definition wrap (d : dtype) (v : Z) : Z :=
  match int_range d with
  | Some (lo, hi) => lo + (v - lo) mod (hi - lo + 1)
  | None => v
  end.

Definition astype_int (d : dtype) (a : array) : res array :=
  match a with
  | Ints _ vs => Ok (Ints d (map (wrap d) vs))
  | Floats _ _ => Exc TypeError
  end.

Definition round_to (d : dtype) (x : b64) : b64 :=
  match d with Float32 => store32 x | _ => x end.

Definition astype_float (d : dtype) (a : array) : array :=
  match a with
  | Ints _ vs => Floats d (map (fun v => round_to d (f64_ofZ v)) vs)
  | Floats _ vs => Floats d (map (round_to d) vs)
  end.

(** io.py 135-154: types written directly. *)
Definition direct (d : dtype) : option gdal_type :=
  match d with
  | Float64 => Some GDT_Float64
  | Float32 => Some GDT_Float32
  | Int32 => Some GDT_Int32
  | UInt32 => Some GDT_UInt32
  | Int16 => Some GDT_Int16
  | UInt16 => Some GDT_UInt16
  | UInt8 => Some GDT_Byte
  | _ => None
  end.

Definition write_direct (a : array) : res (gdal_type * array) :=
  match direct (dtype_of a) with
  | Some g => Ok (g, a)
  | None => Exc UnboundLocalError
  end.

(** [min] and [max] of integers; ValueError if there are none. *)
Definition zmin_max (vs : list Z) : res (Z * Z) :=
  match vs with
  | [] => Exc ValueError
  | v :: t => Ok (fold_left Z.min t v, fold_left Z.max t v)
  end.

(** [np.min], [np.max] of floats: NaN if there is one. *)
Definition fmin (a b : b64) : b64 := if is_nan a then a else if is_nan b then b else if Bltb b a then b else a.
Definition fmax (a b : b64) : b64 := if is_nan a then a else if is_nan b then b else if Bltb a b then b else a.
Definition fmin_max (vs : list b64) : res (b64 * b64) :=
  match vs with
  | [] => Exc ValueError
  | v :: t => Ok (fold_left fmin t v, fold_left fmax t v)
  end.

(** 3.4028235e+38 *)
Definition f32_limit : b64 := f64_ofZ 340282350000000000000000000000000000000.

(** io.py 157-170: the cast of integers with the given least and greatest value.  When no
    case applies [gdal_datatype] is unbound in line 175. *)
Definition write_ints (mn mx : Z) (a : array) : res (gdal_type * array) :=
  if 0 <=? mn then
    if mx <=? 255 then (b <- astype_int UInt8 a ;; write_direct b)
    else if mx <=? 65535 then (b <- astype_int UInt16 a ;; write_direct b)
    else if mx <=? 4294967295 then (b <- astype_int UInt32 a ;; write_direct b)
    else Exc UnboundLocalError
  else if (-32768 <=? mn) && (mx <=? 32767) then (b <- astype_int Int16 a ;; write_direct b)
  else if (-2147483648 <=? mn) && (mx <=? 2147483647) then (b <- astype_int Int32 a ;; write_direct b)
  else Exc UnboundLocalError.

(** io.py 171-174 *)
Definition write_floats (mn mx : b64) (a : array) : res (gdal_type * array) :=
  if Bleb (Bopp f32_limit) mn && Bleb mx f32_limit
  then write_direct (astype_float Float32 a)
  else write_direct (astype_float Float64 a).

(** io.py 122-176, [RasterWriter.write]: the GDAL type and the array handed to WriteArray.
    Types that are not written directly are cast to one that is.  Bool arrays have kind
    'b' and take the float branch. *)
Definition write (a : array) : res (gdal_type * array) :=
  match direct (dtype_of a) with
  | Some g => Ok (g, a)
  | None =>
      match a with
      | Ints Bool_ vs => ' (mn, mx) <- zmin_max vs ;; write_floats (f64_ofZ mn) (f64_ofZ mx) a
      | Ints _ vs => ' (mn, mx) <- zmin_max vs ;; write_ints mn mx a
      | Floats _ vs => ' (mn, mx) <- fmin_max vs ;; write_floats mn mx a
      end
  end.
