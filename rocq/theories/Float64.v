(** * IEEE binary64 (Python float, numpy float64) and float32 stores

    Concrete floats from Flocq's executable formalisation
    (BinarySingleNaN: one NaN, no payloads), rounding to nearest even. *)

From Coq Require Import ZArith Bool.
From Flocq Require Import Core.Core IEEE754.BinarySingleNaN.
From Verif Require Import Base Num.

Definition b64 : Type := binary_float 53 1024.
Definition b32 : Type := binary_float 24 128.

#[global] Instance prec_gt_0_53 : Prec_gt_0 53 := eq_refl.
#[global] Instance prec_lt_emax_1024 : Prec_lt_emax 53 1024 := eq_refl.
#[global] Instance prec_gt_0_24 : Prec_gt_0 24 := eq_refl.
#[global] Instance prec_lt_emax_128 : Prec_lt_emax 24 128 := eq_refl.

Definition f64_inf : b64 := B754_infinity false.
Definition f64_ninf : b64 := B754_infinity true.
Definition f64_zero : b64 := B754_zero false.

(** The double closest to [m * 2^e]. *)
Definition f64 (m e : Z) : b64 := binary_normalize 53 1024 _ _ mode_NE m e false.

Definition f64_ofZ (z : Z) : b64 := f64 z 0.

Definition f64_add : b64 -> b64 -> b64 := Bplus mode_NE.
Definition f64_sub : b64 -> b64 -> b64 := Bminus mode_NE.
Definition f64_mul : b64 -> b64 -> b64 := Bmult mode_NE.
Definition f64_div : b64 -> b64 -> b64 := Bdiv mode_NE.

Definition F64Ops : NumOps b64 :=
  mkOps b64 Bltb Bleb Beqb f64_add f64_sub f64_mul f64_div f64_ofZ.

(** [math.sqrt(2)], [2**0.5] and [1 / SQRT2]. *)
Definition f64_sqrt2 : b64 := Bsqrt mode_NE (f64_ofZ 2).
Definition f64_inv_sqrt2 : b64 := f64_div (f64_ofZ 1) f64_sqrt2.

(** [np.nextafter(x, inf)] *)
Definition f64_next : b64 -> b64 := Bsucc.

(** Store of a float64 value into a float32 array, read back as float64. *)
Definition f64_to_f32 (x : b64) : b32 :=
  match x with
  | B754_zero s => B754_zero s
  | B754_infinity s => B754_infinity s
  | B754_nan => B754_nan
  | B754_finite s m e _ => binary_normalize 24 128 _ _ mode_NE (cond_Zopp s (Zpos m)) e s
  end.

Definition f32_to_f64 (x : b32) : b64 :=
  match x with
  | B754_zero s => B754_zero s
  | B754_infinity s => B754_infinity s
  | B754_nan => B754_nan
  | B754_finite s m e _ => binary_normalize 53 1024 _ _ mode_NE (cond_Zopp s (Zpos m)) e s
  end.

Definition store32 (x : b64) : b64 := f32_to_f64 (f64_to_f32 x).

(** Value representable as float32 (an element of a float32 raster): rounding to
    float32 does not change it. *)
Definition is_f32 (x : b64) : Prop := store32 x = x.

(** numpy [a - b] on float32 operands: one rounding to float32. *)
Definition f32_sub (x y : b64) : b64 :=
  f32_to_f64 (Bminus mode_NE (f64_to_f32 x) (f64_to_f32 y)).

Definition not_nan (x : b64) : Prop := is_nan x = false.
Definition finite64 (x : b64) : Prop := is_finite x = true.

(** [x <= y] and [x < y] on binary64 values (false when one is NaN). *)
Definition le64 (x y : b64) : Prop := Bleb x y = true.
Definition lt64 (x y : b64) : Prop := Bltb x y = true.
(** [x == y] (so 0.0 == -0.0). *)
Definition eq64 (x y : b64) : Prop := Beqb x y = true.
