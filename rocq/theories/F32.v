(** * The IEEE-754 binary32 instance of the scalar operations. *)

From Coq Require Import ZArith Bool.
From Flocq Require Import Core.Core IEEE754.BinarySingleNaN.
From Verif Require Import Scalar.

Definition f32 : Type := binary_float 24 128.

#[export] Instance prec_gt_0_24 : Prec_gt_0 24 := eq_refl.
#[export] Instance prec_lt_emax_24 : Prec_lt_emax 24 128 := eq_refl.

(** Conversion from int, and correctly rounded literals [m/d]. *)
Definition f32_ofZ (z : Z) : f32 := binary_normalize 24 128 _ _ mode_NE z 0 false.

Definition f32_frac (m : Z) (d : positive) : f32 :=
  match m with
  | Z0 => B754_zero false
  | Zpos p => SF2B _ (proj1 (Bdiv_correct_aux 24 128 _ _ mode_NE false p 0 false d 0))
  | Zneg p => SF2B _ (proj1 (Bdiv_correct_aux 24 128 _ _ mode_NE true p 0 false d 0))
  end.

(** fmod: exact by definition (C99 F.9.7.1), sign of the dividend. *)
Definition f32_fmod (x y : f32) : f32 :=
  match x, y with
  | B754_nan, _ | _, B754_nan => B754_nan
  | B754_infinity _, _ => B754_nan
  | _, B754_zero _ => B754_nan
  | B754_zero _, _ => x
  | B754_finite _ _ _ _, B754_infinity _ => x
  | B754_finite sx mx ex _, B754_finite _ my ey _ =>
      let e := Z.min ex ey in
      let ax := (Zpos mx * 2 ^ (ex - e))%Z in
      let ay := (Zpos my * 2 ^ (ey - e))%Z in
      binary_normalize 24 128 _ _ mode_NE (cond_Zopp sx (Z.modulo ax ay)) e sx
  end.

(** libm functions that are not required to be correctly rounded: any functions
    at all.  Theorems over binary32 quantify over this record. *)
Record libm32 := {
  l_cos : f32 -> f32;
  l_sin : f32 -> f32;
  l_acos : f32 -> f32;
  l_atan2 : f32 -> f32 -> f32
}.

(** almath/tools/altrigonometry.h:14-17: the float literals, correctly rounded. *)
Definition f32_pi : f32 := f32_frac 314159265358979323846 100000000000000000000.
Definition f32_2pi : f32 := f32_frac 628318528 100000000.
Definition f32_pi2 : f32 := f32_frac 157079632679489661923 100000000000000000000.

(** ** Double precision (binary64) and the conversions between [float] and [double] *)
Definition f64 : Type := binary_float 53 1024.
#[export] Instance prec_gt_0_53 : Prec_gt_0 53 := eq_refl.
#[export] Instance prec_lt_emax_53 : Prec_lt_emax 53 1024 := eq_refl.

(** From [float] to [double]: exact. *)
Definition f64_of_f32 (x : f32) : f64 :=
  match x with
  | B754_zero s => B754_zero s
  | B754_infinity s => B754_infinity s
  | B754_nan => B754_nan
  | B754_finite s m e _ => binary_normalize 53 1024 _ _ mode_NE (cond_Zopp s (Zpos m)) e s
  end.

(** From [double] to [float]: to the nearest. *)
Definition f32_of_f64 (x : f64) : f32 :=
  match x with
  | B754_zero s => B754_zero s
  | B754_infinity s => B754_infinity s
  | B754_nan => B754_nan
  | B754_finite s m e _ => binary_normalize 24 128 _ _ mode_NE (cond_Zopp s (Zpos m)) e s
  end.

Definition f32_wide (e : wide f32) : f32 :=
  f32_of_f64 (wide_eval f64_of_f32 (Bplus mode_NE) (Bminus mode_NE) (Bmult mode_NE) (Bdiv mode_NE) (Bsqrt mode_NE) e).

Definition F32Scalar (L : libm32) : Scalar f32 := {|
  s_add := Bplus mode_NE;
  s_sub := Bminus mode_NE;
  s_mul := Bmult mode_NE;
  s_div := Bdiv mode_NE;
  s_neg := Bopp;
  s_abs := Babs;
  s_sqrt := Bsqrt mode_NE;
  s_cos := l_cos L;
  s_sin := l_sin L;
  s_acos := l_acos L;
  s_atan2 := l_atan2 L;
  s_fmod := f32_fmod;
  s_ltb := Bltb;
  s_leb := Bleb;
  s_eqb := Beqb;
  s_ofZ := f32_ofZ;
  s_frac := f32_frac;
  s_pi := f32_pi;
  s_2pi := f32_2pi;
  s_pi2 := f32_pi2;
  s_wide := f32_wide
|}.
