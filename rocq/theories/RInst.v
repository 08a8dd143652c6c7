(** * The real-number instance of the scalar operations (ideal arithmetic). *)

From Coq Require Import Reals ZArith Bool Lra.
From Verif Require Import Scalar.
Local Open Scope R_scope.

Definition Rltb (x y : R) : bool := if Rlt_dec x y then true else false.
Definition Rleb (x y : R) : bool := if Rle_dec x y then true else false.
Definition Reqb (x y : R) : bool := if Req_EM_T x y then true else false.

(** Truncation toward zero. *)
Definition Rtrunc (x : R) : Z :=
  if Rle_dec 0 x then Int_part x else (- Int_part (- x))%Z.

(** C99 7.12.10.1: [fmod x y] is [x - n y] with [n] the integer [x/y] truncated. *)
Definition Rfmod (x y : R) : R := x - IZR (Rtrunc (x / y)) * y.

(** C99 7.12.4.4: the angle in [-pi,pi] of the vector [(x,y)]; zero at the origin
    (the value C gives for positive zeros). *)
Definition Ratan2 (y x : R) : R :=
  if Rlt_dec 0 x then atan (y / x)
  else if Rlt_dec x 0 then
    if Rle_dec 0 y then atan (y / x) + PI else atan (y / x) - PI
  else if Rlt_dec 0 y then PI / 2
  else if Rlt_dec y 0 then - (PI / 2)
  else 0.

(** [sqrt] of a negative number and [acos] outside [-1,1] are NaN in C and some
    real number here; [x/0] likewise.  Theorems keep to arguments where these do
    not occur or say so. *)
#[export] Instance RScalar : Scalar R := {|
  s_add := Rplus;
  s_sub := Rminus;
  s_mul := Rmult;
  s_div := Rdiv;
  s_neg := Ropp;
  s_abs := Rabs;
  s_sqrt := sqrt;
  s_cos := cos;
  s_sin := sin;
  s_acos := acos;
  s_atan2 := Ratan2;
  s_fmod := Rfmod;
  s_ltb := Rltb;
  s_leb := Rleb;
  s_eqb := Reqb;
  s_ofZ := IZR;
  s_frac := fun m d => IZR m / IZR (Zpos d);
  s_pi := PI;
  s_2pi := 2 * PI;
  s_pi2 := PI / 2;
  s_wide := wide_eval (fun x => x) Rplus Rminus Rmult Rdiv sqrt
|}.
