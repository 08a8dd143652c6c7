(** * Moves limited to an ellipse *)

From Coq Require Import Reals Bool.
From Flocq Require Import Core.Core IEEE754.BinarySingleNaN.
From Verif Require Import Scalar Model_Base Model_Vec F32 Spec_Round.
Local Open Scope R_scope.

(** The point (x, y) is inside the ellipse of half axes [a] and [b] when this is less than 1,
    on it when this is 1, outside when this is more. *)
Definition excess (a b x y : R) : R := (x / a)^2 + (y / b)^2.

(** The function atan2 of the library returns floats within [e] of an angle of the vector
    (x, y), which is not null. *)
Definition accurate_angle (L : libm32) (e : R) : Prop :=
  forall y x : f32, is_finite y = true -> is_finite x = true -> ~ (val x = 0 /\ val y = 0) ->
    is_finite (l_atan2 L y x) = true /\
    exists r t : R, 0 < r /\ val x = r * cos t /\ val y = r * sin t /\ Rabs (val (l_atan2 L y x) - t) <= e.
