(** * Segments and boxes in the plane, read from floats *)

From Coq Require Import Reals List Bool.
From Flocq Require Import Core.Core IEEE754.BinarySingleNaN.
From Verif Require Import Scalar Model_Base Model_Vec F32 Spec_Round.
Local Open Scope R_scope.

(** A point with finite coordinates up to [M]. *)
Definition point_in (M : R) (p : Position2D f32) : Prop :=
  is_finite (p2_x p) = true /\ is_finite (p2_y p) = true /\ Rabs (val (p2_x p)) <= M /\ Rabs (val (p2_y p)) <= M.

(** The vector from one point to another. *)
Definition dx (p q : Position2D f32) : R := val (p2_x q) - val (p2_x p).
Definition dy (p q : Position2D f32) : R := val (p2_y q) - val (p2_y p).

(** The cross product of the vectors p q and r s: twice the area of the triangle when p = r. *)
Definition cross (p q r s : Position2D f32) : R := dx p q * dy r s - dy p q * dx r s.

(** The points at the fraction [s] of the segment a1 a2 and at the fraction [t] of the
    segment b1 b2 are the same. *)
Definition meet (a1 a2 b1 b2 : Position2D f32) (s t : R) : Prop :=
  val (p2_x a1) + s * dx a1 a2 = val (p2_x b1) + t * dx b1 b2 /\
  val (p2_y a1) + s * dy a1 a2 = val (p2_y b1) + t * dy b1 b2.
