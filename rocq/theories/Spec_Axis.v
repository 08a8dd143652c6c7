(** * Rotations of floats, and the matrices they stand for *)

From Coq Require Import Reals.
From Flocq Require Import Core.Core IEEE754.BinarySingleNaN.
From Verif Require Import Scalar Model_Base Model_Vec Model_Rigid F32 Spec_Geom Spec_Round.
Local Open Scope R_scope.

(** The nine numbers a rotation of floats stands for. *)
Definition rval (r : Rotation f32) : mat3 :=
  of_rows (val (m_r1c1 r)) (val (m_r1c2 r)) (val (m_r1c3 r)) (val (m_r2c1 r)) (val (m_r2c2 r)) (val (m_r2c3 r))
          (val (m_r3c1 r)) (val (m_r3c2 r)) (val (m_r3c3 r)).

(** No infinity and no NaN. *)
Definition finite_r (r : Rotation f32) : Prop :=
  is_finite (m_r1c1 r) = true /\ is_finite (m_r1c2 r) = true /\ is_finite (m_r1c3 r) = true /\
  is_finite (m_r2c1 r) = true /\ is_finite (m_r2c2 r) = true /\ is_finite (m_r2c3 r) = true /\
  is_finite (m_r3c1 r) = true /\ is_finite (m_r3c2 r) = true /\ is_finite (m_r3c3 r) = true.
