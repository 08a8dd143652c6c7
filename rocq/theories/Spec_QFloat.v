(** * Quaternions of floats, and the quaternions they stand for *)

From Coq Require Import Reals List Bool.
Import ListNotations.
From Flocq Require Import Core.Core IEEE754.BinarySingleNaN.
From Verif Require Import Scalar RInst Model_Base Model_Vec Model_Rigid F32 Spec_Geom Spec_Average Spec_Round.
Local Open Scope R_scope.

(** The quaternion of real numbers a quaternion of floats stands for. *)
Definition quval (q : Quaternion f32) : Quaternion R :=
  mkQuaternion (val (q_w q)) (val (q_x q)) (val (q_y q)) (val (q_z q)).

(** No infinity and no NaN. *)
Definition finite_qu (q : Quaternion f32) : Prop :=
  is_finite (q_w q) = true /\ is_finite (q_x q) = true /\ is_finite (q_y q) = true /\ is_finite (q_z q) = true.

(** Euclidean norm of the four components, and difference. *)
Definition qn (q : Quaternion R) : R := sqrt (qnorm2 q).
Definition qsub (a b : Quaternion R) : Quaternion R :=
  mkQuaternion (q_w a - q_w b) (q_x a - q_x b) (q_y a - q_y b) (q_z a - q_z b).

(** Hamilton's product. *)
Definition hamilton (a b : Quaternion R) : Quaternion R :=
  mkQuaternion (q_w a * q_w b - q_x a * q_x b - q_y a * q_y b - q_z a * q_z b)
               (q_w a * q_x b + q_x a * q_w b + q_y a * q_z b - q_z a * q_y b)
               (q_w a * q_y b + q_y a * q_w b + q_z a * q_x b - q_x a * q_z b)
               (q_w a * q_z b + q_z a * q_w b + q_x a * q_y b - q_y a * q_x b).

(** [near_unit d q r]: the floats of [q] are finite and [q] is within [d] of the unit
    quaternion [r]. *)
Definition near_unit (d : R) (q : Quaternion f32) (r : Quaternion R) : Prop :=
  finite_qu q /\ unitq r /\ qn (qsub (quval q) r) <= d.

(** q1 * q2 * ... * qn, multiplied from the left: with floats, and Hamilton's. *)
Definition qproduct {T} {S : Scalar T} (l : list (Quaternion T)) : Quaternion T := fold_left q_mul l q_id.
Definition hproduct (l : list (Quaternion R)) : Quaternion R := fold_left hamilton l (mkQuaternion 1 0 0 0).

(** The quaternion divided by its norm. *)
Definition qdirection (q : Quaternion R) : Quaternion R :=
  mkQuaternion (q_w q / qn q) (q_x q / qn q) (q_y q / qn q) (q_z q / qn q).

(** The quaternion of the rotation of angle [a] about [u]. *)
Definition half_turn_of (a : R) (u : vec3) : Quaternion R :=
  mkQuaternion (cos (a / 2)) (vx u * sin (a / 2)) (vy u * sin (a / 2)) (vz u * sin (a / 2)).
