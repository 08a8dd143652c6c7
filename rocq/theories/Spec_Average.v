(** * Specification vocabulary for the average of transforms *)

From Coq Require Import Reals List.
Import ListNotations.
From Verif Require Import Model_Rigid Spec_Geom.
Local Open Scope R_scope.

(** Sum of a list of vectors and arithmetic mean. *)
Fixpoint vsum (l : list vec3) : vec3 :=
  match l with [] => (0, 0, 0) | v :: r => vadd v (vsum r) end.
Definition vmean (l : list vec3) : vec3 := vscale (/ INR (length l)) (vsum l).

(** Quaternions as vectors of dimension four. *)
Definition qdot (p q : Quaternion R) : R :=
  q_w p * q_w q + q_x p * q_x q + q_y p * q_y q + q_z p * q_z q.
Definition qadd (p q : Quaternion R) : Quaternion R :=
  mkQuaternion (q_w p + q_w q) (q_x p + q_x q) (q_y p + q_y q) (q_z p + q_z q).
Definition qscale (k : R) (q : Quaternion R) : Quaternion R :=
  mkQuaternion (k * q_w q) (k * q_x q) (k * q_y q) (k * q_z q).
Fixpoint qsum (l : list (Quaternion R)) : Quaternion R :=
  match l with [] => mkQuaternion 0 0 0 0 | q :: r => qadd q (qsum r) end.

(** The rotation matrix of a unit quaternion. *)
Definition qmat (q : Quaternion R) : mat3 :=
  let w := q_w q in let x := q_x q in let y := q_y q in let z := q_z q in
  of_rows (1 - 2*(y*y+z*z)) (2*(x*y-z*w))     (2*(x*z+y*w))
          (2*(x*y+z*w))     (1 - 2*(x*x+z*z)) (2*(y*z-x*w))
          (2*(x*z-y*w))     (2*(y*z+x*w))     (1 - 2*(x*x+y*y)).

(** [q] is one of the two unit quaternions of the rotation of [t]. *)
Definition quaternion_of (q : Quaternion R) (t : Transform R) : Prop :=
  unitq q /\ meq (qmat q) (tmat t).

(** The rotations of [s] and [t] differ by a half turn: the trace of their quotient
    is -1. *)
Definition mtrace (A : mat3) : R := sum3 (fun i => A i i).
Definition half_turn_apart (s t : Transform R) : Prop :=
  mtrace (mmul (mtrans (tmat s)) (tmat t)) = -1.
