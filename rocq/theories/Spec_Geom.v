(** * Specification of rigid motions of space

    Independent of how the library represents them: matrices are functions of two
    indices, vectors are triples. *)

From Coq Require Import Reals List.
Import ListNotations.
From Verif Require Import Model_Vec Model_Rigid.
Local Open Scope R_scope.

(** ** Vectors of R^3 *)

Definition vec3 := (R * R * R)%type.
Definition vx (v : vec3) : R := fst (fst v).
Definition vy (v : vec3) : R := snd (fst v).
Definition vz (v : vec3) : R := snd v.
Definition vadd (u v : vec3) : vec3 := (vx u + vx v, vy u + vy v, vz u + vz v).
Definition vsub (u v : vec3) : vec3 := (vx u - vx v, vy u - vy v, vz u - vz v).
Definition vscale (k : R) (v : vec3) : vec3 := (k * vx v, k * vy v, k * vz v).
Definition vdot (u v : vec3) : R := vx u * vx v + vy u * vy v + vz u * vz v.
Definition vcross (u v : vec3) : vec3 :=
  (vy u * vz v - vz u * vy v, vz u * vx v - vx u * vz v, vx u * vy v - vy u * vx v).
Definition vnorm (v : vec3) : R := sqrt (vdot v v).

(** ** 3x3 matrices *)

Definition mat3 := nat -> nat -> R.
Definition sum3 (f : nat -> R) : R := f 0%nat + f 1%nat + f 2%nat.

Definition mmul (A B : mat3) : mat3 := fun i j => sum3 (fun k => A i k * B k j).
Definition mtrans (A : mat3) : mat3 := fun i j => A j i.
Definition mident : mat3 := fun i j => if Nat.eqb i j then 1 else 0.
Definition mapply (A : mat3) (v : vec3) : vec3 :=
  (A 0%nat 0%nat * vx v + A 0%nat 1%nat * vy v + A 0%nat 2%nat * vz v,
   A 1%nat 0%nat * vx v + A 1%nat 1%nat * vy v + A 1%nat 2%nat * vz v,
   A 2%nat 0%nat * vx v + A 2%nat 1%nat * vy v + A 2%nat 2%nat * vz v).
Definition mdet (A : mat3) : R :=
  A 0%nat 0%nat * (A 1%nat 1%nat * A 2%nat 2%nat - A 1%nat 2%nat * A 2%nat 1%nat)
  - A 0%nat 1%nat * (A 1%nat 0%nat * A 2%nat 2%nat - A 1%nat 2%nat * A 2%nat 0%nat)
  + A 0%nat 2%nat * (A 1%nat 0%nat * A 2%nat 1%nat - A 1%nat 1%nat * A 2%nat 0%nat).

(** Equality of the nine coefficients. *)
Definition meq (A B : mat3) : Prop :=
  forall i j, (i < 3)%nat -> (j < 3)%nat -> A i j = B i j.

(** The columns form an orthonormal basis. *)
Definition orthonormal (A : mat3) : Prop := meq (mmul (mtrans A) A) mident.

(** SO(3). *)
Definition proper_rotation (A : mat3) : Prop := orthonormal A /\ mdet A = 1.

(** ** Reading the library's values *)

Definition of_rows (a b c d e f g h k : R) : mat3 := fun i j =>
  match i, j with
  | 0, 0 => a | 0, 1 => b | 0, 2 => c
  | 1, 0 => d | 1, 1 => e | 1, 2 => f
  | 2, 0 => g | 2, 1 => h | 2, 2 => k
  | _, _ => 0%R
  end%nat.

(** The rotation matrix and the translation of a Transform. *)
Definition tmat (t : Transform R) : mat3 :=
  of_rows (t_r1c1 t) (t_r1c2 t) (t_r1c3 t) (t_r2c1 t) (t_r2c2 t) (t_r2c3 t)
          (t_r3c1 t) (t_r3c2 t) (t_r3c3 t).
Definition tpos (t : Transform R) : vec3 := (t_r1c4 t, t_r2c4 t, t_r3c4 t).

Definition rmat (r : Rotation R) : mat3 :=
  of_rows (m_r1c1 r) (m_r1c2 r) (m_r1c3 r) (m_r2c1 r) (m_r2c2 r) (m_r2c3 r)
          (m_r3c1 r) (m_r3c2 r) (m_r3c3 r).

Definition p3v (p : Position3D R) : vec3 := (p3_x p, p3_y p, p3_z p).

(** A Transform is rigid when its matrix is a proper rotation. *)
Definition rigid (t : Transform R) : Prop := proper_rotation (tmat t).
Definition is_rot (r : Rotation R) : Prop := proper_rotation (rmat r).

(** The motion of space a Transform describes: [p |-> M p + t]. *)
Definition motion (t : Transform R) (v : vec3) : vec3 := vadd (mapply (tmat t) v) (tpos t).

(** The three elementary rotations, right-handed, and Rodrigues' formula for the
    rotation of angle [a] about the unit vector [u]. *)
Definition RX (a : R) : mat3 := of_rows 1 0 0 0 (cos a) (- sin a) 0 (sin a) (cos a).
Definition RY (a : R) : mat3 := of_rows (cos a) 0 (sin a) 0 1 0 (- sin a) 0 (cos a).
Definition RZ (a : R) : mat3 := of_rows (cos a) (- sin a) 0 (sin a) (cos a) 0 0 0 1.
Definition rodrigues (a : R) (u v : vec3) : vec3 :=
  vadd (vadd (vscale (cos a) v) (vscale (sin a) (vcross u v)))
       (vscale ((1 - cos a) * vdot u v) u).

(** ** Unit quaternions *)

Definition qnorm2 (q : Quaternion R) : R :=
  q_w q * q_w q + q_x q * q_x q + q_y q * q_y q + q_z q * q_z q.
Definition unitq (q : Quaternion R) : Prop := qnorm2 q = 1.
Definition qneg (q : Quaternion R) : Quaternion R :=
  mkQuaternion (- q_w q) (- q_x q) (- q_y q) (- q_z q).

(** ** Near rotations

    Columns pairwise orthogonal, rows of squared norm 1, determinant 1, each up to
    [eps]. *)
Definition cdot (M : mat3) (i j : nat) : R := sum3 (fun k => M k i * M k j).
Definition rnorm2 (M : mat3) (i : nat) : R := sum3 (fun k => M i k * M i k).
Definition near_rotation (M : mat3) (eps : R) : Prop :=
  (forall i j, (i < j < 3)%nat -> Rabs (cdot M i j) <= eps) /\
  (forall i, (i < 3)%nat -> Rabs (rnorm2 M i - 1) <= eps) /\
  Rabs (mdet M - 1) <= eps.

(** The matrix is the rotation of angle [a] about the unit vector [u]. *)
Definition turns_about (M : mat3) (a : R) (u : vec3) : Prop :=
  vdot u u = 1 /\ forall v, mapply M v = rodrigues a u v.

(** The linear and the angular part of a Velocity6D. *)
Definition vlin (v : Velocity6D R) : vec3 := (v6_xd v, v6_yd v, v6_zd v).
Definition vang (v : Velocity6D R) : vec3 := (v6_wxd v, v6_wyd v, v6_wzd v).
