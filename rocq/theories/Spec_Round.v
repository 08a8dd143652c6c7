(** * Values of floats and of transforms of floats, norms *)

From Coq Require Import Reals List Bool.
Import ListNotations.
From Flocq Require Import Core.Core IEEE754.BinarySingleNaN.
From Verif Require Import Scalar RInst Model_Base Model_Vec Model_Rigid F32 Spec_Geom.
Local Open Scope R_scope.

(** The real number a float stands for. *)
Definition val (x : f32) : R := B2R x.

(** The transform of real numbers a transform of floats stands for. *)
Definition tval (a : Transform f32) : Transform R :=
  mkTransform (val (t_r1c1 a)) (val (t_r1c2 a)) (val (t_r1c3 a)) (val (t_r1c4 a))
              (val (t_r2c1 a)) (val (t_r2c2 a)) (val (t_r2c3 a)) (val (t_r2c4 a))
              (val (t_r3c1 a)) (val (t_r3c2 a)) (val (t_r3c3 a)) (val (t_r3c4 a)).

Definition coefs {T} (a : Transform T) : list T :=
  [t_r1c1 a; t_r1c2 a; t_r1c3 a; t_r1c4 a; t_r2c1 a; t_r2c2 a; t_r2c3 a; t_r2c4 a;
   t_r3c1 a; t_r3c2 a; t_r3c3 a; t_r3c4 a].

(** No infinity and no NaN among the twelve floats. *)
Definition finite_t (a : Transform f32) : Prop := Forall (fun x => is_finite x = true) (coefs a).

(** None of the coefficients is larger than [M]. *)
Definition within_t (M : R) (a : Transform R) : Prop := Forall (fun x => Rabs x <= M) (coefs a).

(** The coordinates of a vector, by number. *)
Definition vc (v : vec3) (i : nat) : R := match i with 0%nat => vx v | 1%nat => vy v | _ => vz v end.

(** Frobenius norm: the square root of the sum of the squares of the coefficients. *)
Definition fro (M : mat3) : R := sqrt (sum3 (fun i => sum3 (fun j => M i j * M i j))).
Definition mdiff (A B : mat3) : mat3 := fun i j => A i j - B i j.

(** T1 * T2 * ... * Tn, multiplied from the left. *)
Definition product {T} {S : Scalar T} (l : list (Transform T)) : Transform T := fold_left t_mul l t_id.

(** [close d a r]: the floats of [a] are finite, the rotation part of [a] is within [d] of
    that of the rigid transform [r] and both have the same translation. *)
Definition close (d : R) (a : Transform f32) (r : Transform R) : Prop :=
  finite_t a /\ rigid r /\ fro (mdiff (tmat (tval a)) (tmat r)) <= d /\ tpos (tval a) = tpos r.

(** The functions cos and sin of the library return floats within [e] of the exact value. *)
Definition accurate (L : libm32) (e : R) : Prop :=
  forall x : f32, is_finite x = true ->
    is_finite (l_cos L x) = true /\ Rabs (val (l_cos L x) - cos (val x)) <= e /\
    is_finite (l_sin L x) = true /\ Rabs (val (l_sin L x) - sin (val x)) <= e.

(** The transform with rotation part [M] and translation [p]. *)
Definition place (M : mat3) (p : vec3) : Transform R :=
  mkTransform (M 0%nat 0%nat) (M 0%nat 1%nat) (M 0%nat 2%nat) (vx p)
              (M 1%nat 0%nat) (M 1%nat 1%nat) (M 1%nat 2%nat) (vy p)
              (M 2%nat 0%nat) (M 2%nat 1%nat) (M 2%nat 2%nat) (vz p).

(** The vector a Position3D of floats stands for. *)
Definition pval (p : Position3D f32) : vec3 := (val (p3_x p), val (p3_y p), val (p3_z p)).
Definition finite_p (p : Position3D f32) : Prop :=
  is_finite (p3_x p) = true /\ is_finite (p3_y p) = true /\ is_finite (p3_z p) = true.

(** Six finite floats: a position and three angles. *)
Definition finite_pose (p : Position6D f32) : Prop :=
  is_finite (p6_x p) = true /\ is_finite (p6_y p) = true /\ is_finite (p6_z p) = true /\
  is_finite (p6_wx p) = true /\ is_finite (p6_wy p) = true /\ is_finite (p6_wz p) = true.
(** The rigid transform they stand for: rotation of wx about x, then wy about y, then wz
    about z, then the translation. *)
Definition pose_exact (p : Position6D f32) : Transform R :=
  place (mmul (RZ (val (p6_wz p))) (mmul (RY (val (p6_wy p))) (RX (val (p6_wx p)))))
        (val (p6_x p), val (p6_y p), val (p6_z p)).
