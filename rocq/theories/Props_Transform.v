(** * Properties C01 - C10: transforms and rotations *)
From Coq Require Import Reals List Lra Lia Psatz Nsatz Bool Arith.
Import ListNotations.
From Verif Require Import Scalar RInst RLemmas Model_Base Model_Vec Model_Rigid Model_Almath
  Model_Helpers Spec_Geom Proofs_Geom MemTac F32.
Local Open Scope R_scope.
From Verif Require Proofs_Transform.

(** ** C01 *)

(** C01: the product of transforms is associative. *)
Theorem C01_transform_mul_assoc : forall a b c : Transform R,
  t_mul (t_mul a b) c = t_mul a (t_mul b c).
Proof. exact @Proofs_Transform.C01_transform_mul_assoc_proof. Qed.
Print Assumptions C01_transform_mul_assoc.

(** C01: the default transform is a unit on both sides. *)
Theorem C01_transform_identity : forall a : Transform R,
  t_mul t_id a = a /\ t_mul a t_id = a.
Proof. exact @Proofs_Transform.C01_transform_identity_proof. Qed.
Print Assumptions C01_transform_identity.

(** C01: the product describes the composition of the two motions of space, and the
    default transform the motion that moves nothing. *)
Theorem C01_transform_mul_is_composition : forall (a b : Transform R) (v : vec3),
  motion (t_mul a b) v = motion a (motion b v) /\ motion t_id v = v.
Proof. exact @Proofs_Transform.C01_transform_mul_is_composition_proof. Qed.
Print Assumptions C01_transform_mul_is_composition.

Example ex_C01_not_commutative :
  t_mul (mkTransform 0 (-1) 0 1 1 0 0 2 0 0 1 3) (mkTransform 1 0 0 5 0 1 0 0 0 0 1 0)
  = mkTransform 0 (-1) 0 1 1 0 0 7 0 0 1 3 /\
  t_mul (mkTransform 1 0 0 5 0 1 0 0 0 0 1 0) (mkTransform 0 (-1) 0 1 1 0 0 2 0 0 1 3)
  = mkTransform 0 (-1) 0 6 1 0 0 2 0 0 1 3.
Proof. split; unr; rec_eq; ring. Qed.

(** ** C02 *)

(** C02, Transform: [a *= b] leaves in [a] what [a * b] returns, and changes nothing
    else.  [o] and [q] are the addresses of [a] and [b], equal or not; for every
    arithmetic, in particular binary32. *)
Theorem C02_transform_mul_assign : forall (T : Type) (S : Scalar T) (m : mem (Transform T)) (o q : nat),
  t_mulIn m o q o = t_mul (m o) (m q) /\ (forall x, x <> o -> t_mulIn m o q x = m x).
Proof. exact @Proofs_Transform.C02_transform_mul_assign_proof. Qed.
Print Assumptions C02_transform_mul_assign.

(** C02, Rotation. *)
Theorem C02_rotation_mul_assign : forall (T : Type) (S : Scalar T) (m : mem (Rotation T)) (o q : nat),
  m_mulIn m o q o = m_mul (m o) (m q) /\ (forall x, x <> o -> m_mulIn m o q x = m x).
Proof. exact @Proofs_Transform.C02_rotation_mul_assign_proof. Qed.
Print Assumptions C02_rotation_mul_assign.

(** C02, Rotation: the product is the matrix product. *)
Theorem C02_rotation_product_is_matrix_product : forall a b : Rotation R,
  meq (rmat (m_mul a b)) (mmul (rmat a) (rmat b)).
Proof. exact @Proofs_Transform.C02_rotation_product_is_matrix_product_proof. Qed.
Print Assumptions C02_rotation_product_is_matrix_product.

(** C02, Quaternion. *)
Theorem C02_quaternion_mul_assign : forall (T : Type) (S : Scalar T) (m : mem (Quaternion T)) (o q : nat),
  q_mulIn m o q o = q_mul (m o) (m q) /\ (forall x, x <> o -> q_mulIn m o q x = m x).
Proof. exact @Proofs_Transform.C02_quaternion_mul_assign_proof. Qed.
Print Assumptions C02_quaternion_mul_assign.

(** C02, Displacement. *)
Theorem C02_displacement_mul_assign : forall (T : Type) (S : Scalar T) (m : mem (Displacement T)) (o q : nat),
  d_mulIn m o q o = d_mul (m o) (m q) /\ (forall x, x <> o -> d_mulIn m o q x = m x).
Proof. exact @Proofs_Transform.C02_displacement_mul_assign_proof. Qed.
Print Assumptions C02_displacement_mul_assign.

(** C02, Pose2D, over the reals: the two operators associate their sums differently, so
    the equality is exact in ideal arithmetic only. In binary32 it is false, see the next
    theorem; C70_mul_assign bounds the difference. *)
Theorem C02_pose2d_mul_assign_reals : forall (m : mem (Pose2D R)) (o q : nat),
  pose_mulIn m o q o = pose_mul (m o) (m q) /\ (forall x, x <> o -> pose_mulIn m o q x = m x).
Proof. exact @Proofs_Transform.C02_pose2d_mul_assign_reals_proof. Qed.
Print Assumptions C02_pose2d_mul_assign_reals.

(** C02, Pose2D in binary32: with a libm that returns for the float 0.5 the correctly
    rounded cosine and sine, [(20, 0, 0.5) *= (2, 0.5, 0)] and the binary product leave
    different floats in x. *)
Theorem C02_pose2d_mul_assign_binary32_refuted : forall L : libm32,
  l_cos L (f32_frac 1 2) = f32_frac 230053 262144 ->
  l_sin L (f32_frac 1 2) = f32_frac 4021713 8388608 ->
  exists (m : mem (Pose2D f32)),
    pose_eqb (S := F32Scalar L) (pose_mulIn (S := F32Scalar L) m 0%nat 1%nat 0%nat)
             (pose_mul (S := F32Scalar L) (m 0%nat) (m 1%nat)) = false.
Proof. exact @Proofs_Transform.C02_pose2d_mul_assign_binary32_refuted_proof. Qed.
Print Assumptions C02_pose2d_mul_assign_binary32_refuted.

Example ex_C02_libm : exists L : libm32,
  l_cos L (f32_frac 1 2) = f32_frac 230053 262144 /\ l_sin L (f32_frac 1 2) = f32_frac 4021713 8388608.
Proof.
  exists (Build_libm32 (fun _ => f32_frac 230053 262144) (fun _ => f32_frac 4021713 8388608)
           (fun _ => f32_ofZ 0) (fun _ _ => f32_ofZ 0)).
  split; reflexivity.
Qed.

Example ex_C02_self :
  t_mulIn (fun _ => mkTransform 0 (-1) 0 1 1 0 0 2 0 0 1 3) 7 7 7%nat
  = mkTransform (-1) 0 0 (-1) 0 (-1) 0 3 0 0 1 6.
Proof. unr; rec_eq; ring. Qed.

(** ** C03 *)

(** C03: when the columns of the rotation part are orthonormal, [inverse()] is the
    inverse on both sides. *)
Theorem C03_transform_inverse : forall t : Transform R, orthonormal (tmat t) ->
  t_mul t (t_inverse t) = t_id /\ t_mul (t_inverse t) t = t_id.
Proof. exact @Proofs_Transform.C03_transform_inverse_proof. Qed.
Print Assumptions C03_transform_inverse.

Example ex_C03_hyp : orthonormal (tmat (mkTransform (3/5) (-4/5) 0 10 (4/5) (3/5) 0 20 0 0 1 30)).
Proof. apply orthonormal_of_rows. unr. repeat split; field. Qed.

(** C03: and only then. *)
Theorem C03_transform_inverse_converse : forall t : Transform R,
  t_mul (t_inverse t) t = t_id -> orthonormal (tmat t).
Proof. exact @Proofs_Transform.C03_transform_inverse_converse_proof. Qed.
Print Assumptions C03_transform_inverse_converse.

(** C03: transformInverse, transformInvertInPlace and pinv give the same floats, for
    every arithmetic. *)
Theorem C03_inverse_variants_agree : forall (T : Type) (S : Scalar T) (a : Transform T),
  t_invertInPlace a = t_inverse a /\ t_pinv a = t_inverse a.
Proof. exact @Proofs_Transform.C03_inverse_variants_agree_proof. Qed.
Print Assumptions C03_inverse_variants_agree.

(** C03: transformInverse(in, out) with [in] and [out] distinct objects writes the
    inverse in [out] and nothing else. *)
Theorem C03_transformInverse_out : forall (T : Type) (S : Scalar T) (m : mem (Transform T)) (i o : nat),
  i <> o ->
  t_inverseOut m i o o = t_inverse (m i) /\ (forall x, x <> o -> t_inverseOut m i o x = m x).
Proof. exact @Proofs_Transform.C03_transformInverse_out_proof. Qed.
Print Assumptions C03_transformInverse_out.

(** C03, violated: transformInverse(T, T), with the same object as input and output,
    does not invert T. *)
Theorem C03_transformInverse_aliased_refuted : exists m : mem (Transform R),
  rigid (m 0%nat) /\ t_mul (m 0%nat) (t_inverseOut m 0 0 0%nat) <> t_id.
Proof. exact @Proofs_Transform.C03_transformInverse_aliased_refuted_proof. Qed.
Print Assumptions C03_transformInverse_aliased_refuted.

(** C03: transformDiff(A, B) is the one X such that A * X = B. *)
Theorem C03_transformDiff : forall a b : Transform R, orthonormal (tmat a) ->
  t_mul a (t_diff a b) = b /\ (forall x, t_mul a x = b -> x = t_diff a b).
Proof. exact @Proofs_Transform.C03_transformDiff_proof. Qed.
Print Assumptions C03_transformDiff.

(** ** C04 *)

(** C04: transforming a point is the motion the transform describes, and products act
    by composition. *)
Theorem C04_transform_action : forall (a b : Transform R) (p : Position3D R),
  p3v (t_mul_p3 a p) = motion a (p3v p) /\
  t_mul_p3 (t_mul a b) p = t_mul_p3 a (t_mul_p3 b p) /\
  t_mul_p3 t_id p = p.
Proof. exact @Proofs_Transform.C04_transform_action_proof. Qed.
Print Assumptions C04_transform_action.

(** C04: a Position2D is transformed as the point of altitude zero. *)
Theorem C04_transform_position2d : forall (a : Transform R) (p : Position2D R),
  t_mul_p2 a p = t_mul_p3 a (mkPosition3D (p2_x p) (p2_y p) 0).
Proof. exact @Proofs_Transform.C04_transform_position2d_proof. Qed.
Print Assumptions C04_transform_position2d.

(** C04: a transform with orthonormal rotation part preserves distances. *)
Theorem C04_transform_isometry : forall (a : Transform R) (p q : Position3D R), orthonormal (tmat a) ->
  p3_distance (t_mul_p3 a p) (t_mul_p3 a q) = p3_distance p q.
Proof. exact @Proofs_Transform.C04_transform_isometry_proof. Qed.
Print Assumptions C04_transform_isometry.

(** C04: a Rotation acts by its matrix, compatibly with the product, and preserves
    distances when orthonormal. *)
Theorem C04_rotation_action : forall (a b : Rotation R) (p q : Position3D R),
  p3v (m_mul_p3 a p) = mapply (rmat a) (p3v p) /\
  m_mul_p3 (m_mul a b) p = m_mul_p3 a (m_mul_p3 b p) /\
  m_mul_p3 m_id p = p /\
  (orthonormal (rmat a) -> p3_distance (m_mul_p3 a p) (m_mul_p3 a q) = p3_distance p q).
Proof. exact @Proofs_Transform.C04_rotation_action_proof. Qed.
Print Assumptions C04_rotation_action.

(** C04: Pose2D acts on the plane. *)
Theorem C04_pose2d_action : forall (a b : Pose2D R) (p q : Position2D R),
  pose_mul_p2 (pose_mul a b) p = pose_mul_p2 a (pose_mul_p2 b p) /\
  pose_mul_p2 pose_default p = p /\
  p2_distance (pose_mul_p2 a p) (pose_mul_p2 a q) = p2_distance p q.
Proof. exact @Proofs_Transform.C04_pose2d_action_proof. Qed.
Print Assumptions C04_pose2d_action.

(** C04: a unit quaternion acts on vectors, compatibly with the product, preserving
    distances. *)
Theorem C04_quaternion_action : forall (a b : Quaternion R) (p q : Position3D R),
  q_apply (q_mul a b) p = q_apply a (q_apply b p) /\
  q_apply q_id p = p /\
  (unitq a -> p3_distance (q_apply a p) (q_apply a q) = p3_distance p q).
Proof. exact @Proofs_Transform.C04_quaternion_action_proof. Qed.
Print Assumptions C04_quaternion_action.

Example ex_C04_unitq : unitq (mkQuaternion (1/2) (1/2) (-1/2) (1/2)).
Proof. unr. field. Qed.
