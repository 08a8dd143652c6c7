(** * Property C50: URDF poses *)
From Coq Require Import Reals List Lra Lia Psatz Nsatz Bool Arith.
Import ListNotations.
From Verif Require Import Scalar RInst RLemmas Model_Base Model_Vec Model_Rigid Model_Average Model_Pose
  Spec_Geom Spec_Average Spec_Pose SO3 SO3Quat Proofs_Geom Proofs_Quat Proofs_Average.
Local Open Scope R_scope.
From Verif Require Proofs_Pose.

(** ** C50 *)

(** The transform of a pose is yaw about z after pitch about y after roll about x,
    then the translation. *)
Theorem C50_transform : forall (p : Pose R) (v : vec3),
  motion (toEigenTransform p) v = pose_motion p v /\ rigid (toEigenTransform p).
Proof. exact @Proofs_Pose.C50_transform_proof. Qed.
Print Assumptions C50_transform.

(** The three angles computed from any rotation matrix give back this matrix, gimbal
    lock included; the third (yaw) is in [0, pi]. *)
Theorem C50_angles : forall m : Transform R, rigid m ->
  meq (rpy_mat (rpy_of_matrix m)) (tmat m) /\ 0 <= vz (rpy_of_matrix m) <= PI.
Proof. exact @Proofs_Pose.C50_angles_proof. Qed.
Print Assumptions C50_angles.

(** The product of two poses stands for the composition of their displacements. *)
Theorem C50_product : forall (p q : Pose R) (v : vec3),
  pose_motion (pose_mul p q) v = pose_motion p (pose_motion q v).
Proof. exact @Proofs_Pose.C50_product_proof. Qed.
Print Assumptions C50_product.

(** The inverse of a pose stands for the inverse displacement. *)
Theorem C50_inverse : forall (p : Pose R) (v : vec3),
  pose_motion (pose_inverse p) (pose_motion p v) = v /\
  pose_motion p (pose_motion (pose_inverse p) v) = v.
Proof. exact @Proofs_Pose.C50_inverse_proof. Qed.
Print Assumptions C50_inverse.

(** Group laws on the displacements: associativity, neutral element, inverse of a
    product. *)
Theorem C50_group : forall p q r : Pose R,
  same_motion (pose_mul (pose_mul p q) r) (pose_mul p (pose_mul q r)) /\
  same_motion (pose_mul p (pose_inverse p)) pose_id /\
  same_motion (pose_mul (pose_inverse p) p) pose_id /\
  same_motion (pose_inverse (pose_mul p q)) (pose_mul (pose_inverse q) (pose_inverse p)) /\
  same_motion (pose_inverse (pose_inverse p)) p.
Proof. exact @Proofs_Pose.C50_group_proof. Qed.
Print Assumptions C50_group.

(** Composing with the default pose, on either side, and inverting the default pose,
    return the same numbers unchanged. *)
Theorem C50_neutral : forall p : Pose R,
  pose_mul p pose_id = p /\ pose_mul pose_id p = p /\ pose_inverse pose_id = pose_id.
Proof. exact @Proofs_Pose.C50_neutral_proof. Qed.
Print Assumptions C50_neutral.

(** A pose written to an "origin" element is read back unchanged, and the element is
    left out exactly for the default pose. *)
Theorem C50_origin_element : forall p : Pose R,
  pose_from (pose_to p) = p /\ (pose_to p = None <-> p = pose_id).
Proof. exact @Proofs_Pose.C50_origin_element_proof. Qed.
Print Assumptions C50_origin_element.

(** Gimbal lock: pitch of a quarter turn. *)
Example C50_angles_inhabited :
  rigid (mkTransform 0 0 1 0 0 1 0 0 (-1) 0 0 0) /\
  vy (rpy_of_matrix (mkTransform 0 0 1 0 0 1 0 0 (-1) 0 0 0)) = PI / 2.
Proof.
  split; [apply rigid_mk; repeat split; lra|].
  unfold rpy_of_matrix, vy. cbn [t_r1c1 t_r1c2 t_r1c3 t_r2c1 t_r2c2 t_r2c3 t_r3c1 t_r3c2 t_r3c3 fst snd].
  cbv [s_atan2 s_ltb s_pi s_add s_mul s_neg s_sqrt s_ofZ RScalar].
  rewrite Ratan2_00, Rltb_false by lra. replace (0*0+0*0) with 0 by ring. rewrite sqrt_0.
  replace (- -1) with (1 * sin (PI/2)) by (rewrite sin_PI2; ring).
  replace 0 with (1 * cos (PI/2)) at 1 by (rewrite cos_PI2; ring).
  apply Ratan2_polar; [lra|]. pose proof PI_RGT_0. lra.
Qed.

(** Two poses with rotations about different axes do not commute, so the order in
    C50_product matters. *)
Example C50_product_inhabited :
  pose_motion (pose_mul (mkPose (1,0,0) (0,0,PI/2)) (mkPose (0,0,0) (PI/2,0,0))) (0,1,0) = (1,0,1) /\
  pose_motion (pose_mul (mkPose (0,0,0) (PI/2,0,0)) (mkPose (1,0,0) (0,0,PI/2))) (0,1,0) = (0,0,0).
Proof.
  rewrite !C50_product.
  unfold pose_motion, rpy_mat, mapply, mmul, sum3, RX, RY, RZ, of_rows, vadd, vx, vy, vz.
  cbn [p_rpy p_xyz fst snd]. rewrite cos_0, sin_0, cos_PI2, sin_PI2.
  split; repeat apply f_equal2; ring.
Qed.
