(** * Properties C18, C19: planar poses *)
From Coq Require Import Reals List Lra Lia Psatz Nsatz Bool Arith.
Import ListNotations.
From Verif Require Import Scalar RInst RLemmas Model_Base Model_Vec Model_Rigid Model_Almath
  Model_Helpers Spec_Geom Proofs_Geom MemTac Proofs_Transform Proofs_Rotation Proofs_Quat.
Local Open Scope R_scope.
From Verif Require Proofs_Plane.

(** ** C18 *)

(** C18: composition of planar poses is associative, with unit (0,0,0). *)
Theorem C18_pose_monoid : forall a b c : Pose2D R,
  pose_mul (pose_mul a b) c = pose_mul a (pose_mul b c) /\
  pose_mul (mkPose2D 0 0 0) a = a /\ pose_mul a (mkPose2D 0 0 0) = a.
Proof. exact @Proofs_Plane.C18_pose_monoid_proof. Qed.
Print Assumptions C18_pose_monoid.

(** C18: inverse(), pinv, pose2dInvertInPlace and pose2DInverse (whose output may be its
    input) compute the same pose, and it is the inverse on both sides. *)
Theorem C18_pose_inverse : forall a : Pose2D R,
  pose_mul a (pose_inverse a) = mkPose2D 0 0 0 /\ pose_mul (pose_inverse a) a = mkPose2D 0 0 0 /\
  pose_pinv a = pose_inverse a /\ pose_invertInPlace a = pose_inverse a /\
  (forall (m : mem (Pose2D R)) i o, m i = a ->
     pose_inverseOut m i o o = pose_inverse a /\ forall x, x <> o -> pose_inverseOut m i o x = m x).
Proof. exact @Proofs_Plane.C18_pose_inverse_proof. Qed.
Print Assumptions C18_pose_inverse.

(** C18: a.diff(b) is the pose that composed with a gives b, and the only one. *)
Theorem C18_pose_diff : forall a b x : Pose2D R,
  pose_mul a (pose_diff a b) = b /\ (pose_mul a x = b -> x = pose_diff a b).
Proof. exact @Proofs_Plane.C18_pose_diff_proof. Qed.
Print Assumptions C18_pose_diff.

(** C18: composing poses is composing their actions on points of the plane, and the
    inverse acts as the inverse map. *)
Theorem C18_pose_action : forall (a b : Pose2D R) (p : Position2D R),
  pose_mul_p2 (pose_mul a b) p = pose_mul_p2 a (pose_mul_p2 b p) /\
  pose_mul_p2 (pose_inverse a) (pose_mul_p2 a p) = p /\
  pose_mul_p2 a p = mkPosition2D
    (pose_x a + cos (pose_theta a) * p2_x p - sin (pose_theta a) * p2_y p)
    (pose_y a + sin (pose_theta a) * p2_x p + cos (pose_theta a) * p2_y p).
Proof. exact @Proofs_Plane.C18_pose_action_proof. Qed.
Print Assumptions C18_pose_action.

Example ex_C18 : pose_inverse (mkPose2D 1 2 PI) = mkPose2D 1 2 (-PI) /\
  pose_mul (mkPose2D 1 2 PI) (mkPose2D 3 0 0) = mkPose2D (-2) 2 PI.
Proof.
  split.
  - unfold pose_inverse, pose_inverseOut, mseq, pose_invertInPlace, mupd. cbn -[cos sin PI].
    rewrite cos_neg, sin_neg, cos_PI, sin_PI. rec_eq; ring.
  - unr. rewrite cos_PI, sin_PI. rec_eq; ring.
Qed.

(** ** C19 *)

(** C19: transformFromPose2D maps product to product, unit to unit, inverse to inverse,
    and gives rigid transforms that turn about the z axis by theta. *)
Theorem C19_homomorphism : forall a b : Pose2D R,
  transformFromPose2D (pose_mul a b) = t_mul (transformFromPose2D a) (transformFromPose2D b) /\
  transformFromPose2D (mkPose2D 0 0 0) = t_id /\
  transformFromPose2D (pose_inverse a) = t_inverse (transformFromPose2D a) /\
  rigid (transformFromPose2D a) /\
  meq (tmat (transformFromPose2D a)) (RZ (pose_theta a)) /\
  tpos (transformFromPose2D a) = (pose_x a, pose_y a, 0).
Proof. exact @Proofs_Plane.C19_homomorphism_proof. Qed.
Print Assumptions C19_homomorphism.

(** C19: pose2DFromTransform recovers a pose with theta in ]-pi, pi], and in general a
    pose with the same position and an angle with the same cosine and sine, in
    ]-pi, pi]. *)
Theorem C19_pose_recovered : forall a : Pose2D R,
  let b := pose2DFromTransform (transformFromPose2D a) in
  (-PI < pose_theta a <= PI -> b = a) /\
  pose_x b = pose_x a /\ pose_y b = pose_y a /\ -PI < pose_theta b <= PI /\
  cos (pose_theta b) = cos (pose_theta a) /\ sin (pose_theta b) = sin (pose_theta a).
Proof. exact @Proofs_Plane.C19_pose_recovered_proof. Qed.
Print Assumptions C19_pose_recovered.

(** C19: the action on the plane z = 0 is the planar action, and the conversions through
    Position6D commute with the one to Transform. *)
Theorem C19_action : forall (a : Pose2D R) (p : Position2D R),
  t_mul_p3 (transformFromPose2D a) (mkPosition3D (p2_x p) (p2_y p) 0) =
    (let q := pose_mul_p2 a p in mkPosition3D (p2_x q) (p2_y q) 0) /\
  t_mul_p2 (transformFromPose2D a) p = (let q := pose_mul_p2 a p in mkPosition3D (p2_x q) (p2_y q) 0) /\
  transformFromPosition6D (position6DFromPose2D a) = transformFromPose2D a /\
  pose2DFromPosition6D (position6DFromPose2D a) = a.
Proof. exact @Proofs_Plane.C19_action_proof. Qed.
Print Assumptions C19_action.

Example ex_C19 : pose2DFromTransform (transformFromPose2D (mkPose2D 1 2 (3*PI))) = mkPose2D 1 2 PI.
Proof.
  rewrite Proofs_Plane.tfp_mk. unfold pose2DFromTransform.
  cbn [t_r1c4 t_r2c4 t_r2c1 t_r1c1 s_atan2 RScalar].
  replace (3*PI) with (PI + 2*INR 1*PI) by (cbn [INR]; ring). rewrite (cos_period PI 1), (sin_period PI 1).
  rewrite Ratan2_cs by (generalize PI_RGT_0; lra). reflexivity.
Qed.
