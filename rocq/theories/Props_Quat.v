(** * Properties C11 - C15, C20: Euler angles, quaternions, axis and angle *)
From Coq Require Import Reals List Lra Lia Psatz Nsatz Bool Arith.
Import ListNotations.
From Verif Require Import Scalar RInst RLemmas Model_Base Model_Vec Model_Rigid Model_Almath
  Model_Helpers Spec_Geom Proofs_Geom MemTac SO3Quat Proofs_Transform Proofs_Rotation.
Local Open Scope R_scope.
From Verif Require Proofs_Quat.

(** ** C11 *)

(** C11: for every rigid transform (gimbal lock included) the Euler angles extracted
    from it rebuild it: position6DFromTransform then transformFromPosition6D is the
    identity, and rotation3DFromTransform then transformFromRotation3D gives its rotation
    part without translation. *)
Theorem C11_transform_round_trip : forall t : Transform R, rigid t ->
  transformFromPosition6D (position6DFromTransform t) = t /\
  transformFromRotation3D (rotation3DFromTransform t) = transformFromRotation (rotationFromTransform t).
Proof. exact @Proofs_Quat.C11_transform_round_trip_proof. Qed.
Print Assumptions C11_transform_round_trip.

(** C11: the same for Rotation and for a unit quaternion. *)
Theorem C11_rotation_round_trip :
  (forall r : Rotation R, is_rot r ->
   m_from3DRotation (e3_wx (rotation3DFromRotation r)) (e3_wy (rotation3DFromRotation r))
                    (e3_wz (rotation3DFromRotation r)) = r) /\
  (forall q : Quaternion R, unitq q ->
   m_from3DRotation (e3_wx (rotation3DFromQuaternion q)) (e3_wy (rotation3DFromQuaternion q))
                    (e3_wz (rotation3DFromQuaternion q)) = rotationFromQuaternion q).
Proof. exact @Proofs_Quat.C11_rotation_round_trip_proof. Qed.
Print Assumptions C11_rotation_round_trip.

(** C11: the extracted angles are in the documented ranges: wx and wz in ]-pi, pi], wy in
    [-pi/2, pi/2]. *)
Theorem C11_angles_range : forall t : Transform R,
  let r := rotation3DFromTransform t in
  -PI < e3_wx r <= PI /\ -(PI/2) <= e3_wy r <= PI/2 /\ -PI < e3_wz r <= PI.
Proof. exact @Proofs_Quat.C11_angles_range_proof. Qed.
Print Assumptions C11_angles_range.

(** C11: conversely, angles in those ranges, away from gimbal lock, are recovered
    exactly. *)
Theorem C11_angles_recovered : forall x y z wx wy wz : R,
  -PI < wx <= PI -> -(PI/2) < wy < PI/2 -> -PI < wz <= PI ->
  rotation3DFromTransform (transformFromRotation3D (mkRotation3D wx wy wz)) = mkRotation3D wx wy wz /\
  position6DFromTransform (transformFromPosition6D (mkPosition6D x y z wx wy wz))
  = mkPosition6D x y z wx wy wz.
Proof. exact @Proofs_Quat.C11_angles_recovered_proof. Qed.
Print Assumptions C11_angles_recovered.

Example ex_C11_gimbal : rigid (mkTransform 0 0 1 4 0 1 0 5 (-1) 0 0 6) /\
  e3_wy (rotation3DFromTransform (mkTransform 0 0 1 4 0 1 0 5 (-1) 0 0 6)) = PI/2.
Proof.
  split; [apply rigid_mk; repeat split; ring|].
  cbn -[Ratan2 cos sin PI]. rewrite Ratan2_00, cos_0, sin_0.
  replace (1*0+0*0) with 0 by ring. replace (- (-1)) with 1 by ring.
  unfold Ratan2. destruct (Rlt_dec 0 0); [lra|]. destruct (Rlt_dec 0 1); lra.
Qed.

(** C11: quaternionFromRotation3D gives the unit quaternion of the same rotation. *)
Theorem C11_quaternion_from_angles : forall wx wy wz : R,
  let q := quaternionFromRotation3D (mkRotation3D wx wy wz) in
  unitq q /\ rotationFromQuaternion q = m_from3DRotation wx wy wz.
Proof. exact @Proofs_Quat.C11_quaternion_from_angles_proof. Qed.
Print Assumptions C11_quaternion_from_angles.

(** ** C12 *)

(** C12: quaternion product: associative, unit (1,0,0,0) on both sides. *)
Theorem C12_quaternion_monoid : forall a b c : Quaternion R,
  q_mul (q_mul a b) c = q_mul a (q_mul b c) /\ q_mul q_id a = a /\ q_mul a q_id = a.
Proof. exact @Proofs_Quat.C12_quaternion_monoid_proof. Qed.
Print Assumptions C12_quaternion_monoid.

(** C12: norm() is the Euclidean norm of the four components and is multiplicative. *)
Theorem C12_norm_multiplicative : forall a b : Quaternion R,
  q_norm a = sqrt (qnorm2 a) /\ q_norm (q_mul a b) = q_norm a * q_norm b.
Proof. exact @Proofs_Quat.C12_norm_multiplicative_proof. Qed.
Print Assumptions C12_norm_multiplicative.

(** C12: inverse() is the inverse, on both sides, of a unit quaternion (in general the
    product is the squared norm), also through quaternionInverse with the same object as
    input and output. *)
Theorem C12_inverse : forall (a : Quaternion R),
  (unitq a -> q_mul a (q_inverse a) = q_id /\ q_mul (q_inverse a) a = q_id) /\
  q_mul a (q_inverse a) = mkQuaternion (qnorm2 a) 0 0 0 /\
  (forall (m : mem (Quaternion R)) i o,
     q_inverseOut m i o o = q_inverse (m i) /\ (forall x, x <> o -> q_inverseOut m i o x = m x)).
Proof. exact @Proofs_Quat.C12_inverse_proof. Qed.
Print Assumptions C12_inverse.

(** C12: normalize() throws exactly on the null quaternion; otherwise it returns a unit
    quaternion, positively proportional to its argument. *)
Theorem C12_normalize : forall a : Quaternion R,
  (q_normalize a = Throw <-> a = mkQuaternion 0 0 0 0) /\
  (a <> mkQuaternion 0 0 0 0 ->
   exists k, 0 < k /\ q_normalize a = Ok (q_scale a k) /\ unitq (q_scale a k)).
Proof. exact @Proofs_Quat.C12_normalize_proof. Qed.
Print Assumptions C12_normalize.

Example ex_C12 : q_mul (mkQuaternion 0 1 0 0) (mkQuaternion 0 0 1 0) = mkQuaternion 0 0 0 1 /\
  q_mul (mkQuaternion 0 0 1 0) (mkQuaternion 0 1 0 0) = mkQuaternion 0 0 0 (-1).
Proof. split; unr; rec_eq; ring. Qed.

(** ** C13 *)

(** C13: the rotation of a product of unit quaternions is the product of the rotations;
    opposite quaternions give the same rotation; the two constructors of rotations and
    the constructor of transforms agree. *)
Theorem C13_homomorphism : forall p q : Quaternion R, unitq p -> unitq q ->
  rotationFromQuaternion (q_mul p q) = m_mul (rotationFromQuaternion p) (rotationFromQuaternion q) /\
  transformFromQuaternion (q_mul p q) = t_mul (transformFromQuaternion p) (transformFromQuaternion q) /\
  rotationFromQuaternion (q_inverse q) = m_transpose (rotationFromQuaternion q) /\
  rotationFromQuaternion (qneg q) = rotationFromQuaternion q /\
  m_fromQuaternion4 (q_w q) (q_x q) (q_y q) (q_z q) = rotationFromQuaternion q /\
  transformFromQuaternion q = transformFromRotation (rotationFromQuaternion q) /\
  rotationFromQuaternion (@q_id R _) = m_id.
Proof. exact @Proofs_Quat.C13_homomorphism_proof. Qed.
Print Assumptions C13_homomorphism.

(** C13: rotating a point by a unit quaternion or by its matrix is the same. *)
Theorem C13_apply : forall (q : Quaternion R) (p : Position3D R), unitq q ->
  q_apply q p = m_mul_p3 (rotationFromQuaternion q) p.
Proof. exact @Proofs_Quat.C13_apply_proof. Qed.
Print Assumptions C13_apply.

(** C13: for every rigid transform (half turns included) quaternionFromTransform returns
    a unit quaternion, with non-negative real part, whose matrix is the one given. *)
Theorem C13_quaternion_from_transform : forall t : Transform R, rigid t ->
  let q := quaternionFromTransform t in
  unitq q /\ 0 <= q_w q /\ rotationFromQuaternion q = rotationFromTransform t.
Proof. exact @Proofs_Quat.C13_quaternion_from_transform_proof. Qed.
Print Assumptions C13_quaternion_from_transform.

(** C13: and it inverts transformFromQuaternion up to the sign of the quaternion. *)
Theorem C13_quaternion_recovered : forall q : Quaternion R, unitq q ->
  quaternionFromTransform (transformFromQuaternion q) = q \/
  quaternionFromTransform (transformFromQuaternion q) = qneg q.
Proof. exact @Proofs_Quat.C13_quaternion_recovered_proof. Qed.
Print Assumptions C13_quaternion_recovered.

(** C13: two unit quaternions with the same rotation are equal or opposite. *)
Theorem C13_quaternion_double_cover : forall p q : Quaternion R, unitq p -> unitq q ->
  rotationFromQuaternion p = rotationFromQuaternion q -> p = q \/ p = qneg q.
Proof. exact @Proofs_Quat.C13_quaternion_double_cover_proof. Qed.
Print Assumptions C13_quaternion_double_cover.

Example ex_C13_half_turn : rigid (mkTransform (-7/25) (24/25) 0 1 (24/25) (7/25) 0 2 0 0 (-1) 3).
Proof. apply rigid_mk. repeat split; field. Qed.

(** ** C14 *)

(** C14: for a unit axis, quaternionFromAngleAndAxisRotation returns the unit quaternion
    of the rotation of that angle about that axis (Rodrigues' formula of the
    specification). Other axes: C14_from_angle_axis_exact. *)
Theorem C14_from_angle_axis : forall a x y z : R, x*x+y*y+z*z = 1 ->
  exists q, q_fromAngleAndAxis a x y z = Ok q /\ unitq q /\
  (forall p, p3v (q_apply q p) = rodrigues a (x, y, z) (p3v p)) /\
  (forall p, p3v (m_mul_p3 (rotationFromQuaternion q) p) = rodrigues a (x, y, z) (p3v p)).
Proof. exact @Proofs_Quat.C14_from_angle_axis_proof. Qed.
Print Assumptions C14_from_angle_axis.

Example ex_C14_axis : (6/11)*(6/11) + (-2/11)*(-2/11) + (9/11)*(9/11) = 1.
Proof. field. Qed.

(** C14, violated: the normalisation of the result is computed and thrown away, so a
    non-unit axis gives a quaternion that is not unit (and whose matrix is no rotation). *)
Theorem C14_non_unit_axis_refuted : exists q, q_fromAngleAndAxis PI 2 0 0 = Ok q /\
  ~ unitq q /\ ~ is_rot (rotationFromQuaternion q).
Proof. exact @Proofs_Quat.C14_non_unit_axis_refuted_proof. Qed.
Print Assumptions C14_non_unit_axis_refuted.

(** C14: for every axis and angle whose quaternion is not null the call succeeds and
    describes, once normalised, a quaternion with the direction (cos a/2, axis sin a/2);
    it throws exactly when cos(a/2) and axis sin(a/2) are all null. *)
Theorem C14_from_angle_axis_any : forall a x y z : R,
  let q := mkQuaternion (cos (a/2)) (x * sin (a/2)) (y * sin (a/2)) (z * sin (a/2)) in
  (q <> mkQuaternion 0 0 0 0 -> q_fromAngleAndAxis a x y z = Ok q) /\
  (q = mkQuaternion 0 0 0 0 -> q_fromAngleAndAxis a x y z = Throw).
Proof. exact @Proofs_Quat.C14_from_angle_axis_any_proof. Qed.
Print Assumptions C14_from_angle_axis_any.

(** C14: angle and axis are recovered, for an angle in [0, 2 pi] such that
    sin(angle/2) >= 1/2000 and a unit axis. *)
Theorem C14_angle_axis_recovered : forall a x y z : R,
  x*x+y*y+z*z = 1 -> 0 <= a <= 2*PI -> 5/10000 <= sin (a/2) ->
  exists q, q_fromAngleAndAxis a x y z = Ok q /\ q_angleAndAxis q = Ok (a, x, y, z).
Proof. exact @Proofs_Quat.C14_angle_axis_recovered_proof. Qed.
Print Assumptions C14_angle_axis_recovered.

Example ex_C14_angle : 0 <= PI <= 2*PI /\ 5/10000 <= sin (PI/2).
Proof. rewrite sin_PI2. generalize PI_RGT_0. lra. Qed.

(** C14: conversely the angle and axis returned for a unit quaternion with
    |(x,y,z)| >= 1/2000 give the quaternion back. *)
Theorem C14_quaternion_recovered : forall q : Quaternion R, unitq q ->
  5/10000 <= sqrt (q_x q * q_x q + q_y q * q_y q + q_z q * q_z q) ->
  exists a x y z, q_angleAndAxis q = Ok (a, x, y, z) /\ x*x+y*y+z*z = 1 /\ 0 <= a <= 2*PI /\
  q_fromAngleAndAxis a x y z = Ok q.
Proof. exact @Proofs_Quat.C14_quaternion_recovered_proof. Qed.
Print Assumptions C14_quaternion_recovered.

(** C14, violated for small rotations: for a unit quaternion with (x,y,z) of norm between
    1/10000 and 1/2000 the axis returned is not normalised: here its norm is 3/10000. *)
Theorem C14_small_angle_axis_refuted : exists q : Quaternion R, unitq q /\
  exists a, q_angleAndAxis q = Ok (a, 3/10000, 0, 0).
Proof. exact @Proofs_Quat.C14_small_angle_axis_refuted_proof. Qed.
Print Assumptions C14_small_angle_axis_refuted.

(** C14: exactly, quaternionFromAngleAndAxisRotation returns a unit quaternion if and only if
    the axis is a unit vector or sin(angle/2) = 0, and then it describes the rotation. *)
Theorem C14_from_angle_axis_exact : forall a x y z : R,
  ((exists q, q_fromAngleAndAxis a x y z = Ok q /\ unitq q) <-> (x*x+y*y+z*z = 1 \/ sin (a/2) = 0)) /\
  (forall q, q_fromAngleAndAxis a x y z = Ok q -> unitq q ->
   forall p, p3v (q_apply q p) = rodrigues a (x, y, z) (p3v p)).
Proof. exact @Proofs_Quat.C14_from_angle_axis_exact_proof. Qed.
Print Assumptions C14_from_angle_axis_exact.

(** C14: what angleAndAxisRotationFromQuaternion returns for every unit quaternion: the angle
    is always right; the axis is normalised when the norm of (x,y,z) is at least 1/2000, is
    (x,y,z) itself between 1/10000 and 1/2000, and is the x axis below. *)
Theorem C14_angle_axis_all : forall q : Quaternion R, unitq q ->
  let s := sqrt (q_x q * q_x q + q_y q * q_y q + q_z q * q_z q) in
  let a := 2 * acos (q_w q) in
  (5/10000 <= s -> q_angleAndAxis q = Ok (a, q_x q/s, q_y q/s, q_z q/s)) /\
  (1/10000 <= s < 5/10000 -> q_angleAndAxis q = Ok (a, q_x q, q_y q, q_z q)) /\
  (s < 1/10000 -> q_angleAndAxis q = Ok (a, 1, 0, 0)).
Proof. exact @Proofs_Quat.C14_angle_axis_all_proof. Qed.
Print Assumptions C14_angle_axis_all.

(** C14: exactly, angle and axis (a unit vector, an angle in [0, 2 pi]) are recovered from
    their quaternion if and only if sin(angle/2) >= 1/2000, or sin(angle/2) < 1/10000 and the
    axis is x. *)
Theorem C14_angle_axis_exact : forall a x y z : R,
  x*x+y*y+z*z = 1 -> 0 <= a <= 2*PI ->
  exists q, q_fromAngleAndAxis a x y z = Ok q /\
  (q_angleAndAxis q = Ok (a, x, y, z) <->
   (5/10000 <= sin (a/2) \/ (sin (a/2) < 1/10000 /\ x = 1))).
Proof. exact @Proofs_Quat.C14_angle_axis_exact_proof. Qed.
Print Assumptions C14_angle_axis_exact.

(** C14: exactly, a unit quaternion is recovered from its angle and axis if and only if the
    norm of (x,y,z) is at least 1/2000, or it is less than 1/10000 and y = z = 0 <= x. *)
Theorem C14_quaternion_exact : forall q : Quaternion R, unitq q ->
  let s := sqrt (q_x q * q_x q + q_y q * q_y q + q_z q * q_z q) in
  exists a x y z, q_angleAndAxis q = Ok (a, x, y, z) /\ 0 <= a <= 2*PI /\
  (q_fromAngleAndAxis a x y z = Ok q <->
   (5/10000 <= s \/ (s < 1/10000 /\ q_y q = 0 /\ q_z q = 0 /\ 0 <= q_x q))).
Proof. exact @Proofs_Quat.C14_quaternion_exact_proof. Qed.
Print Assumptions C14_quaternion_exact.

Example ex_C14_exact :
  (exists q, q_fromAngleAndAxis (PI/3) 0 0 1 = Ok q /\ q_angleAndAxis q = Ok (PI/3, 0, 0, 1)) /\
  (exists q, q_fromAngleAndAxis 0 0 0 1 = Ok q /\ q_angleAndAxis q <> Ok (0, 0, 0, 1)).
Proof.
  assert (P := PI_RGT_0). split.
  - destruct (C14_angle_axis_exact (PI/3) 0 0 1) as (q&h1&h2); [ring|lra|]. exists q. split; [exact h1|]. apply h2. left.
    replace (PI/3/2) with (PI/6) by field. rewrite sin_PI6. lra.
  - destruct (C14_angle_axis_exact 0 0 0 1) as (q&h1&h2); [ring|lra|]. exists q. split; [exact h1|]. intro k. apply h2 in k.
    replace (0/2) with 0 in k by field. rewrite sin_0 in k. lra.
Qed.

(** ** C15 *)

(** C15: rotationFromAngleDirection throws exactly when the squared norm of the direction
    is outside [0.99999, 1.00001]. *)
Theorem C15_throws_iff : forall a x y z : R,
  m_fromAngleDirection a x y z = Throw <->
  (x*x+y*y+z*z < 99999/100000 \/ 100001/100000 < x*x+y*y+z*z).
Proof. exact @Proofs_Quat.C15_throws_iff_proof. Qed.
Print Assumptions C15_throws_iff.

(** C15: for a unit direction it is Rodrigues' rotation, it fixes the direction, and turns
    about the same direction add up. *)
Theorem C15_rodrigues : forall a b x y z : R, x*x+y*y+z*z = 1 ->
  exists r s t, m_fromAngleDirection a x y z = Ok r /\ m_fromAngleDirection b x y z = Ok s /\
  m_fromAngleDirection (a+b) x y z = Ok t /\
  (forall p, p3v (m_mul_p3 r p) = rodrigues a (x,y,z) (p3v p)) /\
  m_mul_p3 r (mkPosition3D x y z) = mkPosition3D x y z /\
  m_mul r s = t.
Proof. exact @Proofs_Quat.C15_rodrigues_proof. Qed.
Print Assumptions C15_rodrigues.

Example ex_C15_accepts : exists r, m_fromAngleDirection (PI/2) 0 0 1 = Ok r /\
  m_mul_p3 r (mkPosition3D 1 0 0) = mkPosition3D 0 1 0.
Proof.
  unfold m_fromAngleDirection. cbn [s_add s_mul s_ltb s_frac RScalar].
  replace (0*0+0*0+1*1) with 1 by ring. rewrite !Rltb_false by lra.
  eexists; split; [reflexivity|]. unr. rewrite cos_PI2, sin_PI2. rec_eq; ring.
Qed.

(** C15: transformFromRotVec(axis, theta, p), for the masks of the x, y and z axes (1, 2
    and 4), is the rotation by theta about that axis followed by the translation p; any
    other mask gives the translation alone. *)
Theorem C15_transformFromRotVec : forall (axis : Z) (a : R) (p : Position3D R),
  let tr := transformFromPosition3D p in
  (axis = 1%Z -> exists r, m_fromAngleDirection a 1 0 0 = Ok r /\
     transformFromRotVec axis a p = t_mul tr (transformFromRotation r)) /\
  (axis = 2%Z -> exists r, m_fromAngleDirection a 0 1 0 = Ok r /\
     transformFromRotVec axis a p = t_mul tr (transformFromRotation r)) /\
  (axis = 4%Z -> exists r, m_fromAngleDirection a 0 0 1 = Ok r /\
     transformFromRotVec axis a p = t_mul tr (transformFromRotation r)) /\
  (axis <> 1%Z -> axis <> 2%Z -> axis <> 4%Z -> transformFromRotVec axis a p = tr) /\
  transformFromRotVecA axis a = transformFromRotVec axis a (mkPosition3D 0 0 0) /\
  transformFromRotVecP p = tr.
Proof. exact @Proofs_Quat.C15_transformFromRotVec_proof. Qed.
Print Assumptions C15_transformFromRotVec.

(** ** C20 *)

(** C20: composing displacements (with unit quaternions) is composing the corresponding
    transforms, and displacements so obtained are again unit. *)
Theorem C20_displacement_homomorphism : forall a b : Displacement R, unitq (d_Q a) -> unitq (d_Q b) ->
  transformFromDisplacement (d_mul a b) = t_mul (transformFromDisplacement a) (transformFromDisplacement b) /\
  unitq (d_Q (d_mul a b)) /\
  transformFromDisplacement (@d_default R _) = t_id.
Proof. exact @Proofs_Quat.C20_displacement_homomorphism_proof. Qed.
Print Assumptions C20_displacement_homomorphism.

(** C20: a rigid transform survives the conversion to a displacement and back. *)
Theorem C20_displacement_round_trip : forall t : Transform R, rigid t ->
  transformFromDisplacement (displacementFromTransform t) = t /\ unitq (d_Q (displacementFromTransform t)).
Proof. exact @Proofs_Quat.C20_displacement_round_trip_proof. Qed.
Print Assumptions C20_displacement_round_trip.

(** C20: and a displacement with unit quaternion survives the conversion to a transform
    and back, up to the sign of its quaternion; the composition is associative and the
    default displacement is its unit. *)
Theorem C20_displacement_algebra : forall a b c : Displacement R,
  (unitq (d_Q a) -> d_P (displacementFromTransform (transformFromDisplacement a)) = d_P a /\
     (d_Q (displacementFromTransform (transformFromDisplacement a)) = d_Q a \/
      d_Q (displacementFromTransform (transformFromDisplacement a)) = qneg (d_Q a))) /\
  d_mul (d_mul a b) c = d_mul a (d_mul b c) /\
  d_mul d_default a = a /\ d_mul a d_default = a.
Proof. exact @Proofs_Quat.C20_displacement_algebra_proof. Qed.
Print Assumptions C20_displacement_algebra.
