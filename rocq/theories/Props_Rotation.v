(** * Properties C05 - C10: rotations *)
From Coq Require Import Reals List Lra Lia Psatz Nsatz Bool Arith.
Import ListNotations.
From Verif Require Import Scalar RInst RLemmas Model_Base Model_Vec Model_Rigid Model_Almath
  Model_Helpers Spec_Geom Proofs_Geom MemTac F32 Proofs_Transform.
From Flocq Require Import IEEE754.BinarySingleNaN.
Local Open Scope R_scope.
From Verif Require Proofs_Rotation.

(** ** C05 *)

(** C05: rigid transforms are closed under product and inverse, and the default
    transform is rigid. *)
Theorem C05_transform_closure : forall a b : Transform R, rigid a -> rigid b ->
  rigid (t_mul a b) /\ rigid (t_inverse a) /\ rigid (@t_id R _).
Proof. exact @Proofs_Rotation.C05_transform_closure_proof. Qed.
Print Assumptions C05_transform_closure.

Example ex_C05_rigid : rigid (mkTransform (2/3) (-1/3) (2/3) 5 (2/3) (2/3) (-1/3) 6 (-1/3) (2/3) (2/3) 7).
Proof. apply rigid_mk. repeat split; field. Qed.

(** C05: rotations are closed under product and transpose, and the default rotation is
    one. *)
Theorem C05_rotation_closure : forall a b : Rotation R, is_rot a -> is_rot b ->
  is_rot (m_mul a b) /\ is_rot (m_transpose a) /\ is_rot (@m_id R _).
Proof. exact @Proofs_Rotation.C05_rotation_closure_proof. Qed.
Print Assumptions C05_rotation_closure.

(** C05: the constructors from angles always build rotations. *)
Theorem C05_constructors_from_angles : forall (x y z a b c : R),
  rigid (t_fromRotX a) /\ rigid (t_fromRotY a) /\ rigid (t_fromRotZ a) /\
  is_rot (m_fromRotX a) /\ is_rot (m_fromRotY a) /\ is_rot (m_fromRotZ a) /\
  rigid (t_from3DRotation a b c) /\ is_rot (m_from3DRotation a b c) /\
  rigid (t_fromPosition6 x y z a b c) /\ rigid (t_fromPosition x y z) /\
  rigid (transformFromPose2D (mkPose2D x y a)) /\
  (forall axis : Z, rigid (transformFromRotVec axis a (mkPosition3D x y z))).
Proof. exact @Proofs_Rotation.C05_constructors_from_angles_proof. Qed.
Print Assumptions C05_constructors_from_angles.

(** C05: the constructors from a unit quaternion. *)
Theorem C05_constructors_from_quaternion : forall q : Quaternion R, unitq q ->
  is_rot (rotationFromQuaternion q) /\
  is_rot (m_fromQuaternion4 (q_w q) (q_x q) (q_y q) (q_z q)) /\
  rigid (transformFromQuaternion q) /\
  (forall p, rigid (transformFromDisplacement (mkDisplacement p q))).
Proof. exact @Proofs_Rotation.C05_constructors_from_quaternion_proof. Qed.
Print Assumptions C05_constructors_from_quaternion.

(** C05: the constructor from an angle and a unit direction. *)
Theorem C05_constructor_from_angle_direction : forall angle x y z : R, x*x+y*y+z*z = 1 ->
  exists r, m_fromAngleDirection angle x y z = Ok r /\ is_rot r.
Proof. exact @Proofs_Rotation.C05_constructor_from_angle_direction_proof. Qed.
Print Assumptions C05_constructor_from_angle_direction.

Example ex_C05_direction : (2/7)*(2/7) + (3/7)*(3/7) + (-6/7)*(-6/7) = 1.
Proof. field. Qed.

(** ** C06 *)

(** C06: the determinant is that of the rotation matrix and is multiplicative. *)
Theorem C06_determinant : forall a b : Transform R,
  t_determinant a = mdet (tmat a) /\
  t_determinant (t_mul a b) = t_determinant a * t_determinant b /\
  t_determinant (@t_id R _) = 1.
Proof. exact @Proofs_Rotation.C06_determinant_proof. Qed.
Print Assumptions C06_determinant.

(** C06: likewise for rotations, and the determinant does not change by transposition. *)
Theorem C06_rotation_determinant : forall a b : Rotation R,
  m_determinant a = mdet (rmat a) /\
  m_determinant (m_mul a b) = m_determinant a * m_determinant b /\
  m_determinant (m_transpose a) = m_determinant a /\
  m_determinant (@m_id R _) = 1.
Proof. exact @Proofs_Rotation.C06_rotation_determinant_proof. Qed.
Print Assumptions C06_rotation_determinant.

(** C06: a rigid transform has determinant 1; one with orthonormal columns has
    determinant 1 or -1. *)
Theorem C06_determinant_rigid : forall t : Transform R,
  (rigid t -> t_determinant t = 1) /\
  (orthonormal (tmat t) -> t_determinant t * t_determinant t = 1).
Proof. exact @Proofs_Rotation.C06_determinant_rigid_proof. Qed.
Print Assumptions C06_determinant_rigid.

(** C06: the determinant of the values a Transform serialises to is its determinant,
    for every arithmetic; a vector of another size than 12 or 16 has determinant 0. *)
Theorem C06_vector_determinant : forall (T : Type) (S : Scalar T),
  (forall t : Transform T, vec_determinant (t_list t) = t_determinant t) /\
  (forall t : Transform T, vec_determinant (firstn 12 (t_list t)) = t_determinant t) /\
  (forall v : list T, length v <> 12%nat -> length v <> 16%nat -> vec_determinant v = s_ofZ 0).
Proof. exact @Proofs_Rotation.C06_vector_determinant_proof. Qed.
Print Assumptions C06_vector_determinant.

(** ** C07 *)

(** C07: isTransform(eps) is true exactly when the columns are pairwise orthogonal, the
    rows have squared norm 1 and the determinant is 1, each within eps. *)
Theorem C07_isTransform_iff : forall (t : Transform R) (eps : R),
  t_isTransform t eps = true <-> near_rotation (tmat t) eps.
Proof. exact @Proofs_Rotation.C07_isTransform_iff_proof. Qed.
Print Assumptions C07_isTransform_iff.

(** C07: the same for isRotation. *)
Theorem C07_isRotation_iff : forall (t : Rotation R) (eps : R),
  m_isRotation t eps = true <-> near_rotation (rmat t) eps.
Proof. exact @Proofs_Rotation.C07_isRotation_iff_proof. Qed.
Print Assumptions C07_isRotation_iff.

(** C07: with eps = 0 this is exactly the proper rotations. *)
Theorem C07_exact : forall (t : Transform R) (r : Rotation R),
  (t_isTransform t 0 = true <-> rigid t) /\ (m_isRotation r 0 = true <-> is_rot r).
Proof. exact @Proofs_Rotation.C07_exact_proof. Qed.
Print Assumptions C07_exact.

(** C07: a larger eps accepts more. *)
Theorem C07_monotone : forall (t : Transform R) (r : Rotation R) (e1 e2 : R), e1 <= e2 ->
  (t_isTransform t e1 = true -> t_isTransform t e2 = true) /\
  (m_isRotation r e1 = true -> m_isRotation r e2 = true).
Proof. exact @Proofs_Rotation.C07_monotone_proof. Qed.
Print Assumptions C07_monotone.

Example ex_C07 :
  t_isTransform (mkTransform (3/5) (-4/5) 0 1 (4/5) (3/5) 0 2 0 0 1 3) 0 = true /\
  t_isTransform (mkTransform 1 0 0 0 0 1 0 0 0 0 (-1) 0) (1/10) = false.
Proof.
  split.
  - apply C07_exact; [exact m_id|]. apply rigid_mk. repeat split; field.
  - destruct (t_isTransform _ _) eqn:E; [|reflexivity].
    apply C07_isTransform_iff in E. destruct E as (_&_&E).
    unr in E. revert E. unfold Rabs. destruct (Rcase_abs _); lra.
Qed.

(** C07, violated: a transform and a rotation whose coefficients are all NaN are
    accepted, whatever the tolerance. *)
Theorem C07_nan_accepted_refuted : forall (L : libm32) (eps : f32),
  let nan := B754_nan : f32 in
  t_isTransform (S := F32Scalar L)
    (mkTransform nan nan nan nan nan nan nan nan nan nan nan nan) eps = true /\
  m_isRotation (S := F32Scalar L)
    (mkRotation nan nan nan nan nan nan nan nan nan) eps = true.
Proof. exact @Proofs_Rotation.C07_nan_accepted_refuted_proof. Qed.
Print Assumptions C07_nan_accepted_refuted.

(** ** C08 *)

(** C08: normalising any transform gives a rigid one with the same translation; a rigid
    one is not changed; so that normalising again does nothing. *)
Theorem C08_normalizeTransform : forall t : Transform R,
  rigid (t_normalize t) /\ tpos (t_normalize t) = tpos t /\
  (rigid t -> t_normalize t = t) /\ t_normalize (t_normalize t) = t_normalize t.
Proof. exact @Proofs_Rotation.C08_normalizeTransform_proof. Qed.
Print Assumptions C08_normalizeTransform.

(** C08: the same for normalizeRotation. *)
Theorem C08_normalizeRotation : forall r : Rotation R,
  is_rot (m_normalize r) /\ (is_rot r -> m_normalize r = r) /\
  m_normalize (m_normalize r) = m_normalize r.
Proof. exact @Proofs_Rotation.C08_normalizeRotation_proof. Qed.
Print Assumptions C08_normalizeRotation.

(** C08: when the third column is non-negligible and not parallel to the second one,
    normalising keeps the direction of the third column, and keeps the second column in
    the plane of the old second and third ones. *)
Theorem C08_normalize_direction : forall t : Transform R,
  let n := sqrt (t_r1c3 t * t_r1c3 t + t_r2c3 t * t_r2c3 t + t_r3c3 t * t_r3c3 t) in
  let '(x, y, z) := vcross (t_r1c2 t, t_r2c2 t, t_r3c2 t) (t_r1c3 t, t_r2c3 t, t_r3c3 t) in
  1/10000 <= n -> 1/10000 * n <= sqrt (x*x+y*y+z*z) ->
  let u := t_normalize t in
  (t_r1c3 u, t_r2c3 u, t_r3c3 u) = vscale (/ n) (t_r1c3 t, t_r2c3 t, t_r3c3 t) /\
  vdot (x, y, z) (t_r1c2 u, t_r2c2 u, t_r3c2 u) = 0 /\
  0 < vdot (t_r1c2 u, t_r2c2 u, t_r3c2 u) (t_r1c2 t, t_r2c2 t, t_r3c2 t).
Proof. exact @Proofs_Rotation.C08_normalize_direction_proof. Qed.
Print Assumptions C08_normalize_direction.

Example ex_C08 : t_normalize (mkTransform 9 3 0 1 9 0 0 2 9 9 2 3) = mkTransform 0 1 0 1 (-1) 0 0 2 0 0 1 3.
Proof.
  assert (s2 : sqrt 4 = 2) by (apply sqrt_unique'; lra).
  assert (s3 : sqrt 9 = 3) by (apply sqrt_unique'; lra).
  apply (Proofs_Rotation.t_normalize_norm9 _ _ _ _ _ _ _ _ _ _ _ _ (fun t => t = _)).
  unfold Proofs_Rotation.norm9. cbv zeta.
  replace (0*0+0*0+2*2) with 4 by ring. rewrite s2. rewrite Rltb_false by lra.
  match goal with |- context [sqrt ?e] => replace e with 9 by field end.
  rewrite s3. rewrite Rltb_false by lra. rec_eq; field.
Qed.

(** ** C09 *)

(** C09: toVector gives the sixteen values row by row, the last row being 0 0 0 1,
    whatever the vector given to fill; every arithmetic. *)
Theorem C09_toVector : forall (T : Type) (S : Scalar T) (t : Transform T) (out : list T),
  t_toVector t = Ok [t_r1c1 t; t_r1c2 t; t_r1c3 t; t_r1c4 t;
                     t_r2c1 t; t_r2c2 t; t_r2c3 t; t_r2c4 t;
                     t_r3c1 t; t_r3c2 t; t_r3c3 t; t_r3c4 t;
                     s_ofZ 0; s_ofZ 0; s_ofZ 0; s_ofZ 1] /\
  t_toVectorInto t out = t_toVector t.
Proof. exact @Proofs_Rotation.C09_toVector_proof. Qed.
Print Assumptions C09_toVector.

(** C09: writeToVector overwrites exactly the sixteen values under the cursor with those
    of toVector and advances it by 16, every arithmetic; with fewer than sixteen values
    left it runs past the end of the vector (undefined behaviour). *)
Theorem C09_writeToVector : forall (T : Type) (S : Scalar T) (t : Transform T),
  (forall before old after : list T, length old = 16%nat ->
    exists l, t_toVector t = Ok l /\
    t_writeToVector t (before ++ old ++ after) (length before)
    = Ok (before ++ l ++ after, (length before + 16)%nat)) /\
  (forall (v : list T) (i : nat), (length v < i + 16)%nat -> t_writeToVector t v i = UB).
Proof. exact @Proofs_Rotation.C09_writeToVector_proof. Qed.
Print Assumptions C09_writeToVector.

(** C09: building a transform from the sixteen (or the first twelve) values of another
    one gives it back whenever it passes isTransform, every arithmetic; in particular,
    over R, when it is rigid. *)
Theorem C09_round_trip : forall (T : Type) (S : Scalar T) (t : Transform T) (l : list T),
  t_isTransform t (s_frac 1 10000) = true -> t_toVector t = Ok l ->
  t_ofVector l = t /\ t_ofVector (firstn 12 l) = t.
Proof. exact @Proofs_Rotation.C09_round_trip_proof. Qed.
Print Assumptions C09_round_trip.

(** C09: the same for a rigid transform of R. *)
Theorem C09_round_trip_rigid : forall (t : Transform R) (l : list R), rigid t -> t_toVector t = Ok l ->
  t_ofVector l = t /\ t_ofVector (firstn 12 l) = t.
Proof. exact @Proofs_Rotation.C09_round_trip_rigid_proof. Qed.
Print Assumptions C09_round_trip_rigid.

(** C09: whatever the values, the transform built from a vector passes isTransform with
    the default tolerance; with a vector of another size it is the identity. *)
Theorem C09_ofVector_always_valid : forall v : list R,
  t_isTransform (t_ofVector v) (1/10000) = true /\
  (length v <> 12%nat -> length v <> 16%nat -> t_ofVector v = t_id).
Proof. exact @Proofs_Rotation.C09_ofVector_always_valid_proof. Qed.
Print Assumptions C09_ofVector_always_valid.

(** C09: the Rotation constructor reads 9 values, or the rotation part of 12 or 16, and
    takes toVector back; another size gives the identity. *)
Theorem C09_rotation_vector : forall (T : Type) (S : Scalar T) (r : Rotation T) (t : Transform T) (out v : list T),
  m_toVectorInto r out = Ok [m_r1c1 r; m_r1c2 r; m_r1c3 r; m_r2c1 r; m_r2c2 r; m_r2c3 r;
                             m_r3c1 r; m_r3c2 r; m_r3c3 r] /\
  (forall l, m_toVector r = Ok l -> m_ofVector l = r) /\
  (forall l, t_toVector t = Ok l -> m_ofVector l = rotationFromTransform t /\
                                    m_ofVector (firstn 12 l) = rotationFromTransform t) /\
  (length v <> 9%nat -> length v <> 12%nat -> length v <> 16%nat -> m_ofVector v = m_id).
Proof. exact @Proofs_Rotation.C09_rotation_vector_proof. Qed.
Print Assumptions C09_rotation_vector.

Example ex_C09 : t_ofVector [1; 0; 0; 5; 0; 0; -1; 6; 0; 1; 0; 7] = mkTransform 1 0 0 5 0 0 (-1) 6 0 1 0 7.
Proof.
  apply (C09_round_trip_rigid (mkTransform 1 0 0 5 0 0 (-1) 6 0 1 0 7)
           [1; 0; 0; 5; 0; 0; -1; 6; 0; 1; 0; 7; 0; 0; 0; 1]).
  - apply rigid_mk. repeat split; ring.
  - reflexivity.
Qed.

(** ** C10 *)

(** C10: the elementary rotations are the right-handed rotations about each axis (see
    the specification), without translation. *)
Theorem C10_elementary_matrices : forall a : R,
  tmat (t_fromRotX a) = RX a /\ tmat (t_fromRotY a) = RY a /\ tmat (t_fromRotZ a) = RZ a /\
  rmat (m_fromRotX a) = RX a /\ rmat (m_fromRotY a) = RY a /\ rmat (m_fromRotZ a) = RZ a /\
  tpos (t_fromRotX a) = (0,0,0) /\ tpos (t_fromRotY a) = (0,0,0) /\ tpos (t_fromRotZ a) = (0,0,0).
Proof. exact @Proofs_Rotation.C10_elementary_matrices_proof. Qed.
Print Assumptions C10_elementary_matrices.

(** C10: [from3DRotation(wx, wy, wz)] is Rz * Ry * Rx. *)
Theorem C10_from3DRotation : forall x y z : R,
  meq (tmat (t_from3DRotation x y z)) (mmul (mmul (RZ z) (RY y)) (RX x)) /\
  tpos (t_from3DRotation x y z) = (0,0,0) /\
  meq (rmat (m_from3DRotation x y z)) (mmul (mmul (RZ z) (RY y)) (RX x)).
Proof. exact @Proofs_Rotation.C10_from3DRotation_proof. Qed.
Print Assumptions C10_from3DRotation.

(** C10: turns about one axis add up; the null turn is the identity; the inverse is the
    opposite turn; the axis is not moved; full turns do not count. *)
Theorem C10_transform_one_parameter : forall a b k : R,
  t_mul (t_fromRotX a) (t_fromRotX b) = t_fromRotX (a+b) /\
  t_mul (t_fromRotY a) (t_fromRotY b) = t_fromRotY (a+b) /\
  t_mul (t_fromRotZ a) (t_fromRotZ b) = t_fromRotZ (a+b) /\
  t_fromRotX 0 = t_id /\ t_fromRotY 0 = t_id /\ t_fromRotZ 0 = t_id /\
  t_inverse (t_fromRotX a) = t_fromRotX (-a) /\
  t_inverse (t_fromRotY a) = t_fromRotY (-a) /\
  t_inverse (t_fromRotZ a) = t_fromRotZ (-a) /\
  t_mul_p3 (t_fromRotX a) (mkPosition3D k 0 0) = mkPosition3D k 0 0 /\
  t_mul_p3 (t_fromRotY a) (mkPosition3D 0 k 0) = mkPosition3D 0 k 0 /\
  t_mul_p3 (t_fromRotZ a) (mkPosition3D 0 0 k) = mkPosition3D 0 0 k /\
  t_fromRotX (a + 2*PI) = t_fromRotX a /\ t_fromRotY (a + 2*PI) = t_fromRotY a /\
  t_fromRotZ (a + 2*PI) = t_fromRotZ a.
Proof. exact @Proofs_Rotation.C10_transform_one_parameter_proof. Qed.
Print Assumptions C10_transform_one_parameter.

(** C10: the same for Rotation. *)
Theorem C10_rotation_one_parameter : forall a b : R,
  m_mul (m_fromRotX a) (m_fromRotX b) = m_fromRotX (a+b) /\
  m_mul (m_fromRotY a) (m_fromRotY b) = m_fromRotY (a+b) /\
  m_mul (m_fromRotZ a) (m_fromRotZ b) = m_fromRotZ (a+b) /\
  m_fromRotX 0 = m_id /\ m_fromRotY 0 = m_id /\ m_fromRotZ 0 = m_id /\
  m_transpose (m_fromRotX a) = m_fromRotX (-a) /\
  m_transpose (m_fromRotY a) = m_fromRotY (-a) /\
  m_transpose (m_fromRotZ a) = m_fromRotZ (-a).
Proof. exact @Proofs_Rotation.C10_rotation_one_parameter_proof. Qed.
Print Assumptions C10_rotation_one_parameter.

(** C10: the constant half turns and quarter turn of Rotation are the turns by pi and
    pi/2. *)
Theorem C10_rotation_constants :
  m_fromRotXPi = m_fromRotX PI /\ m_fromRotYPi = m_fromRotY PI /\ m_fromRotZPi = m_fromRotZ PI /\
  m_fromRotZHalfPi = m_fromRotZ (PI/2).
Proof. exact @Proofs_Rotation.C10_rotation_constants_proof. Qed.
Print Assumptions C10_rotation_constants.

(** C10: headings of Pose2D add up the same way. *)
Theorem C10_pose2d_heading : forall a b : R,
  pose_mul (mkPose2D 0 0 a) (mkPose2D 0 0 b) = mkPose2D 0 0 (a+b) /\
  transformFromPose2D (mkPose2D 0 0 a) = t_fromRotZ a.
Proof. exact @Proofs_Rotation.C10_pose2d_heading_proof. Qed.
Print Assumptions C10_pose2d_heading.

Example ex_C10_quarter_turn : t_mul_p3 (t_fromRotZ (PI/2)) (mkPosition3D 1 0 0) = mkPosition3D 0 1 0.
Proof. unr. rewrite cos_PI2, sin_PI2. rec_eq; ring. Qed.
