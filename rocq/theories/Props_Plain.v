(** * Properties C72, C73, C74, C75: comparisons, polar coordinates, differential motions, conversions *)

From Coq Require Import Reals ZArith List Bool Lra Lia Psatz.
Import ListNotations.
From Flocq Require Import Core.Core Plus_error Relative IEEE754.BinarySingleNaN.
From Verif Require Import Scalar RInst RLemmas Model_Base Model_Vec Model_Rigid Model_Almath Model_Helpers F32 Spec_Geom Spec_Vec Spec_Plain.
From Verif Require Proofs_Geom Proofs_Rotation Proofs_Quat Proofs_ExpLogExact Proofs_Transform Proofs_Vectors MemTac.
Local Open Scope R_scope.
From Verif Require Proofs_Plain.

(** ** C72 *)

(** C72, exact arithmetic: operator== of each type compares all the numbers of the two values,
    so that it is equality. *)
Theorem C72_reals :
  decides (@eq R) cp2 p2_eqb /\ decides (@eq R) cp3 p3_eqb /\ decides (@eq R) cp6 p6_eqb /\
  decides (@eq R) cv3 v3_eqb /\ decides (@eq R) cv6 v6_eqb /\ decides (@eq R) ce3 e3_eqb /\
  decides (@eq R) cpose pose_eqb /\ decides (@eq R) cq q_eqb /\ decides (@eq R) cm m_eqb /\ decides (@eq R) ct t_eqb /\
  (forall a b : Position2D R, p2_eqb a b = true <-> a = b) /\ (forall a b : Position3D R, p3_eqb a b = true <-> a = b) /\
  (forall a b : Position6D R, p6_eqb a b = true <-> a = b) /\ (forall a b : Velocity3D R, v3_eqb a b = true <-> a = b) /\
  (forall a b : Velocity6D R, v6_eqb a b = true <-> a = b) /\ (forall a b : Rotation3D R, e3_eqb a b = true <-> a = b) /\
  (forall a b : Pose2D R, pose_eqb a b = true <-> a = b) /\ (forall a b : Quaternion R, q_eqb a b = true <-> a = b) /\
  (forall a b : Rotation R, m_eqb a b = true <-> a = b) /\ (forall a b : Transform R, t_eqb a b = true <-> a = b).
Proof. exact @Proofs_Plain.C72_reals_proof. Qed.
Print Assumptions C72_reals.

(** C72, binary32: operator== answers true exactly when all the numbers of the two values are
    pairwise the same number: a NaN anywhere makes it false, the two zeros are equal. *)
Theorem C72_binary32 : forall L : libm32, let S := F32Scalar L in
  decides same_number cp2 p2_eqb /\ decides same_number cp3 p3_eqb /\ decides same_number cp6 p6_eqb /\
  decides same_number cv3 v3_eqb /\ decides same_number cv6 v6_eqb /\ decides same_number ce3 e3_eqb /\
  decides same_number cpose pose_eqb /\ decides same_number cq q_eqb /\ decides same_number cm m_eqb /\
  decides same_number ct t_eqb.
Proof. exact @Proofs_Plain.C72_binary32_proof. Qed.
Print Assumptions C72_binary32.

(** C72, binary32: a value is equal to itself exactly when none of its numbers is a NaN, and
    operator== is symmetric and transitive. *)
Theorem C72_equivalence : forall (A : Type) (coords : A -> list f32) (eq : A -> A -> bool), decides same_number coords eq ->
  (forall a, eq a a = true <-> Forall (fun x => ~ not_a_number x) (coords a)) /\
  (forall a b, eq a b = eq b a) /\
  (forall a b c, eq a b = true -> eq b c = true -> eq a c = true) /\
  (forall a b, coords a = coords b -> Forall (fun x => ~ not_a_number x) (coords a) -> eq a b = true).
Proof. exact @Proofs_Plain.C72_equivalence_proof. Qed.
Print Assumptions C72_equivalence.

(** C72: operator!= of each type answers the contrary of operator==, in any arithmetic. *)
Theorem C72_not_equal : forall (T : Type) (S : Scalar T),
  opposite (@p2_neqb T S) p2_eqb /\ opposite (@p3_neqb T S) p3_eqb /\ opposite (@p6_neqb T S) p6_eqb /\
  opposite (@v3_neqb T S) v3_eqb /\ opposite (@v6_neqb T S) v6_eqb /\ opposite (@e3_neqb T S) e3_eqb /\
  opposite (@pose_neqb T S) pose_eqb.
Proof. exact @Proofs_Plain.C72_not_equal_proof. Qed.
Print Assumptions C72_not_equal.

(** C72: a value made from one number holds it everywhere, and the default value holds zeros;
    they are equal (==) to another value exactly when its numbers are all that one. *)
Theorem C72_constructors : forall (T : Type) (S : Scalar T) (v : T),
  cp2 (p2_fill v) = repeat v 2 /\ cp3 (p3_fill v) = repeat v 3 /\ cp6 (p6_fill v) = repeat v 6 /\
  cv3 (v3_fill v) = repeat v 3 /\ cv6 (v6_fill v) = repeat v 6 /\ ce3 (e3_fill v) = repeat v 3 /\ cpose (pose_fill v) = repeat v 3 /\
  @p2_default T S = p2_fill (s_ofZ 0) /\ @p3_default T S = p3_fill (s_ofZ 0) /\ @p6_default T S = p6_fill (s_ofZ 0) /\
  @v3_default T S = v3_fill (s_ofZ 0) /\ @v6_default T S = v6_fill (s_ofZ 0) /\ @e3_default T S = e3_fill (s_ofZ 0) /\
  @pose_default T S = pose_fill (s_ofZ 0).
Proof. exact @Proofs_Plain.C72_constructors_proof. Qed.
Print Assumptions C72_constructors.

(** C72, exact arithmetic: the default value is the zero of the addition; the default pose is the unit
    of the product; the value made from one number is the multiple by it of the one made from 1. *)
Theorem C72_neutral :
  (forall a : Position2D R, p2_add a p2_default = a) /\ (forall a : Position3D R, p3_add a p3_default = a) /\
  (forall a : Position6D R, p6_add a p6_default = a) /\ (forall a : Velocity3D R, v3_add a v3_default = a) /\
  (forall a : Velocity6D R, v6_add a v6_default = a) /\ (forall a : Rotation3D R, e3_add a e3_default = a) /\
  (forall a : Pose2D R, pose_add a pose_default = a /\ pose_mul a pose_default = a /\ pose_mul pose_default a = a) /\
  (forall v : R, p2_scale (p2_fill 1) v = p2_fill v /\ p3_scale (p3_fill 1) v = p3_fill v /\ p6_scale (p6_fill 1) v = p6_fill v /\
     v3_scale (v3_fill 1) v = v3_fill v /\ v6_scale (v6_fill 1) v = v6_fill v /\ e3_scale (e3_fill 1) v = e3_fill v).
Proof. exact @Proofs_Plain.C72_neutral_proof. Qed.
Print Assumptions C72_neutral.

Example C72_ex : forall L : libm32,
  let z := B754_zero false in let nz := B754_zero true in let n := B754_nan in
  p2_eqb (S := F32Scalar L) (mkPosition2D z z) (mkPosition2D nz z) = true /\
  p2_eqb (S := F32Scalar L) (mkPosition2D z n) (mkPosition2D z n) = false /\
  p2_neqb (S := F32Scalar L) (mkPosition2D z n) (mkPosition2D z n) = true /\
  p2_eqb (S := F32Scalar L) (mkPosition2D (B754_infinity true) z) (mkPosition2D (B754_infinity true) nz) = true /\
  p2_eqb (S := F32Scalar L) (mkPosition2D (B754_infinity true) z) (mkPosition2D (B754_infinity false) z) = false.
Proof. intro L. repeat split. Qed.

(** ** C26 in binary32 *)

(** C26, binary32: isNear(a, b, eps) of finite values accepts all the pairs whose coordinates
    differ by at most eps, and none that differ by more than eps (1 + 2^-24); it is symmetric and
    reflexive, without any bound on the values. *)
Theorem C26_tolerance_binary32 : forall L : libm32, let S := F32Scalar L in
  is_tolerance32 cp2 p2_isNear /\ is_tolerance32 cp3 p3_isNear /\ is_tolerance32 cp6 p6_isNear /\
  is_tolerance32 cv3 v3_isNear /\ is_tolerance32 cv6 v6_isNear /\ is_tolerance32 ce3 e3_isNear /\
  is_tolerance32 cpose pose_isNear /\ is_tolerance32 cm m_isNear /\ is_tolerance32 ct t_isNear.
Proof. exact @Proofs_Plain.C26_tolerance_binary32_proof. Qed.
Print Assumptions C26_tolerance_binary32.

(** C26, binary32: Quaternion.isNear accepts only pairs of finite values such that all the
    coordinates of a and b, or of a and -b, differ by less than eps; and it accepts all those that
    differ by less than eps (1 - 2^-23). *)
Theorem C26_quaternion_tolerance_binary32 : forall (L : libm32) (a b : Quaternion f32) (eps : f32),
  Forall (fun x => is_finite x = true) (cq a) -> Forall (fun x => is_finite x = true) (cq b) -> is_finite eps = true ->
  let within (e : R) := Forall2 (fun x y => Rabs (B2R x - B2R y) < e) (cq a) (cq b) \/ Forall2 (fun x y => Rabs (B2R x + B2R y) < e) (cq a) (cq b) in
  (q_isNear (S := F32Scalar L) a b eps = true -> within (B2R eps)) /\
  (within (B2R eps * (1 - / 8388608)) -> q_isNear (S := F32Scalar L) a b eps = true).
Proof. exact @Proofs_Plain.C26_quaternion_tolerance_binary32_proof. Qed.
Print Assumptions C26_quaternion_tolerance_binary32.

Example C26_binary32_ex : forall L : libm32,
  let one := f32_ofZ 1 in let three := f32_ofZ 3 in
  p2_isNear (S := F32Scalar L) (mkPosition2D one three) (mkPosition2D three three) (f32_ofZ 2) = true /\
  p2_isNear (S := F32Scalar L) (mkPosition2D one three) (mkPosition2D three three) (f32_frac 19 10) = false.
Proof. intro L. split; vm_compute; reflexivity. Qed.

(** ** C73 *)

(** C73: fromPolarCoordinates(r, t) is at distance |r| of the origin; for r > 0 getAngle gives
    back t up to a whole number of turns, and t itself when -pi < t <= pi. *)
Theorem C73_from_polar : forall r t : R,
  p2_norm (p2_fromPolar r t) = Rabs r /\ pose_norm (pose_fromPolar r t) = Rabs r /\
  pose_theta (pose_fromPolar r t) = t /\ position2DFromPose2D (pose_fromPolar r t) = p2_fromPolar r t /\
  (0 < r -> -PI < p2_getAngle (p2_fromPolar r t) <= PI /\
     (exists k : Z, p2_getAngle (p2_fromPolar r t) = t + 2 * PI * IZR k) /\
     pose_getAngle (pose_fromPolar r t) = p2_getAngle (p2_fromPolar r t)) /\
  (0 < r -> -PI < t <= PI -> p2_getAngle (p2_fromPolar r t) = t).
Proof. exact @Proofs_Plain.C73_from_polar_proof. Qed.
Print Assumptions C73_from_polar.

(** C73: any point is rebuilt from its norm and its angle, the origin included; getAngle is in
    ]-pi, pi], and does not change when the point is multiplied by a positive number. *)
Theorem C73_to_polar : forall p : Position2D R,
  p2_fromPolar (p2_norm p) (p2_getAngle p) = p /\ -PI < p2_getAngle p <= PI /\
  (forall k, 0 < k -> p2_getAngle (p2_scale p k) = p2_getAngle p) /\
  (forall theta, pose_getAngle (pose2DFromPosition2D p theta) = p2_getAngle p) /\
  (forall r t, 0 < r -> -PI < t <= PI -> p2_fromPolar r t = p -> r = p2_norm p /\ t = p2_getAngle p).
Proof. exact @Proofs_Plain.C73_to_polar_proof. Qed.
Print Assumptions C73_to_polar.

Example C73_ex : p2_fromPolar 2 (PI / 2) = mkPosition2D 0 2 /\ p2_getAngle (mkPosition2D 0 2 : Position2D R) = PI / 2 /\
  p2_getAngle (p2_fromPolar (-2) 0) = PI.
Proof.
  assert (e : p2_fromPolar 2 (PI / 2) = mkPosition2D 0 2).
  { unfold p2_fromPolar. cbn [s_mul s_cos s_sin RScalar]. rewrite cos_PI2, sin_PI2. f_equal; ring. }
  assert (hp := PI_RGT_0). split; [exact e|]. split.
  - rewrite <- e. destruct (C73_from_polar 2 (PI / 2)) as (_&_&_&_&_&h). apply h; lra.
  - transitivity (p2_getAngle (p2_fromPolar 2 PI)).
    + f_equal. unfold p2_fromPolar. cbn [s_mul s_cos s_sin RScalar]. rewrite cos_0, sin_0, cos_PI, sin_PI. f_equal; ring.
    + destruct (C73_from_polar 2 PI) as (_&_&_&_&_&h). apply h; lra.
Qed.

(** ** C74 *)

(** C74: position6DFromTransformDiff(current, target), for rigid transforms whose rotations
    differ by a rotation of angle th about the unit vector u (there is always one), gives the
    difference of the translations and the vector sin(th) u. *)
Theorem C74_differential : forall a b : Transform R, rigid a -> rigid b ->
  let p := position6DFromTransformDiff a b in
  let rel := mmul (tmat b) (mtrans (tmat a)) in
  p6lin p = vsub (tpos b) (tpos a) /\
  (forall th u, turns_about rel th u -> p6ang p = vscale (sin th) u) /\
  (exists th u, 0 <= th <= PI /\ turns_about rel th u).
Proof. exact @Proofs_Plain.C74_differential_proof. Qed.
Print Assumptions C74_differential.

(** C74: it is an approximation: the angular part differs from the rotation vector th u by
    at most th^3/6, and the motion of any point v of the frame, from its place for current to its
    place for target, differs from the one of the twist by at most (1 - cos th) |v|. *)
Theorem C74_error : forall (a b : Transform R) (th : R) (u v : vec3), rigid a -> rigid b -> 0 <= th <= PI ->
  turns_about (mmul (tmat b) (mtrans (tmat a))) th u ->
  let p := position6DFromTransformDiff a b in
  vnorm (vsub (vscale th u) (p6ang p)) <= th * th * th / 6 /\
  vnorm (vsub (vsub (motion b v) (motion a v)) (vadd (p6lin p) (vcross (p6ang p) (mapply (tmat a) v)))) <= (1 - cos th) * vnorm v.
Proof. exact @Proofs_Plain.C74_error_proof. Qed.
Print Assumptions C74_error.

(** C74: the differential motion is null exactly when the origins are the same and the relative
    rotation, done twice, is the identity: no rotation or half a turn. *)
Theorem C74_null : forall a b : Transform R, rigid a -> rigid b ->
  let rel := mmul (tmat b) (mtrans (tmat a)) in
  (position6DFromTransformDiff a b = mkPosition6D 0 0 0 0 0 0 <->
   tpos a = tpos b /\ meq (mmul rel rel) mident).
Proof. exact @Proofs_Plain.C74_null_proof. Qed.
Print Assumptions C74_null.

(** C74: exchanging the two transforms changes the sign of the differential motion. *)
Theorem C74_antisymmetric : forall a b : Transform R,
  position6DFromTransformDiff b a = p6_neg (position6DFromTransformDiff a b) /\
  position6DFromTransformDiff a a = mkPosition6D 0 0 0 0 0 0.
Proof. exact @Proofs_Plain.C74_antisymmetric_proof. Qed.
Print Assumptions C74_antisymmetric.

Example C74_half_turn : position6DFromTransformDiff t_id (t_fromRotZ PI) = mkPosition6D 0 0 0 0 0 0 /\
  position6DFromTransformDiff t_id (t_fromRotZ (PI / 2)) = mkPosition6D 0 0 0 0 0 1 /\
  turns_about (mmul (tmat (t_fromRotZ (PI / 2))) (mtrans (tmat t_id))) (PI / 2) (0, 0, 1).
Proof.
  unfold position6DFromTransformDiff, t_fromRotZ, t_id, turns_about. split; [|split; [|split]].
  - cbv -[Rplus Rminus Rmult Rdiv Ropp Rinv cos sin IZR PI]. rewrite cos_PI, sin_PI. f_equal; field.
  - cbv -[Rplus Rminus Rmult Rdiv Ropp Rinv cos sin IZR PI]. rewrite cos_PI2, sin_PI2. f_equal; field.
  - unfold vdot, vx, vy, vz. cbn [fst snd]. ring.
  - intros ((v1, v2), v3). cbv -[Rplus Rminus Rmult Rdiv Ropp Rinv cos sin IZR PI]. rewrite cos_PI2, sin_PI2. f_equal; [f_equal|]; ring.
Qed.

(** ** C75 *)

(** C75: a transform made of a rotation and a translation moves points by the rotation and
    then the translation, in both forms of the function; the parts are given back. *)
Theorem C75_rotation_position : forall (r : Rotation R) (p : Position3D R),
  let t := transformFromRotationPosition3D r p in
  transformFromRotationXYZ r (p3_x p) (p3_y p) (p3_z p) = t /\
  t = t_mul (transformFromPosition3D p) (transformFromRotation r) /\
  (forall v, motion t v = vadd (mapply (rmat r) v) (p3v p)) /\
  rotationFromTransform t = r /\ position3DFromTransform t = p /\
  (is_rot r <-> rigid t) /\ t_norm t = p3_norm p.
Proof. exact @Proofs_Plain.C75_rotation_position_proof. Qed.
Print Assumptions C75_rotation_position.

(** C75: a transform is rebuilt from its rotation and its translation, in any arithmetic; its
    plane position is the beginning of its translation and the place of its plane pose. *)
Theorem C75_parts : forall (T : Type) (S : Scalar T) (t : Transform T),
  transformFromRotationPosition3D (rotationFromTransform t) (position3DFromTransform t) = t /\
  p2_x (position2DFromTransform t) = p3_x (position3DFromTransform t) /\
  p2_y (position2DFromTransform t) = p3_y (position3DFromTransform t) /\
  position2DFromPose2D (pose2DFromTransform t) = position2DFromTransform t.
Proof. exact @Proofs_Plain.C75_parts_proof. Qed.
Print Assumptions C75_parts.

(** C75: the norm of a transform is the length of its translation, the distance from the origin to
    its image. *)
Theorem C75_norm : forall t : Transform R, t_norm t = vnorm (tpos t) /\ t_norm t = t_distance t t_id /\
  (rigid t -> t_norm (t_inverse t) = t_norm t).
Proof. exact @Proofs_Plain.C75_norm_proof. Qed.
Print Assumptions C75_norm.

(** C75: positions with roll, pitch and yaw: from a Position3D, the translation alone; the
    quaternion and position made from one are those of the same displacement. *)
Theorem C75_position6D : forall (p : Position3D R) (v : Velocity6D R) (x : Position6D R),
  transformFromPosition6D (position6DFromPosition3D p) = transformFromPosition3D p /\
  position3DFromPosition6D (position6DFromPosition3D p) = p /\
  p6lin (position6DFromVelocity6D v) = vlin v /\ p6ang (position6DFromVelocity6D v) = vang v /\
  (let (q, y) := quaternionPosition3DFromPosition6D x in
     unitq q /\ transformFromDisplacement (mkDisplacement y q) = transformFromPosition6D x).
Proof. exact @Proofs_Plain.C75_position6D_proof. Qed.
Print Assumptions C75_position6D.

(** ** More of C02, C04, C09, C15, C24, C26 *)

(** C02: transformPreMultiply(A, B), with A and B distinct objects, writes A * B in B and
    nothing else, in any arithmetic. *)
Theorem C02_premultiply : forall (T : Type) (S : Scalar T) (m : mem (Transform T)) (i o : nat), i <> o ->
  t_preMultiply m i o o = t_mul (m i) (m o) /\ (forall x, x <> o -> t_preMultiply m i o x = m x).
Proof. exact @Proofs_Plain.C02_premultiply_proof. Qed.
Print Assumptions C02_premultiply.

(** C02, violated: transformPreMultiply(T, T), with the same object twice, does not compute
    T * T. *)
Theorem C02_premultiply_aliased_refuted : exists m : mem (Transform R),
  rigid (m 0%nat) /\ t_preMultiply m 0 0 0%nat <> t_mul (m 0%nat) (m 0%nat).
Proof. exact @Proofs_Plain.C02_premultiply_aliased_refuted_proof. Qed.
Print Assumptions C02_premultiply_aliased_refuted.

(** C04: a rotation turns velocities as it turns positions; applying it to three numbers gives
    the coordinates of the turned vector. *)
Theorem C04_rotation_vectors : forall (r : Rotation R) (x y z : R),
  m_apply r x y z = mapply (rmat r) (x, y, z) /\
  (let v := m_mul_v3 r (mkVelocity3D x y z) in (v3_xd v, v3_yd v, v3_zd v)) = mapply (rmat r) (x, y, z) /\
  p3v (m_mul_p3 r (mkPosition3D x y z)) = mapply (rmat r) (x, y, z).
Proof. exact @Proofs_Plain.C04_rotation_vectors_proof. Qed.
Print Assumptions C04_rotation_vectors.

(** C09: toFloatVector gives the twelve numbers, whatever was in the output; the constructor
    from a vector gives the transform back. *)
Theorem C09_float_vector : forall (T : Type) (S : Scalar T) (t : Transform T) (out : list T),
  t_toFloatVector t out = Ok (ct t) /\ length (ct t) = 12%nat /\
  (t_isTransform t t_isTransform_default_eps = true -> t_ofVector (ct t) = t).
Proof. exact @Proofs_Plain.C09_float_vector_proof. Qed.
Print Assumptions C09_float_vector.

(** C15: the form of rotationFromAngleDirection that takes a Position3D: for a unit direction,
    the rotation of that angle about it. *)
Theorem C15_position_direction : forall (a : R) (p : Position3D R), p3_norm p = 1 ->
  exists r, rotationFromAngleDirectionP a p = Ok r /\ turns_about (rmat r) a (p3v p).
Proof. exact @Proofs_Plain.C15_position_direction_proof. Qed.
Print Assumptions C15_position_direction.

(** C24: number * position gives the velocity with each coordinate multiplied. *)
Theorem C24_gain : forall (k : R) (p : Position3D R) (x : Position6D R),
  (let v := p3_lscale_v3 k p in (v3_xd v, v3_yd v, v3_zd v)) = vscale k (p3v p) /\
  vlin (p6_lscale_v6 k x) = vscale k (p6lin x) /\ vang (p6_lscale_v6 k x) = vscale k (p6ang x).
Proof. exact @Proofs_Plain.C24_gain_proof. Qed.
Print Assumptions C24_gain.

(** C26: Displacement.isNear compares the positions and the quaternions; it is reflexive for
    eps > 0, symmetric, monotone, and does not see the sign of a quaternion. *)
Theorem C26_displacement_tolerance : forall (a b : Displacement R) (eps eps' : R),
  (d_isNear a b eps = true <-> p3_isNear (d_P a) (d_P b) eps = true /\ q_isNear (d_Q a) (d_Q b) eps = true) /\
  (0 < eps -> d_isNear a a eps = true) /\ d_isNear a b eps = d_isNear b a eps /\
  (eps <= eps' -> d_isNear a b eps = true -> d_isNear a b eps' = true) /\
  d_isNear (mkDisplacement (d_P a) (q_scale (d_Q a) (-1))) b eps = d_isNear a b eps.
Proof. exact @Proofs_Plain.C26_displacement_tolerance_proof. Qed.
Print Assumptions C26_displacement_tolerance.
