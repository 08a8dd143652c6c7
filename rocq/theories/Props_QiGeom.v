(** * Properties C62 and C63: transforms made of a quaternion and a vector *)
From Coq Require Import Reals List Lra Lia Psatz Nsatz Bool Arith.
Import ListNotations.
From Verif Require Import Scalar RInst RLemmas Model_Base Model_Vec Model_Rigid Model_Helpers Model_Pose
  Model_Average Model_QiGeom Spec_Geom Spec_Average Spec_QiGeom SO3 SO3Quat Proofs_Geom.
From Verif Require Spec_Vec Proofs_Average Proofs_Plane Proofs_Quat.
Local Open Scope R_scope.
From Verif Require Proofs_QiGeom.

(** C62: the product of two transforms is defined, unit, and moves points as the second
    transform followed by the first. *)
Theorem C62_product : forall a b : QiTransform R, qi_unit a -> qi_unit b ->
  exists c, qi_mul a b = Ok c /\ qi_unit c /\
  forall v, qi_motion c v = qi_motion a (qi_motion b v).
Proof. exact @Proofs_QiGeom.C62_product_proof. Qed.
Print Assumptions C62_product.

(** C62: the product is associative, exactly, and the identity is neutral. *)
Theorem C62_group : forall a b c : QiTransform R, qi_unit a -> qi_unit b -> qi_unit c ->
  rbind (qi_mul a b) (fun ab => qi_mul ab c) = rbind (qi_mul b c) (fun bc => qi_mul a bc) /\
  qi_mul a qi_id = Ok a /\ qi_mul qi_id a = Ok a.
Proof. exact @Proofs_QiGeom.C62_group_proof. Qed.
Print Assumptions C62_group.

(** C62: inverse returns the unit transform with the inverse motion; multiplied with the
    transform on either side it gives the identity or the identity with the opposite
    quaternion, and so does inverting twice.  [svd] is the singular value decomposition of
    Eigen, of which only its contract on rotations is used. *)
Theorem C62_inverse : forall svd (a : QiTransform R),
  (forall m, is_rot m -> decomposes m (svd m)) -> qi_unit a ->
  exists i, qi_inverse svd a = Ok i /\ qi_unit i /\
  (forall v, qi_motion i (qi_motion a v) = v /\ qi_motion a (qi_motion i v) = v) /\
  (qi_mul i a = Ok qi_id \/ qi_mul i a = Ok (qi_opposite qi_id)) /\
  (qi_mul a i = Ok qi_id \/ qi_mul a i = Ok (qi_opposite qi_id)) /\
  (qi_inverse svd i = Ok a \/ qi_inverse svd i = Ok (qi_opposite a)).
Proof. exact @Proofs_QiGeom.C62_inverse_proof. Qed.
Print Assumptions C62_inverse.

Example ex_C62_svd : exists svd, forall m, is_rot m -> decomposes m (svd m).
Proof.
  exists (fun m => (m, (1, 1, 1), mkRotation 1 0 0 0 1 0 0 0 1)). intros m hr.
  split; [exact (proj1 hr)|]. split; [rewrite rmat_mk; apply orthonormal_of_rows; repeat split; ring|].
  cbn [fst snd]. repeat split; try lra.
  destruct m as [a b c d e f g h i]. intros x y hx hy.
  destruct x as [|[|[|x]]]; try lia; destruct y as [|[|[|y]]]; try lia; unr; ring.
Qed.

Example ex_C62_unit : qi_unit (mkQi (mkQuaternion (1/2) (1/2) (1/2) (1/2)) (mkPosition3D 1 2 3)).
Proof. unfold qi_unit, unitq. unr. field. Qed.

(** C62: on every transform the assertion lets through, inverse returns a unit rotation,
    as soon as the matrices of the decomposition are orthonormal. *)
Theorem C62_inverse_unit : forall svd (a : QiTransform R),
  (forall m, let '(u, _, v) := svd m in orthonormal (rmat u) /\ orthonormal (rmat v)) ->
  qi_accepted a -> exists i, qi_inverse svd a = Ok i /\ qi_unit i.
Proof. exact @Proofs_QiGeom.C62_inverse_unit_proof. Qed.
Print Assumptions C62_inverse_unit.

(** C62: the operations are defined exactly on the transforms whose quaternion has a norm
    in ]1 - 1e-5, 1 + 1e-5[; otherwise an assertion stops the program. *)
Theorem C62_defined : forall svd (a b : QiTransform R) (eps : R),
  (qi_accepted a /\ qi_accepted b -> exists c, qi_mul a b = Ok c) /\
  (~ (qi_accepted a /\ qi_accepted b) -> qi_mul a b = Abort) /\
  (qi_accepted a /\ qi_accepted b -> exists r, qi_isNear a b eps = Ok r) /\
  (~ (qi_accepted a /\ qi_accepted b) -> qi_isNear a b eps = Abort) /\
  (qi_accepted a -> exists i, qi_inverse svd a = Ok i) /\
  (~ qi_accepted a -> qi_inverse svd a = Abort).
Proof. exact @Proofs_QiGeom.C62_defined_proof. Qed.
Print Assumptions C62_defined.

(** C62, finding: the product of two transforms that pass the assertion may not pass it, so
    that a sequence of products without renormalisation stops the program. *)
Theorem C62_drift_refuted : exists a c : QiTransform R, qi_accepted a /\
  qi_mul a a = Ok c /\ ~ qi_accepted c /\ qi_mul c a = Abort.
Proof. exact @Proofs_QiGeom.C62_drift_refuted_proof. Qed.
Print Assumptions C62_drift_refuted.

(** C62: for all transforms that pass the assertions, the product moves a point as the
    two transforms one after the other, up to 1e-4 times the norm of the point. *)
Theorem C62_accepted : forall a b : QiTransform R, qi_accepted a -> qi_accepted b ->
  exists c, qi_mul a b = Ok c /\
  forall v, vnorm (vsub (qi_motion a (qi_motion b v)) (qi_motion c v)) <= 1/10000 * vnorm v.
Proof. exact @Proofs_QiGeom.C62_accepted_proof. Qed.
Print Assumptions C62_accepted.

Example ex_C62_accepted : qi_accepted (mkQi (mkQuaternion (1 + 9/1000000) 0 0 0) (mkPosition3D 1 2 3)).
Proof.
  unfold qi_accepted. cbn [qi_rot]. rewrite (sqrt_unique' _ (1 + 9/1000000)); [|lra|unr; ring].
  replace (1 + 9/1000000 - 1) with (9/1000000) by ring. rewrite Rabs_right; lra.
Qed.

(** C62: what isNear decides: the squared distance of the matrices and positions, against
    eps^2 times a scale, 4 plus the smaller squared distance to the origin. *)
Theorem C62_near : forall (a b : QiTransform R) (eps : R), qi_unit a -> qi_unit b ->
  exists r, qi_isNear a b eps = Ok r /\
  (r = true <-> mdist2 (qmat (qi_rot a)) (qmat (qi_rot b)) + vdist2 (p3v (qi_pos a)) (p3v (qi_pos b)) <=
     eps * eps * (4 + Rmin (vdot (p3v (qi_pos a)) (p3v (qi_pos a))) (vdot (p3v (qi_pos b)) (p3v (qi_pos b))))).
Proof. exact @Proofs_QiGeom.C62_near_proof. Qed.
Print Assumptions C62_near.

(** C62: isNear is reflexive and symmetric, does not distinguish a quaternion from its
    opposite, and with a null tolerance it holds exactly for equal motions. *)
Theorem C62_near_laws : forall (a b : QiTransform R) (eps : R), qi_unit a -> qi_unit b ->
  qi_isNear a a eps = Ok true /\
  qi_isNear a b eps = qi_isNear b a eps /\
  qi_isNear (qi_opposite a) b eps = qi_isNear a b eps /\
  (qi_isNear a b 0 = Ok true <-> forall v, qi_motion a v = qi_motion b v).
Proof. exact @Proofs_QiGeom.C62_near_laws_proof. Qed.
Print Assumptions C62_near_laws.

(** C62, finding: the tolerance grows with the distance to the origin: with 1e-3, two
    frames 1 m apart are near when they are 1000 m away. *)
Theorem C62_near_origin_refuted : exists a b : QiTransform R, qi_unit a /\ qi_unit b /\
  vdist2 (p3v (qi_pos a)) (p3v (qi_pos b)) = 1 /\ qi_isNear a b (1/1000) = Ok true.
Proof. exact @Proofs_QiGeom.C62_near_origin_refuted_proof. Qed.
Print Assumptions C62_near_origin_refuted.

(** C62: makeQuaternionFromAngleAxis returns, for any axis but the null one, the unit
    quaternion of the rotation of that angle about that axis, whatever its length.  For the
    null axis, the quaternion (cos(angle/2), 0, 0, 0). *)
Theorem C62_angle_axis : forall (angle : R) (axis : Position3D R),
  let q := makeQuaternionFromAngleAxis angle axis in
  (p3v axis <> (0, 0, 0) -> unitq q /\
   forall v, mapply (qmat q) v = rodrigues angle (vscale (/ vnorm (p3v axis)) (p3v axis)) v) /\
  (p3v axis <> (0, 0, 0) -> forall k, 0 < k ->
   makeQuaternionFromAngleAxis angle (mkPosition3D (k * p3_x axis) (k * p3_y axis) (k * p3_z axis)) = q) /\
  (p3v axis = (0, 0, 0) -> q = mkQuaternion (cos (angle / 2)) 0 0 0).
Proof. exact @Proofs_QiGeom.C62_angle_axis_proof. Qed.
Print Assumptions C62_angle_axis.

Example ex_C62_axis : p3v (mkPosition3D 0 3 4) <> (0, 0, 0).
Proof. unfold p3v. cbn. intro E. injection E as E1 E2. lra. Qed.

(** C62: normalize gives the unit quaternion in the direction of a non-null one, leaves a
    null or a unit one as it is, and normalising again changes nothing. *)
Theorem C62_normalize : forall q : Quaternion R,
  (qnorm2 q <> 0 -> unitq (qi_normalize q) /\ q = qscale (sqrt (qnorm2 q)) (qi_normalize q)) /\
  (qnorm2 q = 0 \/ unitq q -> qi_normalize q = q) /\
  qi_normalize (qi_normalize q) = qi_normalize q /\
  (qnorm2 q <> 0 -> forall e, 0 < e -> isNormalized (qi_normalize q) e = true).
Proof. exact @Proofs_QiGeom.C62_normalize_proof. Qed.
Print Assumptions C62_normalize.

(** C63, exact arithmetic: transformFromQiTransform keeps motions, hence turns products
    into products, inverses into inverses and the identity into the identity. *)
Theorem C63_homomorphism : forall svd (a b : QiTransform R),
  (forall m, is_rot m -> decomposes m (svd m)) -> qi_unit a -> qi_unit b ->
  let T := transformFromQiTransform (T := R) (fun x : R => x) in
  rigid (T a) /\
  (forall v, motion (T a) v = qi_motion a v) /\
  (forall c, qi_mul a b = Ok c -> T c = t_mul (T a) (T b)) /\
  (forall i, qi_inverse svd a = Ok i -> T i = t_inverse (T a)) /\
  T qi_id = t_id.
Proof. exact @Proofs_QiGeom.C63_homomorphism_proof. Qed.
Print Assumptions C63_homomorphism.

(** C63, exact arithmetic: a rigid transform converted to qi is unit and comes back
    unchanged; a unit qi transform comes back as itself or with the opposite quaternion. *)
Theorem C63_round_trip : forall (t : Transform R) (a : QiTransform R),
  let T := transformFromQiTransform (T := R) (fun x : R => x) in
  let Q := qiTransformFromALMath (T := R) (fun x : R => x) in
  (rigid t -> qi_unit (Q t) /\ T (Q t) = t) /\
  (qi_unit a -> Q (T a) = a \/ Q (T a) = qi_opposite a).
Proof. exact @Proofs_QiGeom.C63_round_trip_proof. Qed.
Print Assumptions C63_round_trip.

(** C63, exact arithmetic: a Pose2D converted to qi is the same motion of the plane, and
    comes back unchanged when its angle is in ]-pi, pi], modulo 2 pi otherwise. *)
Theorem C63_pose2D : forall p : Pose2D R,
  exists a, qiTransformFromPose2D (fun x : R => x) p = Ok a /\ qi_unit a /\
  transformFromQiTransform (fun x : R => x) a = transformFromPose2D p /\
  let b := pose2DFromQiTransform (fun x : R => x) a in
  (-PI < pose_theta p <= PI -> b = p) /\
  pose_x b = pose_x p /\ pose_y b = pose_y p /\ -PI < pose_theta b <= PI /\
  cos (pose_theta b) = cos (pose_theta p) /\ sin (pose_theta b) = sin (pose_theta p).
Proof. exact @Proofs_QiGeom.C63_pose2D_proof. Qed.
Print Assumptions C63_pose2D.

(** C63, any arithmetic: the translation of a transform survives the conversion to doubles
    and back, whatever the conversions are, if narrowing undoes widening; so do the
    coordinates of a Pose2D in its qi transform. *)
Theorem C63_translation : forall (T D : Type) (S : Scalar T) (SD : Scalar D)
  (narrow : D -> T) (widen : T -> D), (forall x, narrow (widen x) = x) ->
  forall t : Transform T,
  let b := transformFromQiTransform narrow (qiTransformFromALMath widen t) in
  t_r1c4 b = t_r1c4 t /\ t_r2c4 b = t_r2c4 t /\ t_r3c4 b = t_r3c4 t.
Proof. exact @Proofs_QiGeom.C63_translation_proof. Qed.
Print Assumptions C63_translation.

(** C63, any type of coefficients: copying a transform, a position or a velocity to Eigen
    and back changes nothing, and row [i], column [j] of the matrix is the member
    [r(i+1)_c(j+1)]; toALMathTransform accepts exactly the 3x4 matrices and loses nothing. *)
Theorem C63_copies : forall (T : Type) (t : Transform T) (m : list (list T)) (v : list T),
  toALMathTransform (toEigenMatrix34 t) = Ok t /\
  concat (toEigenMatrix34 t) = Spec_Vec.ct t /\
  toEigenMatrix3 t = [[t_r1c1 t; t_r1c2 t; t_r1c3 t]; [t_r2c1 t; t_r2c2 t; t_r2c3 t]; [t_r3c1 t; t_r3c2 t; t_r3c3 t]] /\
  (forall s, toALMathTransform m = Ok s <-> m = toEigenMatrix34 s) /\
  ((exists s, toALMathTransform m = Ok s) <-> length m = 3%nat /\ Forall (fun r => length r = 4%nat) m) /\
  (forall p, toALMathPosition3D v = Ok p <-> v = toEigenVector3 p) /\
  (forall p, toALMathVelocity6D v = Ok p <-> v = Spec_Vec.cv6 p).
Proof. exact @Proofs_QiGeom.C63_copies_proof. Qed.
Print Assumptions C63_copies.

Example ex_C63_rigid : rigid (mkTransform 0 (-1) 0 1 1 0 0 2 0 0 1 3).
Proof. apply rigid_mk. repeat split; ring. Qed.
