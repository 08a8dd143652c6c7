(** * Transforms made of a quaternion and a vector (qi::geometry)

    Source: /repo/almath/scenegraph/qigeometry.h and
    /repo/almath/scenegraph/almathqigeometry.hpp; the types are declared in
    /repo/qi/geometry/geometry.idl.qi (lines cited below).  The operations of Eigen are
    modelled after Eigen 3.3 (Eigen/src/Geometry/Quaternion.h, AngleAxis.h,
    Transform.h, Eigen/src/LU/InverseImpl.h, Determinant.h, Eigen/src/Core/Fuzzy.h),
    which is not part of /repo.  Its singular value decomposition (JacobiSVD) is an
    argument of the model. *)

From Coq Require Import List Bool ZArith.
Import ListNotations.
From Verif Require Import Scalar Model_Base Model_Vec Model_Rigid Model_Helpers Model_Average.

Set Implicit Arguments.

(** qi/geometry/geometry.idl.qi: [Transform] is a [Quaternion] (x, y, z, w) and a
    [Vector3]; the records of AL::Math with the same fields are used for these two. *)
Record QiTransform (T : Type) := mkQi { qi_rot : Quaternion T; qi_pos : Position3D T }.

Section QiGeom.
Context {T : Type} {S : Scalar T}.
Local Open Scope sc_scope.

(** almath/scenegraph/qigeometry.h:19-22, [makeVector3] *)
Definition makeVector3 (x y z : T) : Position3D T := mkPosition3D x y z.

(** almath/scenegraph/qigeometry.h:29-32, [makeQuaternion]: the order of the arguments is
    x, y, z, w. *)
Definition makeQuaternion (x y z w : T) : Quaternion T := mkQuaternion w x y z.

(** Eigen's [MatrixBase::normalized]: a null vector is left as it is. *)
Definition ev_normalized (v : Position3D T) : Position3D T :=
  let z := p3_x v * p3_x v + p3_y v * p3_y v + p3_z v * p3_z v in
  if z >? #0 then
    let n := s_sqrt z in mkPosition3D (p3_x v / n) (p3_y v / n) (p3_z v / n)
  else v.

(** almath/scenegraph/qigeometry.h:34-41, [makeQuaternionFromAngleAxis]: Eigen's
    [Quaternion = AngleAxis]. *)
Definition makeQuaternionFromAngleAxis (angle : T) (axis : Position3D T) : Quaternion T :=
  let u := ev_normalized axis in
  let ha := ##1//2 * angle in
  let s := s_sin ha in
  mkQuaternion (s_cos ha) (s * p3_x u) (s * p3_y u) (s * p3_z u).

(** almath/scenegraph/qigeometry.h:49-52, [norm] *)
Definition qi_norm (q : Quaternion T) : T := s_sqrt (eq_dot q q).

(** almath/scenegraph/qigeometry.h:54-57, [isNormalized] *)
Definition isNormalized (q : Quaternion T) (epsilon : T) : bool :=
  s_abs (qi_norm q - #1) <? epsilon.

(** almath/scenegraph/qigeometry.h:60-63, [normalize], and 66-71, [normalized], which works
    on a copy. *)
Definition qi_normalize (q : Quaternion T) : Quaternion T := eq_normalize q.

(** almath/scenegraph/qigeometry.h:73-77, [makeTransform] *)
Definition makeTransform (rotation : Quaternion T) (translation : Position3D T) : QiTransform T :=
  mkQi rotation translation.

(** almath/scenegraph/qigeometry.h:86-93, [toEigenAffine3d]: the assertion, then a
    translation times a quaternion.  The result is the 3x4 part of the affine transform
    (its last row is 0 0 0 1). *)
Definition toEigenAffine3d (tf : QiTransform T) : res (Transform T) :=
  if isNormalized (qi_rot tf) ##1//100000 then Ok (eq_toTransform (qi_rot tf) (qi_pos tf))
  else Abort.

(** Eigen's product of quaternions. *)
Definition eq_mul (a b : Quaternion T) : Quaternion T :=
  mkQuaternion
    (q_w a * q_w b - q_x a * q_x b - q_y a * q_y b - q_z a * q_z b)
    (q_w a * q_x b + q_x a * q_w b + q_y a * q_z b - q_z a * q_y b)
    (q_w a * q_y b + q_y a * q_w b + q_z a * q_x b - q_x a * q_z b)
    (q_w a * q_z b + q_z a * q_w b + q_x a * q_y b - q_y a * q_x b).

(** Eigen's cross product. *)
Definition ev_cross (a b : Position3D T) : Position3D T :=
  mkPosition3D (p3_y a * p3_z b - p3_z a * p3_y b)
               (p3_z a * p3_x b - p3_x a * p3_z b)
               (p3_x a * p3_y b - p3_y a * p3_x b).

(** Eigen's [quaternion * vector] (_transformVector). *)
Definition eq_apply (a : Quaternion T) (v : Position3D T) : Position3D T :=
  let u := mkPosition3D (q_x a) (q_y a) (q_z a) in
  let uv := ev_cross u v in
  let uv := mkPosition3D (p3_x uv + p3_x uv) (p3_y uv + p3_y uv) (p3_z uv + p3_z uv) in
  let uuv := ev_cross u uv in
  mkPosition3D (p3_x v + q_w a * p3_x uv + p3_x uuv)
               (p3_y v + q_w a * p3_y uv + p3_y uuv)
               (p3_z v + q_w a * p3_z uv + p3_z uuv).

(** almath/scenegraph/qigeometry.h:96-108, [operator*] *)
Definition qi_mul (lhs rhs : QiTransform T) : res (QiTransform T) :=
  if isNormalized (qi_rot lhs) ##1//100000 then
    if isNormalized (qi_rot rhs) ##1//100000 then
      let v := eq_apply (qi_rot lhs) (qi_pos rhs) in
      Ok (mkQi (eq_mul (qi_rot lhs) (qi_rot rhs))
               (mkPosition3D (p3_x (qi_pos lhs) + p3_x v) (p3_y (qi_pos lhs) + p3_y v)
                             (p3_z (qi_pos lhs) + p3_z v)))
    else Abort
  else Abort.

(** The sum of the squares of the 16 coefficients of an affine transform; that of the
    last row 0 0 0 1 is the last 1. *)
Definition ea_squared (t : Transform T) : T :=
  t_r1c1 t * t_r1c1 t + t_r1c2 t * t_r1c2 t + t_r1c3 t * t_r1c3 t + t_r1c4 t * t_r1c4 t
  + t_r2c1 t * t_r2c1 t + t_r2c2 t * t_r2c2 t + t_r2c3 t * t_r2c3 t + t_r2c4 t * t_r2c4 t
  + t_r3c1 t * t_r3c1 t + t_r3c2 t * t_r3c2 t + t_r3c3 t * t_r3c3 t + t_r3c4 t * t_r3c4 t + #1.

(** The same for the difference of two affine transforms: the last row gives 0. *)
Definition ea_squared_diff (s t : Transform T) : T :=
  let sq (a b : T) := (a - b) * (a - b) in
  sq (t_r1c1 s) (t_r1c1 t) + sq (t_r1c2 s) (t_r1c2 t) + sq (t_r1c3 s) (t_r1c3 t) + sq (t_r1c4 s) (t_r1c4 t)
  + sq (t_r2c1 s) (t_r2c1 t) + sq (t_r2c2 s) (t_r2c2 t) + sq (t_r2c3 s) (t_r2c3 t) + sq (t_r2c4 s) (t_r2c4 t)
  + sq (t_r3c1 s) (t_r3c1 t) + sq (t_r3c2 s) (t_r3c2 t) + sq (t_r3c3 s) (t_r3c3 t) + sq (t_r3c4 s) (t_r3c4 t).

(** Eigen's [isApprox] on the matrices. *)
Definition ea_isApprox (s t : Transform T) (prec : T) : bool :=
  let a := ea_squared s in
  let b := ea_squared t in
  ea_squared_diff s t <=? prec * prec * (if b <? a then b else a).

(** almath/scenegraph/qigeometry.h:111-116, [isNear] *)
Definition qi_isNear (lhs rhs : QiTransform T) (epsilon : T) : res bool :=
  let! la := toEigenAffine3d lhs in
  let! ra := toEigenAffine3d rhs in
  Ok (ea_isApprox la ra epsilon).

(** Eigen's inverse of a 3x3 matrix, by cofactors. *)
Definition em_inverse (m : Rotation T) : Rotation T :=
  let c00 := m_r2c2 m * m_r3c3 m - m_r2c3 m * m_r3c2 m in
  let c10 := m_r3c2 m * m_r1c3 m - m_r3c3 m * m_r1c2 m in
  let c20 := m_r1c2 m * m_r2c3 m - m_r1c3 m * m_r2c2 m in
  let c01 := m_r2c3 m * m_r3c1 m - m_r2c1 m * m_r3c3 m in
  let c11 := m_r3c3 m * m_r1c1 m - m_r3c1 m * m_r1c3 m in
  let c21 := m_r1c3 m * m_r2c1 m - m_r1c1 m * m_r2c3 m in
  let c02 := m_r2c1 m * m_r3c2 m - m_r2c2 m * m_r3c1 m in
  let c12 := m_r3c1 m * m_r1c2 m - m_r3c2 m * m_r1c1 m in
  let c22 := m_r1c1 m * m_r2c2 m - m_r1c2 m * m_r2c1 m in
  let d := #1 / (c00 * m_r1c1 m + c10 * m_r2c1 m + c20 * m_r3c1 m) in
  mkRotation (c00 * d) (c10 * d) (c20 * d)
             (c01 * d) (c11 * d) (c21 * d)
             (c02 * d) (c12 * d) (c22 * d).

(** Eigen's determinant of a 3x3 matrix. *)
Definition em_det (m : Rotation T) : T :=
  m_r1c1 m * (m_r2c2 m * m_r3c3 m - m_r2c3 m * m_r3c2 m)
  - m_r1c2 m * (m_r2c1 m * m_r3c3 m - m_r2c3 m * m_r3c1 m)
  + m_r1c3 m * (m_r2c1 m * m_r3c2 m - m_r2c2 m * m_r3c1 m).

(** Eigen's [Transform::rotation] in the Affine mode (computeRotationScaling): from the
    matrices U and V the decomposition [svd] gives for the linear part, the first column of
    U being divided by the determinant of U V^T. *)
Definition ea_rotation (svd : Rotation T -> Rotation T * (T * T * T) * Rotation T)
  (m : Rotation T) : Rotation T :=
  let '(u, _, v) := svd m in
  let x := em_det (m_mul u (m_transpose v)) in
  m_mul (mkRotation (m_r1c1 u / x) (m_r1c2 u) (m_r1c3 u)
                    (m_r2c1 u / x) (m_r2c2 u) (m_r2c3 u)
                    (m_r3c1 u / x) (m_r3c2 u) (m_r3c3 u)) (m_transpose v).

(** The 3x3 part and the 3x4 matrix made of one and a null column, for the conversion of
    Eigen from a matrix to a quaternion. *)
Definition et_linear (t : Transform T) : Rotation T :=
  mkRotation (t_r1c1 t) (t_r1c2 t) (t_r1c3 t)
             (t_r2c1 t) (t_r2c2 t) (t_r2c3 t)
             (t_r3c1 t) (t_r3c2 t) (t_r3c3 t).
Definition em_toQuaternion (m : Rotation T) : Quaternion T :=
  toEigenQuaternion (mkTransform (m_r1c1 m) (m_r1c2 m) (m_r1c3 m) #0
                                 (m_r2c1 m) (m_r2c2 m) (m_r2c3 m) #0
                                 (m_r3c1 m) (m_r3c2 m) (m_r3c3 m) #0).

(** almath/scenegraph/qigeometry.h:120-127, [inverse]: Eigen's inverse of an affine
    transform is the inverse of the 3x3 part, and the translation by minus its product
    with the translation. *)
Definition qi_inverse (svd : Rotation T -> Rotation T * (T * T * T) * Rotation T)
  (tf : QiTransform T) : res (QiTransform T) :=
  let! a := toEigenAffine3d tf in
  let i := em_inverse (et_linear a) in
  let x := t_r1c4 a in let y := t_r2c4 a in let z := t_r3c4 a in
  Ok (mkQi (em_toQuaternion (ea_rotation svd i))
       (mkPosition3D ((- m_r1c1 i) * x + (- m_r1c2 i) * y + (- m_r1c3 i) * z)
                     ((- m_r2c1 i) * x + (- m_r2c2 i) * y + (- m_r2c3 i) * z)
                     ((- m_r3c1 i) * x + (- m_r3c2 i) * y + (- m_r3c3 i) * z))).

End QiGeom.

(** Conversions with AL::Math: [T] is float and [D] double, [narrow] and [widen] the
    conversions between them. *)
Section Conversions.
Context {T : Type} {S : Scalar T} {D : Type} {SD : Scalar D}.
Variable narrow : D -> T.
Variable widen : T -> D.
Local Open Scope sc_scope.

(** almath/scenegraph/almathqigeometry.hpp:24-33, [transformFromQiTransform] *)
Definition transformFromQiTransform (r : QiTransform D) : Transform T :=
  let q := mkQuaternion (narrow (q_w (qi_rot r))) (narrow (q_x (qi_rot r)))
                        (narrow (q_y (qi_rot r))) (narrow (q_z (qi_rot r))) in
  let t := transformFromQuaternion q in
  mkTransform (t_r1c1 t) (t_r1c2 t) (t_r1c3 t) (narrow (p3_x (qi_pos r)))
              (t_r2c1 t) (t_r2c2 t) (t_r2c3 t) (narrow (p3_y (qi_pos r)))
              (t_r3c1 t) (t_r3c2 t) (t_r3c3 t) (narrow (p3_z (qi_pos r))).

(** almath/scenegraph/almathqigeometry.hpp:35-42, [qiTransformFromALMath]: the 3x3 block is
    converted to double, then to a quaternion. *)
Definition qiTransformFromALMath (t : Transform T) : QiTransform D :=
  mkQi (toEigenQuaternion
          (mkTransform (widen (t_r1c1 t)) (widen (t_r1c2 t)) (widen (t_r1c3 t)) (widen (t_r1c4 t))
                       (widen (t_r2c1 t)) (widen (t_r2c2 t)) (widen (t_r2c3 t)) (widen (t_r2c4 t))
                       (widen (t_r3c1 t)) (widen (t_r3c2 t)) (widen (t_r3c3 t)) (widen (t_r3c4 t))))
       (mkPosition3D (widen (t_r1c4 t)) (widen (t_r2c4 t)) (widen (t_r3c4 t))).

(** almath/scenegraph/almathqigeometry.hpp:45-49, [pose2DFromQiTransform] *)
Definition pose2DFromQiTransform (r : QiTransform D) : Pose2D T :=
  pose2DFromTransform (transformFromQiTransform r).

(** almath/scenegraph/almathqigeometry.hpp:51-58, [qiTransformFromPose2D] *)
Definition qiTransformFromPose2D (pose : Pose2D T) : res (QiTransform D) :=
  let! q := q_fromAngleAndAxis (pose_theta pose) #0 #0 #1 in
  Ok (makeTransform
        (makeQuaternion (widen (q_x q)) (widen (q_y q)) (widen (q_z q)) (widen (q_w q)))
        (makeVector3 (widen (pose_x pose)) (widen (pose_y pose)) (widen #0))).

End Conversions.

(** ** Copies of coefficients between AL::Math and Eigen

    An Eigen matrix is its list of rows.  [Map<Matrix34frm>(&tr.r1_c1)] reads the twelve
    members of a Transform, which are stored row by row. *)
Section EigenCopies.
Context {T : Type}.

(** almath/scenegraph/almatheigen.h:25-27, 45-48, [toEigenMatrix34],
    [toEigenAffineCompact3] *)
Definition toEigenMatrix34 (t : Transform T) : list (list T) :=
  [[t_r1c1 t; t_r1c2 t; t_r1c3 t; t_r1c4 t];
   [t_r2c1 t; t_r2c2 t; t_r2c3 t; t_r2c4 t];
   [t_r3c1 t; t_r3c2 t; t_r3c3 t; t_r3c4 t]].

(** almath/scenegraph/almatheigen.h:29-32, [toEigenMatrix3] *)
Definition toEigenMatrix3 (t : Transform T) : list (list T) :=
  map (firstn 3) (toEigenMatrix34 t).

(** almath/scenegraph/almatheigen.h:41-43, [toEigenVector3] *)
Definition toEigenVector3 (p : Position3D T) : list T := [p3_x p; p3_y p; p3_z p].

(** almath/scenegraph/almatheigen.h:51-74, [toALMathTransform], from a matrix of any size
    (an assertion of Eigen fails if it is not 3x4; when the size is known at compile time
    the program is not compiled) and from the three first rows of an Eigen transform. *)
Definition toALMathTransform (m : list (list T)) : res (Transform T) :=
  match m with
  | [[a; b; c; x]; [d; e; f; y]; [g; h; i; z]] => Ok (mkTransform a b c x d e f y g h i z)
  | _ => Abort
  end.

(** almath/scenegraph/almatheigen.h:76-83, [toALMathPosition3D] *)
Definition toALMathPosition3D (v : list T) : res (Position3D T) :=
  match v with [x; y; z] => Ok (mkPosition3D x y z) | _ => Abort end.

(** almath/scenegraph/almatheigen.h:85-104, [toALMathVelocity6D] *)
Definition toALMathVelocity6D (v : list T) : res (Velocity6D T) :=
  match v with [a; b; c; d; e; f] => Ok (mkVelocity6D a b c d e f) | _ => Abort end.

End EigenCopies.
