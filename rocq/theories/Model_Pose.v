(** * URDF poses

    Sources: /repo/almath/scenegraph/urdf.h, /repo/src/scenegraph/urdf.cpp and
    /repo/almath/scenegraph/urdfeigen.h.  The operations of Eigen they call are
    modelled after Eigen 3.3 (Geometry/AngleAxis.h, Quaternion.h, EulerAngles.h),
    which is not part of /repo.  [T] stands for double. *)

From Coq Require Import List Bool ZArith.
Import ListNotations.
From Verif Require Import Scalar Model_Base Model_Vec Model_Rigid Model_Average.

Set Implicit Arguments.

Section Pose.
Context {T : Type} {S : Scalar T}.
Local Open Scope sc_scope.

(** almath/scenegraph/urdf.h:66, [Array3d]. *)
Definition Array3d : Type := (T * T * T)%type.
Definition a0 (v : Array3d) : T := fst (fst v).
Definition a1 (v : Array3d) : T := snd (fst v).
Definition a2 (v : Array3d) : T := snd v.
Definition a_zero : Array3d := (#0, #0, #0).

(** [std::array::operator==]. *)
Definition a_eqb (u v : Array3d) : bool :=
  (a0 u =? a0 v) && (a1 u =? a1 v) && (a2 u =? a2 v).

(** almath/scenegraph/urdf.h:68-70, [is_zero]. *)
Definition is_zero (a : Array3d) : bool :=
  (a0 a =? #0) && (a1 a =? #0) && (a2 a =? #0).

(** almath/scenegraph/urdf.h:271-288, [Pose]. *)
Record Pose := mkPose { p_xyz : Array3d; p_rpy : Array3d }.

(** almath/scenegraph/urdf.h:274, the default constructor. *)
Definition pose_id : Pose := mkPose a_zero a_zero.

(** almath/scenegraph/urdf.h:290-292, [operator==]. *)
Definition pose_eqb (p q : Pose) : bool :=
  a_eqb (p_xyz p) (p_xyz q) && a_eqb (p_rpy p) (p_rpy q).

(** Eigen's [AngleAxis * AngleAxis]: each is converted to a quaternion (cosine of the
    half angle, sine of the half angle times the axis), then they are multiplied
    (Quaternion::operator*, the Hamilton product).
    almath/scenegraph/urdfeigen.h:15-20, [eigenQuaternionFromUrdfRpy]. *)
Definition quat_of_rpy (rpy : Array3d) : Quaternion T :=
  let h (a : T) := ##1//2 * a in
  let z := mkQuaternion (s_cos (h (a2 rpy))) (s_sin (h (a2 rpy)) * #0)
             (s_sin (h (a2 rpy)) * #0) (s_sin (h (a2 rpy)) * #1) in
  let y := mkQuaternion (s_cos (h (a1 rpy))) (s_sin (h (a1 rpy)) * #0)
             (s_sin (h (a1 rpy)) * #1) (s_sin (h (a1 rpy)) * #0) in
  let x := mkQuaternion (s_cos (h (a0 rpy))) (s_sin (h (a0 rpy)) * #1)
             (s_sin (h (a0 rpy)) * #0) (s_sin (h (a0 rpy)) * #0) in
  q_mul (q_mul z y) x.

(** Eigen's [Quaternion::inverse]: the conjugate divided by the squared norm. *)
Definition eq_inverse (q : Quaternion T) : Quaternion T :=
  let n2 := eq_dot q q in
  if n2 >? #0 then
    mkQuaternion (q_w q / n2) (- q_x q / n2) (- q_y q / n2) (- q_z q / n2)
  else mkQuaternion #0 #0 #0 #0.

(** Eigen's [Quaternion::matrix] (toRotationMatrix), as a Transform without
    translation. *)
Definition eq_matrix (q : Quaternion T) : Transform T :=
  eq_toTransform q (mkPosition3D #0 #0 #0).

(** A matrix times a vector. *)
Definition mat_vec (m : Transform T) (v : Array3d) : Array3d :=
  (t_r1c1 m * a0 v + t_r1c2 m * a1 v + t_r1c3 m * a2 v,
   t_r2c1 m * a0 v + t_r2c2 m * a1 v + t_r2c3 m * a2 v,
   t_r3c1 m * a0 v + t_r3c2 m * a1 v + t_r3c3 m * a2 v).

(** Eigen's [Quaternion * Vector3] (_transformVector): [v + w uv + vec x uv] with
    [uv = 2 vec x v]. *)
Definition eq_vec (q : Quaternion T) (v : Array3d) : Array3d :=
  let cross (a b : Array3d) : Array3d :=
    (a1 a * a2 b - a2 a * a1 b, a2 a * a0 b - a0 a * a2 b, a0 a * a1 b - a1 a * a0 b) in
  let vec := (q_x q, q_y q, q_z q) in
  let c := cross vec v in
  let uv := (a0 c + a0 c, a1 c + a1 c, a2 c + a2 c) in
  let c2 := cross vec uv in
  (a0 v + q_w q * a0 uv + a0 c2, a1 v + q_w q * a1 uv + a1 c2, a2 v + q_w q * a2 uv + a2 c2).

(** almath/scenegraph/urdfeigen.h:22-26, [urdfRpyFromEigenMatrix3]: Eigen's
    [eulerAngles(2, 1, 0)], in reverse order. *)
Definition rpy_of_matrix (m : Transform T) : Array3d :=
  let r0 := s_atan2 (t_r2c1 m) (t_r1c1 m) in
  let c2 := s_sqrt (t_r3c3 m * t_r3c3 m + t_r3c2 m * t_r3c2 m) in
  let flip := r0 <? #0 in
  let e0 := if flip then r0 + s_pi else r0 in
  let e1 := if flip then s_atan2 (- t_r3c1 m) (- c2) else s_atan2 (- t_r3c1 m) c2 in
  let s1 := s_sin e0 in
  let c1 := s_cos e0 in
  let e2 := s_atan2 (s1 * t_r1c3 m - c1 * t_r2c3 m) (c1 * t_r2c2 m - s1 * t_r1c2 m) in
  (e2, e1, e0).

(** src/scenegraph/urdf.cpp:111-125, [Pose::inverse]. *)
Definition pose_inverse (p : Pose) : Pose :=
  if is_zero (p_rpy p) then
    mkPose (- a0 (p_xyz p), - a1 (p_xyz p), - a2 (p_xyz p)) a_zero
  else
    let new_mat := eq_matrix (eq_inverse (quat_of_rpy (p_rpy p))) in
    mkPose
      (if is_zero (p_xyz p) then a_zero
       else let v := mat_vec new_mat (p_xyz p) in (- a0 v, - a1 v, - a2 v))
      (rpy_of_matrix new_mat).

(** src/scenegraph/urdf.cpp:127-141, [operator*(Pose, Pose)]. *)
Definition pose_mul (lhs rhs : Pose) : Pose :=
  let lhs_quat := quat_of_rpy (p_rpy lhs) in
  let rpy :=
    if is_zero (p_rpy lhs) then p_rpy rhs
    else if is_zero (p_rpy rhs) then p_rpy lhs
    else rpy_of_matrix (eq_matrix (q_mul lhs_quat (quat_of_rpy (p_rpy rhs)))) in
  let v := eq_vec lhs_quat (p_xyz rhs) in
  mkPose (a0 (p_xyz lhs) + a0 v, a1 (p_xyz lhs) + a1 v, a2 (p_xyz lhs) + a2 v) rpy.

(** src/scenegraph/urdf.cpp:143-158, [Pose::from_ptree].  An "origin" element is
    modelled by the values of its two attributes, a missing attribute by zeros; the
    element itself may be missing. *)
Definition pose_from (o : option Pose) : Pose :=
  match o with Some p => p | None => pose_id end.

(** src/scenegraph/urdf.cpp:159-167, [Pose::to_ptree], as it is read back: an attribute whose
    numbers are all zero is not written, so that the signs of the zeros are lost. *)
Definition unsigned_zero (a : Array3d) : Array3d := if is_zero a then a_zero else a.

(** src/scenegraph/urdf.cpp:159-167, [Pose::to_ptree]: nothing when both parts are
    zero; doubles are written with enough digits to be read back unchanged
    (almath/scenegraph/urdf.h:31-50). *)
Definition pose_to (p : Pose) : option Pose :=
  if is_zero (p_xyz p) && is_zero (p_rpy p) then None
  else Some (mkPose (unsigned_zero (p_xyz p)) (unsigned_zero (p_rpy p))).

(** almath/scenegraph/urdfeigen.h:28-32, [toEigenTransform]. *)
Definition toEigenTransform (p : Pose) : Transform T :=
  eq_toTransform (quat_of_rpy (p_rpy p))
    (mkPosition3D (a0 (p_xyz p)) (a1 (p_xyz p)) (a2 (p_xyz p))).

End Pose.
Arguments Array3d T : clear implicits.
Arguments Pose T : clear implicits.
