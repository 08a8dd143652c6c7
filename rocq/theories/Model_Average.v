(** * Average of transforms

    Source: /repo/almath/scenegraph/almatheigen.h.  The four operations of Eigen it
    calls (quaternion of a matrix, dot product, normalisation, matrix of a
    quaternion) are modelled after Eigen 3.3, Eigen/src/Geometry/Quaternion.h and
    Eigen/src/Core/Dot.h, which are not part of /repo.  The other functions of the
    header copy coefficients between the two libraries' types: see Model_QiGeom. *)

From Coq Require Import List Bool ZArith.
Import ListNotations.
From Verif Require Import Scalar Model_Base Model_Vec Model_Rigid.

Set Implicit Arguments.

Section Average.
Context {T : Type} {S : Scalar T}.
Local Open Scope sc_scope.

(** almath/scenegraph/almatheigen.h:35-38, [toEigenQuaternion]: Eigen's conversion of
    the 3x3 block (quaternionbase_assign_impl): by the trace when it is positive, by
    the largest diagonal coefficient otherwise. *)
Definition toEigenQuaternion (m : Transform T) : Quaternion T :=
  let tr := t_r1c1 m + t_r2c2 m + t_r3c3 m in
  if tr >? #0 then
    let t := s_sqrt (tr + #1) in
    let u := ##1//2 / t in
    mkQuaternion (##1//2 * t) ((t_r3c2 m - t_r2c3 m) * u)
      ((t_r1c3 m - t_r3c1 m) * u) ((t_r2c1 m - t_r1c2 m) * u)
  else
    let i1 := t_r2c2 m >? t_r1c1 m in
    if t_r3c3 m >? (if i1 then t_r2c2 m else t_r1c1 m) then
      let t := s_sqrt (t_r3c3 m - t_r1c1 m - t_r2c2 m + #1) in
      let u := ##1//2 / t in
      mkQuaternion ((t_r2c1 m - t_r1c2 m) * u) ((t_r1c3 m + t_r3c1 m) * u)
        ((t_r2c3 m + t_r3c2 m) * u) (##1//2 * t)
    else if i1 then
      let t := s_sqrt (t_r2c2 m - t_r3c3 m - t_r1c1 m + #1) in
      let u := ##1//2 / t in
      mkQuaternion ((t_r1c3 m - t_r3c1 m) * u) ((t_r1c2 m + t_r2c1 m) * u)
        (##1//2 * t) ((t_r3c2 m + t_r2c3 m) * u)
    else
      let t := s_sqrt (t_r1c1 m - t_r2c2 m - t_r3c3 m + #1) in
      let u := ##1//2 / t in
      mkQuaternion ((t_r3c2 m - t_r2c3 m) * u) (##1//2 * t)
        ((t_r2c1 m + t_r1c2 m) * u) ((t_r3c1 m + t_r1c3 m) * u).

(** Eigen's [Quaternion::dot], on the coefficients in their storage order x y z w. *)
Definition eq_dot (a b : Quaternion T) : T :=
  q_x a * q_x b + q_y a * q_y b + q_z a * q_z b + q_w a * q_w b.

(** almath/scenegraph/almatheigen.h:130: [coeffs() = -coeffs()]. *)
Definition eq_neg (a : Quaternion T) : Quaternion T :=
  mkQuaternion (- q_w a) (- q_x a) (- q_y a) (- q_z a).

(** almath/scenegraph/almatheigen.h:132: [coeffs() += coeffs()]. *)
Definition eq_add (a b : Quaternion T) : Quaternion T :=
  mkQuaternion (q_w a + q_w b) (q_x a + q_x b) (q_y a + q_y b) (q_z a + q_z b).

(** Eigen's [Quaternion::normalize] (MatrixBase::normalize): a null quaternion is
    left as it is. *)
Definition eq_normalize (a : Quaternion T) : Quaternion T :=
  let z := eq_dot a a in
  if z >? #0 then
    let n := s_sqrt z in
    mkQuaternion (q_w a / n) (q_x a / n) (q_y a / n) (q_z a / n)
  else a.

(** almath/scenegraph/almatheigen.h:137-142: Eigen's [toRotationMatrix] in the 3x3 block
    of the result and the position in its last column. *)
Definition eq_toTransform (a : Quaternion T) (p : Position3D T) : Transform T :=
  let tx := #2 * q_x a in
  let ty := #2 * q_y a in
  let tz := #2 * q_z a in
  let twx := tx * q_w a in
  let twy := ty * q_w a in
  let twz := tz * q_w a in
  let txx := tx * q_x a in
  let txy := ty * q_x a in
  let txz := tz * q_x a in
  let tyy := ty * q_y a in
  let tyz := tz * q_y a in
  let tzz := tz * q_z a in
  mkTransform (#1 - (tyy + tzz)) (txy - twz) (txz + twy) (p3_x p)
              (txy + twz) (#1 - (txx + tzz)) (tyz - twx) (p3_y p)
              (txz - twy) (tyz + twx) (#1 - (txx + tyy)) (p3_z p).

(** almath/scenegraph/almatheigen.h:122-135, the loop: the quaternion of each element, or
    its opposite when its dot product with that of the first element is not [>= 0], and
    its position, are accumulated. *)
Fixpoint average_loop (first : Quaternion T) (range : list (Transform T))
  (cq : Quaternion T) (cp : Position3D T) : Quaternion T * Position3D T :=
  match range with
  | [] => (cq, cp)
  | tf :: r =>
      let q := toEigenQuaternion tf in
      let q := if eq_dot q first >=? #0 then q else eq_neg q in
      average_loop first r (eq_add cq q)
        (mkPosition3D (p3_x cp + t_r1c4 tf) (p3_y cp + t_r2c4 tf) (p3_z cp + t_r3c4 tf))
  end.

(** almath/scenegraph/almatheigen.h:108-143, [averageTransforms]. [boost::size] is converted
    to an int: the model has no overflow (ranges shorter than 2^31). *)
Definition averageTransforms (range : list (Transform T)) : res (Transform T) :=
  match range with
  | [] => Throw
  | tf :: _ =>
      let f := #1 / s_ofZ (Z.of_nat (length range)) in
      let cs := average_loop (toEigenQuaternion tf) range (mkQuaternion #0 #0 #0 #0)
                  (mkPosition3D #0 #0 #0) in
      let q := eq_normalize (fst cs) in
      let p := snd cs in
      Ok (eq_toTransform q (mkPosition3D (p3_x p * f) (p3_y p * f) (p3_z p * f)))
  end.

End Average.
