(** * src/tools/almath.cpp

    Angles, clipping, conversions between value types, mixed products. *)

From Coq Require Import List Bool ZArith.
Import ListNotations.
From Verif Require Import Scalar Model_Base Model_Vec Model_Rigid.

Set Implicit Arguments.

Section Model.
Context {T : Type} {S : Scalar T}.
Local Open Scope sc_scope.

(** src/tools/almath.cpp:19-31 and 33-38 *)
Definition modulo2PI (angle : T) : T :=
  let a := s_fmod angle s_2pi in
  if a >? s_pi then a - s_2pi
  else if a <? - s_pi then a + s_2pi
  else a.

(** src/tools/almath.cpp:54-60: the loop body; [None] stands for the exception of
    line 56. [weightSum] is never read afterwards and is not modelled. *)
Fixpoint meanAngle_loop (l : list (T * T)) (acc : Position2D T) : res (Position2D T) :=
  match l with
  | [] => Ok acc
  | (a, w) :: l' =>
      if w <=? #0 then Throw
      else
        let term := p2_lscale w (mkPosition2D (s_cos a) (s_sin a)) in
        meanAngle_loop l' (mkPosition2D (p2_x acc + p2_x term) (p2_y acc + p2_y term))
  end.

(** src/tools/almath.cpp:45-65 *)
Definition weightedMeanAngle (angles weights : list T) : res T :=
  if negb (Nat.eqb (length angles) (length weights)) then Throw
  else
    rbind (meanAngle_loop (combine angles weights) p2_default) (fun sum =>
    if p2_norm sum <? ##1//1000 then Throw
    else Ok (modulo2PI (s_atan2 (p2_y sum) (p2_x sum)))).

(** src/tools/almath.cpp:40-43 *)
Definition meanAngle (angles : list T) : res T :=
  weightedMeanAngle angles (repeat #1 (length angles)).

(** boost::algorithm::clamp(val, lo, hi), used on almath.cpp:73:
    [val < lo ? lo : (hi < val ? hi : val)]. *)
Definition clamp (val lo hi : T) : T :=
  if val <? lo then lo else if hi <? val then hi else val.

(** src/tools/almath.cpp:67-75: the returned flag and the new value. *)
Definition clipData (lo hi x : T) : bool * T :=
  let x' := clamp x lo hi in
  (negb (x =? x'), x').

(** src/tools/almath.cpp:77-91 *)
Fixpoint clipDataV (lo hi : T) (l : list T) : bool * list T :=
  match l with
  | [] => (false, [])
  | x :: l' =>
      let '(c, x') := clipData lo hi x in
      let '(cs, l'') := clipDataV lo hi l' in
      (c || cs, x' :: l'')
  end.

(** src/tools/almath.cpp:93-107 *)
Fixpoint clipDataVV (lo hi : T) (l : list (list T)) : bool * list (list T) :=
  match l with
  | [] => (false, [])
  | x :: l' =>
      let '(c, x') := clipDataV lo hi x in
      let '(cs, l'') := clipDataVV lo hi l' in
      (c || cs, x' :: l'')
  end.

(** src/tools/almath.cpp:110-120: statement by statement, addresses [i], [o]. *)
Definition changeReferencePose2D (theta : T) (m : mem (Pose2D T)) (i o : nat) : mem (Pose2D T) :=
  let cs := s_cos theta in
  let sn := s_sin theta in
  do m := mupd m o (mkPose2D (cs * pose_x (m i) - sn * pose_y (m i)) (pose_y (m o)) (pose_theta (m o))) in
  do m := mupd m o (mkPose2D (pose_x (m o)) (sn * pose_x (m i) + cs * pose_y (m i)) (pose_theta (m o))) in
  do m := mupd m o (mkPose2D (pose_x (m o)) (pose_y (m o)) (pose_theta (m i))) in
  m.

(** src/tools/almath.cpp:123-134 *)
Definition changeReferencePose2DInPlace (theta : T) (p : Pose2D T) : Pose2D T :=
  let cs := s_cos theta in
  let sn := s_sin theta in
  mkPose2D (cs * pose_x p - sn * pose_y p) (sn * pose_x p + cs * pose_y p) (pose_theta p).

(** src/tools/almath.cpp:137-140 *)
Definition position3DFromPosition6D (p : Position6D T) : Position3D T :=
  mkPosition3D (p6_x p) (p6_y p) (p6_z p).

(** src/tools/almath.cpp:143-152 *)
Definition position6DFromVelocity6D (v : Velocity6D T) : Position6D T :=
  mkPosition6D (v6_xd v) (v6_yd v) (v6_zd v) (v6_wxd v) (v6_wyd v) (v6_wzd v).

(** src/tools/almath.cpp:154-162 *)
Definition m_mul_p3 (r : Rotation T) (p : Position3D T) : Position3D T :=
  mkPosition3D (m_r1c1 r * p3_x p + m_r1c2 r * p3_y p + m_r1c3 r * p3_z p)
               (m_r2c1 r * p3_x p + m_r2c2 r * p3_y p + m_r2c3 r * p3_z p)
               (m_r3c1 r * p3_x p + m_r3c2 r * p3_y p + m_r3c3 r * p3_z p).

(** src/tools/almath.cpp:186-197 *)
Definition p6_lscale_v6 (v : T) (p : Position6D T) : Velocity6D T :=
  mkVelocity6D (v * p6_x p) (v * p6_y p) (v * p6_z p) (v * p6_wx p) (v * p6_wy p) (v * p6_wz p).

(** src/tools/almath.cpp:199-207 *)
Definition p3_lscale_v3 (v : T) (p : Position3D T) : Velocity3D T :=
  mkVelocity3D (v * p3_x p) (v * p3_y p) (v * p3_z p).

(** src/tools/almath.cpp:209-217 *)
Definition m_mul_v3 (r : Rotation T) (v : Velocity3D T) : Velocity3D T :=
  mkVelocity3D (m_r1c1 r * v3_xd v + m_r1c2 r * v3_yd v + m_r1c3 r * v3_zd v)
               (m_r2c1 r * v3_xd v + m_r2c2 r * v3_yd v + m_r2c3 r * v3_zd v)
               (m_r3c1 r * v3_xd v + m_r3c2 r * v3_yd v + m_r3c3 r * v3_zd v).

(** src/tools/almath.cpp:219-228 *)
Definition rotationFromAngleDirectionP (theta : T) (p : Position3D T) : res (Rotation T) :=
  m_fromAngleDirection theta (p3_x p) (p3_y p) (p3_z p).

(** src/tools/almath.cpp:231-243 *)
Definition position2DFromPose2D (p : Pose2D T) : Position2D T :=
  mkPosition2D (pose_x p) (pose_y p).

(** src/tools/almath.cpp:246-268 *)
Definition position6DFromPose2D (p : Pose2D T) : Position6D T :=
  mkPosition6D (pose_x p) (pose_y p) #0 #0 #0 (pose_theta p).

(** src/tools/almath.cpp:271-291 *)
Definition position6DFromPosition3D (p : Position3D T) : Position6D T :=
  mkPosition6D (p3_x p) (p3_y p) (p3_z p) #0 #0 #0.

(** src/tools/almath.cpp:293-306 *)
Definition pose2DFromPosition6D (p : Position6D T) : Pose2D T :=
  mkPose2D (p6_x p) (p6_y p) (p6_wz p).

(** src/tools/almath.cpp:309-324 *)
Definition pose2DFromPosition2D (p : Position2D T) (angle : T) : Pose2D T :=
  mkPose2D (p2_x p) (p2_y p) angle.

(** src/tools/almath.cpp:327-334 *)
Definition pose_mul_p2 (a : Pose2D T) (p : Position2D T) : Position2D T :=
  mkPosition2D (pose_x a + s_cos (pose_theta a) * p2_x p - s_sin (pose_theta a) * p2_y p)
               (pose_y a + s_sin (pose_theta a) * p2_x p + s_cos (pose_theta a) * p2_y p).

(** src/tools/almath.cpp:336-359 *)
Definition quaternionFromRotation3D (r : Rotation3D T) : Quaternion T :=
  let cx := s_cos (##1//2 * e3_wx r) in
  let cy := s_cos (##1//2 * e3_wy r) in
  let cz := s_cos (##1//2 * e3_wz r) in
  let sx := s_sin (##1//2 * e3_wx r) in
  let sy := s_sin (##1//2 * e3_wy r) in
  let sz := s_sin (##1//2 * e3_wz r) in
  mkQuaternion (cz * cy * cx + sz * sy * sx)
               (cz * cy * sx - sz * sy * cx)
               (cz * sy * cx + cy * sz * sx)
               (cy * sz * cx - cz * sy * sx).

(** src/tools/almath.cpp:361-384 *)
Definition rotationFromQuaternion (q : Quaternion T) : Rotation T :=
  mkRotation (s_wide (WSub (WVal #1) (WMul (WVal #2) (WAdd (WPow2 (q_y q)) (WPow2 (q_z q))))))
             (#2 * (q_x q * q_y q - q_z q * q_w q))
             (#2 * (q_x q * q_z q + q_y q * q_w q))
             (#2 * (q_x q * q_y q + q_z q * q_w q))
             (s_wide (WSub (WVal #1) (WMul (WVal #2) (WAdd (WPow2 (q_x q)) (WPow2 (q_z q))))))
             (#2 * (q_y q * q_z q - q_x q * q_w q))
             (#2 * (q_x q * q_z q - q_y q * q_w q))
             (#2 * (q_y q * q_z q + q_x q * q_w q))
             (s_wide (WSub (WVal #1) (WMul (WVal #2) (WAdd (WPow2 (q_x q)) (WPow2 (q_y q)))))).

(** src/tools/almath.cpp:387-408 *)
Definition rotation3DFromQuaternion (q : Quaternion T) : Rotation3D T :=
  let r := rotationFromQuaternion q in
  let wz := s_atan2 (m_r2c1 r) (m_r1c1 r) in
  let sy := s_sin wz in
  let cy := s_cos wz in
  let wy := s_atan2 (- m_r3c1 r) (cy * m_r1c1 r + sy * m_r2c1 r) in
  let wx := s_atan2 (sy * m_r1c3 r - cy * m_r2c3 r) (cy * m_r2c2 r - sy * m_r1c2 r) in
  mkRotation3D wx wy wz.

(** src/tools/almath.cpp:410-422 *)
Definition quaternionPosition3DFromPosition6D (p : Position6D T) : Quaternion T * Position3D T :=
  (quaternionFromRotation3D (mkRotation3D (p6_wx p) (p6_wy p) (p6_wz p)),
   mkPosition3D (p6_x p) (p6_y p) (p6_z p)).

(** src/tools/almath.cpp:425-440: the nine values written in [pInertia], row major.
    boost::math::pow<2>(x) is x*x. *)
Definition pointMassInertia (mass : T) (p : Position3D T) : list T :=
  let x2 := p3_x p * p3_x p in
  let y2 := p3_y p * p3_y p in
  let z2 := p3_z p * p3_z p in
  let i01 := (- mass) * p3_x p * p3_y p in
  let i02 := (- mass) * p3_x p * p3_z p in
  let i12 := (- mass) * p3_y p * p3_z p in
  [mass * (y2 + z2); i01; i02;
   i01; mass * (x2 + z2); i12;
   i02; i12; mass * (x2 + y2)].

End Model.
