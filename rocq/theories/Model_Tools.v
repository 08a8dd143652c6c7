(** * src/tools/avoidfootcollision.cpp, src/tools/aldubinscurve.cpp,
    src/geometrics/shapes3d_utils.cpp *)

From Coq Require Import List Bool ZArith.
Import ListNotations.
From Verif Require Import Scalar Model_Base Model_Vec Model_Rigid Model_Almath Model_Helpers.

Section Model.
Context {T : Type} {S : Scalar T}.
Local Open Scope sc_scope.
Notation P2 := (Position2D T).

(** src/tools/avoidfootcollision.cpp:31-80 and 82-96; the last argument is the point
    [pC] before the call, returned unchanged when the answer is false. *)
Definition intersectionSegment2D (a1 a2 b1 b2 c : P2) : bool * P2 :=
  let gxA := p2_x a2 - p2_x a1 in
  let gyA := p2_y a2 - p2_y a1 in
  let gxB := p2_x b2 - p2_x b1 in
  let gyB := p2_y b2 - p2_y b1 in
  let tol := ##1//100000 in
  let den := gxB * gyA - gxA * gyB in
  if s_abs den <? tol then (false, c)
  else
    let rB := (gyA * (p2_x a1 - p2_x b1) + gxA * (p2_y b1 - p2_y a1)) / den in
    if (rB <? #0) || (rB >? #1) then (false, c)
    else
      let finish rA :=
        if (rA <? #0) || (rA >? #1) then (false, c)
        else (true, mkPosition2D (p2_x a1 + rA * gxA) (p2_y a1 + rA * gyA)) in
      if s_abs gxA <? tol then
        if s_abs gyA <? tol then (false, c)
        else finish ((p2_y b1 - p2_y a1 + rB * gyB) / gyA)
      else finish ((p2_x b1 - p2_x a1 + rB * gxB) / gxA).

(** The sides of a box: consecutive corners, the last one being followed by the first
    ([(i+1) % size], lines 167-168; [iPlusOne], lines 127-131). *)
Definition sides (box : list P2) : list (P2 * P2) :=
  match box with
  | [] => []
  | p :: r => combine box (r ++ [p])
  end.

(** src/tools/avoidfootcollision.cpp:109-146 *)
Definition pointInsideBox (box : list P2) (p : P2) : bool :=
  forallb (fun '(a, b) =>
    let dx := p2_x b - p2_x a in
    let dy := p2_y b - p2_y a in
    let tx := p2_x p - p2_x a in
    let ty := p2_y p - p2_y a in
    let det := dx * ty - dy * tx in
    negb (det >=? #0)) (sides box).

(** src/tools/avoidfootcollision.cpp:149-188. The double loop returns true at the first pair
    of sides that meet; [intersection] is a local variable. *)
Definition areTwoBoxesInCollision (boxA boxB : list P2) : bool :=
  existsb (fun '(a1, a2) =>
    existsb (fun '(b1, b2) => fst (intersectionSegment2D a1 a2 b1 b2 p2_default)) (sides boxB))
    (sides boxA)
  || match boxA with [] => false | a0 :: _ => pointInsideBox boxB a0 end
  || match boxB with [] => false | b0 :: _ => pointInsideBox boxA b0 end.

(** src/tools/avoidfootcollision.cpp:192-203 *)
Definition computeBox (box : list P2) (pose : Pose2D T) : list P2 :=
  map (pose_mul_p2 pose) box.

(** src/tools/avoidfootcollision.cpp:223-237: [n] turns of the loop; the two assignments to
    [pMovingPose.theta] only change the pose [pose] used by the next computeBox. *)
Fixpoint dichotomie_loop (n : nat) (fixed moving : list P2) (pose : Pose2D T) (lo hi best : T) : T :=
  match n with
  | O => best
  | Datatypes.S n' =>
      let middle := (lo + hi) * ##1//2 in
      let pose' := mkPose2D (pose_x pose) (pose_y pose) middle in
      if areTwoBoxesInCollision fixed (computeBox moving pose')
      then dichotomie_loop n' fixed moving pose' lo middle best
      else dichotomie_loop n' fixed moving pose' middle hi middle
  end.

(** src/tools/avoidfootcollision.cpp:206-239 *)
Definition dichotomie (fixed moving : list P2) (pose : Pose2D T) : Pose2D T :=
  mkPose2D (pose_x pose) (pose_y pose)
    (dichotomie_loop 5 fixed moving pose #0 (pose_theta pose) #0).

(** src/tools/avoidfootcollision.cpp:245-276: the returned flag and the new move. *)
Definition avoidFootCollision (lbox rbox : list P2) (leftSupport : bool) (move : Pose2D T) : bool * Pose2D T :=
  if leftSupport then
    if areTwoBoxesInCollision lbox (computeBox rbox move) then (true, dichotomie lbox rbox move)
    else (false, move)
  else
    if areTwoBoxesInCollision rbox (computeBox lbox move) then (true, dichotomie rbox lbox move)
    else (false, move).

(** src/tools/avoidfootcollision.cpp:279-314: the returned flag and the new move. *)
Definition clipFootWithEllipse (maxX maxY : T) (move : Pose2D T) : bool * Pose2D T :=
  let a := s_abs maxX in
  let b := s_abs maxY in
  let a2 := s_pow2 a in
  let b2 := s_pow2 b in
  let norm := pose_x move * pose_x move / a2 + pose_y move * pose_y move / b2 in
  if norm <? ##100001//100000 then (false, move)
  else
    let theta := s_atan2 (pose_y move) (pose_x move) in
    let c := s_cos theta in
    let s := s_sin theta in
    let t := (a * b) / s_sqrt (b2 * c * c + a2 * s * s) in
    (true, mkPose2D (t * c) (t * s) (pose_theta move)).

(** ** Dubins curves *)

(** src/tools/aldubinscurve.cpp:20-32 *)
Record dubinsTangent := mkTangent { dt_x : T; dt_y : T; dt_left : bool }.

(** src/tools/aldubinscurve.cpp:115-172; [left1], [left2] are the flags set by the caller
    (lines 197-198, 210-211, 223-224, 236-237). The size check of [pTangent] cannot fail: the
    caller always passes two tangents. *)
Definition computeTangent (c1 c2 : P2) (sens : Z) (radius : T) (llorrr left1 left2 : bool)
  : dubinsTangent * dubinsTangent :=
  let dist := s_sqrt ((p2_x c1 - p2_x c2) * (p2_x c1 - p2_x c2) + (p2_y c1 - p2_y c2) * (p2_y c1 - p2_y c2)) in
  let rd := radius / dist in
  let cth := if llorrr then #0 else radius * #2 / dist in
  let sth := if llorrr then #1 else s_sqrt (#1 - cth * cth) in
  let sx := cth * (p2_x c2 - p2_x c1) + #sens * sth * (p2_y c2 - p2_y c1) in
  let sy := #(- sens) * sth * (p2_x c2 - p2_x c1) + cth * (p2_y c2 - p2_y c1) in
  (mkTangent (p2_x c1 + rd * sx) (p2_y c1 + rd * sy) left1,
   if llorrr then mkTangent (p2_x c2 + rd * sx) (p2_y c2 + rd * sy) left2
   else mkTangent (p2_x c2 - rd * sx) (p2_y c2 - rd * sy) left2).

(** src/tools/aldubinscurve.cpp:242-275: the four circle centres. *)
Definition dubinsCircles (pose : Pose2D T) (radius : T) : P2 * P2 * P2 * P2 :=
  (mkPosition2D #0 radius, mkPosition2D #0 (- radius),
   mkPosition2D (pose_x pose - s_sin (pose_theta pose) * radius) (pose_y pose + s_cos (pose_theta pose) * radius),
   mkPosition2D (pose_x pose + s_sin (pose_theta pose) * radius) (pose_y pose - s_cos (pose_theta pose) * radius)).

(** src/tools/aldubinscurve.cpp:175-239 *)
Definition dubinsTangents (pose : Pose2D T) (radius : T) : list (dubinsTangent * dubinsTangent) :=
  let '(c0, c1, c2, c3) := dubinsCircles pose radius in
  [computeTangent c0 c2 1 radius true true true;
   computeTangent c0 c3 1 radius false true false;
   computeTangent c1 c2 (-1) radius false false true;
   computeTangent c1 c3 (-1) radius true false false].

(** float.h: FLT_MAX = 2^128 - 2^104 *)
Definition flt_max : T := #(340282346638528859811704183484516925440).

(** src/tools/aldubinscurve.cpp:78-113: the loop over the tangents, from the shortest one so
    far and its squared length. *)
Fixpoint bestTangent (l : list (dubinsTangent * dubinsTangent)) (shortest : T) (best : dubinsTangent * dubinsTangent)
  : dubinsTangent * dubinsTangent :=
  match l with
  | [] => best
  | (t1, t2) :: l' =>
      let len := (dt_x t1 - dt_x t2) * (dt_x t1 - dt_x t2) + (dt_y t1 - dt_y t2) * (dt_y t1 - dt_y t2) in
      if len <? shortest then bestTangent l' len (t1, t2) else bestTangent l' shortest best
  end.

(** src/tools/aldubinscurve.cpp:278-360; the default tangent is that of lines 22-29. *)
Definition getDubinsSolutions (target : Pose2D T) (radius : T) : res (list (Pose2D T)) :=
  let dist := s_sqrt (pose_x target * pose_x target + pose_y target * pose_y target) in
  if dist <? #4 * radius then Throw
  else
    let d := mkTangent #0 #0 false in
    let '(t1, t2) := bestTangent (dubinsTangents target radius) flt_max (d, d) in
    let angle1 := s_atan2 (dt_y t2 - dt_y t1) (dt_x t2 - dt_x t1) in
    let th0 := if dt_left t1 && (angle1 <? #0) then #2 * s_pi + angle1 else angle1 in
    let th0 := if negb (dt_left t1) && (angle1 >? #0) then #2 * s_pi + angle1 else th0 in
    let angle2 := pose_theta target - angle1 in
    let th1 := if dt_left t2 && (angle2 <? #0) then #2 * s_pi - angle2 + pose_theta target else angle1 in
    let th1 := if negb (dt_left t2) && (angle2 >? #0) then #2 * s_pi - angle2 + pose_theta target else th1 in
    Ok [mkPose2D (dt_x t1) (dt_y t1) th0; mkPose2D (dt_x t2) (dt_y t2) th1; target].

(** ** Pills *)

(** src/geometrics/shapes3d_utils.cpp:14-20: the two centres A, B. *)
Definition getSphereCentersFromPill (half : T) (tf : Transform T) : Position3D T * Position3D T :=
  (t_mul_p3 tf (mkPosition3D #0 #0 half), t_mul_p3 tf (mkPosition3D #0 #0 (- half))).

(** src/geometrics/shapes3d_utils.cpp:22-32: half extent and frame. [pEndTfToPillCenter] is
    assigned before orthogonalSpace, which may throw. *)
Definition computePillParameters (a b : Position3D T) : res (T * Transform T) :=
  let half := ##1//2 * p3_distance a b in
  let halfDelta := p3_scale (p3_sub b a) (##1//2) in
  let center := p3_add a halfDelta in
  let tf := transformFromPosition3D center in
  rbind (orthogonalSpaceInto halfDelta tf) (fun tf' => Ok (half, tf')).

End Model.
Arguments dubinsTangent : clear implicits.
