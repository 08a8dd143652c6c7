(** * Building a rigid body system from a URDF robot

    Source: /repo/src/scenegraph/urdfrigidbodysystemtraverser.cpp.  The builder is given by
    its virtual functions, as in Model_Builder: [f c b] is the outcome (whether the call
    returned) and the new state of the builder.  Simplifications: reading the XML stream
    (lines 111-118) is not modelled, and when an exception is thrown the state the builder
    is left in is not part of the result. *)

From Coq Require Import String List Bool ZArith.
Import ListNotations.
From Verif Require Import Scalar Model_Rigid Model_Average Model_Pose Model_Urdf Model_Squash.
From Verif Require Model_Builder.
Import Model_Builder (JointType (..), Config (..), BodyMass (..)).

Set Implicit Arguments.

Section UrdfBuild.
Context {T : Type} {S : Scalar T}.

(** The calls of a builder, almath/scenegraph/rigidbodysystembuilder.h:95-97, for
    Interface<double>. *)
Definition call : Type := Model_Builder.call T (Array3d T) (Mat3 T) (Transform T).
Definition blink : Type := Model_Builder.Link T (Array3d T) (Mat3 T) (Transform T).
Definition body : Type := BodyMass T (Array3d T) (Mat3 T).

(** src/scenegraph/urdfrigidbodysystemtraverser.cpp:17-19 *)
Definition unit_x : Array3d T := (s_ofZ 1, s_ofZ 0, s_ofZ 0).
Definition unit_y : Array3d T := (s_ofZ 0, s_ofZ 1, s_ofZ 0).
Definition unit_z : Array3d T := (s_ofZ 0, s_ofZ 0, s_ofZ 1).

(** src/scenegraph/urdfrigidbodysystemtraverser.cpp:57-89: [None] for a fixed joint. *)
Definition joint_kind (j : Joint T) : res (option JointType) :=
  match type_of (j_type j) with
  | None => Throw
  | Some fixed => Ok None
  | Some prismatic => Throw
  | Some planar => Throw
  | Some revolute | Some continuous =>
      let axis := joint_axis j in
      if a_eqb axis unit_x then Ok (Some Rx)
      else if a_eqb axis unit_y then Ok (Some Ry)
      else if a_eqb axis unit_z then Ok (Some Rz)
      else Throw
  | Some floating => Ok (Some FreeFlyer)
  end.

Section Traverser.
Variable B : Type.
Variable cfg : Config.
Variable f : call -> B -> bool * B.

(** The calls are made one after the other, until one of them throws. *)
Fixpoint feed (cs : list call) (b : B) : res B :=
  match cs with
  | [] => Ok b
  | c :: cs' => let (r, b') := f c b in if r then feed cs' b' else Throw
  end.

(** src/scenegraph/urdfrigidbodysystemtraverser.cpp:40-55, [_discover]; [link] is the
    element that [RobotTree::link] returned.  The result says whether the link has a body. *)
Definition discover_link (parent name : string) (origin : Transform T) (ty : JointType)
  (link : Link T) (joint_name : option string) (b : B) : res (B * bool) :=
  match l_inertial link with
  | None => Ok (b, false)
  | Some i =>
      let '(m, com, inertia) := urdfInertialToEigen i in
      let mass : body := mkBodyMass m com inertia in
      let! b := feed (match joint_name with
                      | Some n => Model_Builder.add_link6 parent name origin ty mass n
                      | None => Model_Builder.add_link5 cfg parent name origin ty mass
                      end) b in
      Ok (b, true)
  end.

(** src/scenegraph/urdfrigidbodysystemtraverser.cpp:57-95, [discover]; [d] is the document
    of the parser. *)
Definition discover_joint (d : list (elem T)) (b : B) (j : Joint T) : res (B * bool) :=
  let! k := joint_kind j in
  let origin := toEigenTransform (pose_from (j_origin j)) in
  match k with
  | None =>
      let! b := feed (Model_Builder.add_frame4 cfg (j_parent j) (j_child j) origin (j_name j)) b in
      Ok (b, true)
  | Some ty =>
      match find_link d (j_child j) with
      | None => Throw
      | Some l =>
          let! r := discover_link (j_parent j) (j_child j) origin ty l (Some (j_name j)) b in
          Ok (fst r, true)
      end
  end.

(** src/scenegraph/urdfrigidbodysystemtraverser.cpp:98-103: the parser, and its edits. *)
Definition prepare (remove_root_joint make_continuous_joints_fixed : bool) (d : list (elem T)) : res (tree T) :=
  let! t := ctor d in
  let! t := if remove_root_joint then rm_root_joint t else Ok t in
  let! t := if make_continuous_joints_fixed then rmap fst (makeContinuousJointsFixed t) else Ok t in
  rmap fst (makeMasslessJointsFixed t).

(** Eigen's [Pose::Identity()]. *)
Definition identity_pose : Transform T :=
  mkTransform (s_ofZ 1) (s_ofZ 0) (s_ofZ 0) (s_ofZ 0)
              (s_ofZ 0) (s_ofZ 1) (s_ofZ 0) (s_ofZ 0)
              (s_ofZ 0) (s_ofZ 0) (s_ofZ 1) (s_ofZ 0).

(** src/scenegraph/urdfrigidbodysystemtraverser.cpp:104-108. *)
Definition emit (t : tree T) (b : B) : res B :=
  match find_link (t_doc t) (t_root t) with
  | None => Throw
  | Some l =>
      let! r := discover_link EmptyString (t_root t) identity_pose FreeFlyer l None b in
      traverse_joints t (fun _ => t_doc t) (discover_joint (t_doc t)) (fun b _ => Ok b) (fst r)
  end.

(** src/scenegraph/urdfrigidbodysystemtraverser.cpp:97-109, [buildRigidBodySystemFromUrdf]:
    the robot as edited and the state of the builder. *)
Definition buildRigidBodySystemFromUrdf (d : list (elem T)) (remove_root_joint make_continuous_joints_fixed : bool) (b : B)
  : res (tree T * B) :=
  let! t := prepare remove_root_joint make_continuous_joints_fixed d in
  let! b := emit t b in
  Ok (t, b).

End Traverser.
End UrdfBuild.
Arguments call T : clear implicits.
Arguments blink T : clear implicits.
Arguments body T : clear implicits.
