(** * Masses of a URDF robot

    Sources: /repo/almath/scenegraph/urdfeigen.h and /repo/src/scenegraph/urdf.cpp.
    Eigen's fixed size matrices are records of their coefficients, its transforms are
    [Transform]s (linear part and translation).  [T] stands for double. *)

From Coq Require Import String List Bool ZArith.
Import ListNotations.
From Verif Require Import Scalar Model_Base Model_Vec Model_Rigid Model_Average Model_Pose Model_Urdf.

Set Implicit Arguments.

Section Squash.
Context {T : Type} {S : Scalar T}.
Local Open Scope sc_scope.

(** Eigen::Matrix3d. *)
Record Mat3 := mkMat3 {
  x00 : T; x01 : T; x02 : T; x10 : T; x11 : T; x12 : T; x20 : T; x21 : T; x22 : T
}.
(** Eigen's product, sum and transpose of 3x3 matrices. *)
Definition m3_mul (a b : Mat3) : Mat3 :=
  mkMat3 (x00 a * x00 b + x01 a * x10 b + x02 a * x20 b)
         (x00 a * x01 b + x01 a * x11 b + x02 a * x21 b)
         (x00 a * x02 b + x01 a * x12 b + x02 a * x22 b)
         (x10 a * x00 b + x11 a * x10 b + x12 a * x20 b)
         (x10 a * x01 b + x11 a * x11 b + x12 a * x21 b)
         (x10 a * x02 b + x11 a * x12 b + x12 a * x22 b)
         (x20 a * x00 b + x21 a * x10 b + x22 a * x20 b)
         (x20 a * x01 b + x21 a * x11 b + x22 a * x21 b)
         (x20 a * x02 b + x21 a * x12 b + x22 a * x22 b).
Definition m3_add (a b : Mat3) : Mat3 :=
  mkMat3 (x00 a + x00 b) (x01 a + x01 b) (x02 a + x02 b)
         (x10 a + x10 b) (x11 a + x11 b) (x12 a + x12 b)
         (x20 a + x20 b) (x21 a + x21 b) (x22 a + x22 b).
Definition m3_trans (a : Mat3) : Mat3 :=
  mkMat3 (x00 a) (x10 a) (x20 a) (x01 a) (x11 a) (x21 a) (x02 a) (x12 a) (x22 a).
Definition m3_vec (a : Mat3) (v : Array3d T) : Array3d T :=
  (x00 a * a0 v + x01 a * a1 v + x02 a * a2 v,
   x10 a * a0 v + x11 a * a1 v + x12 a * a2 v,
   x20 a * a0 v + x21 a * a1 v + x22 a * a2 v).

(** Eigen's Transform::linear and Transform::translation. *)
Definition linear (t : Transform T) : Mat3 :=
  mkMat3 (t_r1c1 t) (t_r1c2 t) (t_r1c3 t) (t_r2c1 t) (t_r2c2 t) (t_r2c3 t)
         (t_r3c1 t) (t_r3c2 t) (t_r3c3 t).
Definition translation (t : Transform T) : Array3d T := (t_r1c4 t, t_r2c4 t, t_r3c4 t).
Definition of_parts (m : Mat3) (v : Array3d T) : Transform T :=
  mkTransform (x00 m) (x01 m) (x02 m) (a0 v) (x10 m) (x11 m) (x12 m) (a1 v)
              (x20 m) (x21 m) (x22 m) (a2 v).

(** almath/scenegraph/urdfeigen.h:34-43, [toEigenMatrix3]. *)
Definition toEigenMatrix3 (i : Inertial T) : Mat3 :=
  mkMat3 (i_ixx i) (i_ixy i) (i_ixz i) (i_ixy i) (i_iyy i) (i_iyz i) (i_ixz i) (i_iyz i) (i_izz i).

(** almath/scenegraph/urdfeigen.h:46-73, [addPointMassInertia]. *)
Definition addPointMassInertia (mass : T) (p : Array3d T) (m : Mat3) : Mat3 :=
  let s0 := a0 p * a0 p in
  let s1 := a1 p * a1 p in
  let s2 := a2 p * a2 p in
  mkMat3 (x00 m + mass * (s1 + s2)) (x01 m + - mass * a0 p * a1 p) (x02 m + - mass * a0 p * a2 p)
         (x10 m + - mass * a0 p * a1 p) (x11 m + mass * (s0 + s2)) (x12 m + - mass * a1 p * a2 p)
         (x20 m + - mass * a0 p * a2 p) (x21 m + - mass * a1 p * a2 p) (x22 m + mass * (s0 + s1)).

Definition a_sub (u v : Array3d T) : Array3d T := (a0 u - a0 v, a1 u - a1 v, a2 u - a2 v).

(** almath/scenegraph/urdfeigen.h:75-115, [squashInertial]: the mass, the pose and the
    inertia of the compound body. *)
Definition squashInertial (mass_a : T) (pose_a : Transform T) (inertia_a : Mat3)
  (mass_b : T) (pose_b : Transform T) (inertia_b : Mat3) : T * Transform T * Mat3 :=
  let mass_c := mass_a + mass_b in
  let ta := translation pose_a in
  let tb := translation pose_b in
  let tc := ((mass_a * a0 ta + mass_b * a0 tb) / mass_c,
             (mass_a * a1 ta + mass_b * a1 tb) / mass_c,
             (mass_a * a2 ta + mass_b * a2 tb) / mass_c) in
  let pose_c := of_parts (linear pose_a) tc in
  let lt := m3_trans (linear pose_c) in
  let i1 := addPointMassInertia mass_a (m3_vec lt (a_sub tc ta)) inertia_a in
  let rot_cb := m3_mul lt (linear pose_b) in
  let i2 := m3_add i1 (m3_mul (m3_mul (m3_trans rot_cb) inertia_b) rot_cb) in
  (mass_c, pose_c, addPointMassInertia mass_b (m3_vec lt (a_sub tc tb)) i2).

(** src/scenegraph/urdf.cpp:860-871: the "origin" element written over the one in place (of
    which the attributes that are not written are kept). *)
Definition is_identity (m : Mat3) : bool :=
  (x00 m =? #1) && (x01 m =? #0) && (x02 m =? #0) &&
  (x10 m =? #0) && (x11 m =? #1) && (x12 m =? #0) &&
  (x20 m =? #0) && (x21 m =? #0) && (x22 m =? #1).
Definition put_origin (old : option (Pose T)) (p : Transform T) : option (Pose T) :=
  let o := if is_zero (translation p) then old
           else Some (mkPose (translation p) (p_rpy (pose_from old))) in
  if is_identity (linear p) then o
  else Some (mkPose (p_xyz (pose_from o)) (rpy_of_matrix p)).

(** Apply a function to the element of a link. *)
Definition upd_link (d : list (elem T)) (n : string) (f : Link T -> Link T) : list (elem T) :=
  map (fun e => match e with
                | ELink l => if (l_name l =? n)%string then ELink (f l) else e
                | _ => e
                end) d.
Definition set_inertial (i : option (Inertial T)) (l : Link T) : Link T :=
  mkLink (l_name l) i (l_visuals l) (l_collisions l).

(** src/scenegraph/urdf.cpp:816-871: the new "inertial" element of the parent link. *)
Definition squashed (j : Joint T) (pi : option (Inertial T)) (ci : Inertial T) : Inertial T :=
  let child_pose := t_mul (toEigenTransform (pose_from (j_origin j)))
                          (toEigenTransform (pose_from (i_origin ci))) in
  match pi with
  | None =>
      mkInertial (put_origin (i_origin ci) child_pose)
        (i_mass ci) (i_ixx ci) (i_ixy ci) (i_ixz ci) (i_iyy ci) (i_iyz ci) (i_izz ci)
  | Some p =>
      let '(m, pose, i) :=
        squashInertial (i_mass p) (toEigenTransform (pose_from (i_origin p))) (toEigenMatrix3 p)
          (i_mass ci) child_pose (toEigenMatrix3 ci) in
      mkInertial (put_origin None pose) m (x00 i) (x01 i) (x02 i) (x11 i) (x12 i) (x22 i)
  end.

(** src/scenegraph/urdf.cpp:816-876, [squashJointMass], of a joint and of a name. *)
Definition squash_joint (d : list (elem T)) (j : Joint T) : res (list (elem T)) :=
  match find_link d (j_child j) with
  | None => Throw
  | Some c =>
      match l_inertial c with
      | None => Ok d
      | Some ci =>
          match find_link d (j_parent j) with
          | None => Throw
          | Some p =>
              Ok (upd_link (upd_link d (j_parent j) (set_inertial (Some (squashed j (l_inertial p) ci))))
                           (j_child j) (set_inertial None))
          end
      end
  end.
Definition squashJointMass (t : tree T) (n : string) : res (tree T) :=
  match find_joint (t_doc t) n with
  | None => Throw
  | Some j => let! d := squash_joint (t_doc t) j in Ok (mkTree d (t_ix t) (t_root t))
  end.

(** src/scenegraph/urdf.cpp:882-898, [squashFixedJointsMass]. *)
Definition sf_finish (d : list (elem T)) (j : Joint T) : res (list (elem T)) :=
  match type_of (j_type j) with
  | None => Throw
  | Some fixed => squash_joint d j
  | Some _ => Ok d
  end.
Definition squashFixedJointsMass (t : tree T) : res (tree T) :=
  let! d := traverse_joints t (fun d => d) (fun d _ => Ok (d, true)) sf_finish (t_doc t) in
  Ok (mkTree d (t_ix t) (t_root t)).

(** src/scenegraph/urdf.cpp:900-925, [makeMasslessJointsFixed]. *)
Definition mm_finish (v : list (elem T) * list string) (j : Joint T)
  : res (list (elem T) * list string) :=
  match type_of (j_type j) with
  | None => Throw
  | Some fixed => let! d := squash_joint (fst v) j in Ok (d, snd v)
  | Some _ =>
      match find_link (fst v) (j_child j) with
      | None => Throw
      | Some c =>
          match l_inertial c with
          | Some _ => Ok v
          | None => Ok (upd_joint (fst v) (j_name j) (fun k => set_type k "fixed"), snd v ++ [j_name j])
          end
      end
  end.
Definition makeMasslessJointsFixed (t : tree T) : res (tree T * list string) :=
  let! v := traverse_joints t fst (fun v _ => Ok (v, true)) mm_finish (t_doc t, []) in
  Ok (mkTree (fst v) (t_ix t) (t_root t), snd v).

(** almath/scenegraph/urdfeigen.h:117-139, [urdfInertialToEigen]: mass, centre of mass and
    inertia. *)
Definition urdfInertialToEigen (i : Inertial T) : T * Array3d T * Mat3 :=
  let t_ab := toEigenTransform (pose_from (i_origin i)) in
  (i_mass i, translation t_ab,
   m3_mul (m3_mul (m3_trans (linear t_ab)) (toEigenMatrix3 i)) (linear t_ab)).

End Squash.
Arguments Mat3 T : clear implicits.
