(** * Specification vocabulary for the masses of a robot *)

From Coq Require Import String List Reals.
Import ListNotations.
From Verif Require Import Scalar RInst Model_Base Model_Vec Model_Rigid Model_Pose Model_Urdf
  Spec_Geom Spec_Pose Spec_Urdf Spec_Reroot.
From Verif Require Model_Squash.
Local Open Scope R_scope.

(** ** One body

    An "inertial" element says: there is a body of mass [i_mass i], whose centre of mass is
    the origin of the frame [i_origin i] and whose tensor of inertia, about this point and
    along the axes of this frame, has the given coefficients.  [G] is the position in space
    of the frame of inertia. *)

(** The quadratic form of the tensor. *)
Definition quad (i : Inertial R) (w : vec3) : R :=
  i_ixx i * vx w * vx w + i_iyy i * vy w * vy w + i_izz i * vz w * vz w +
  2 * (i_ixy i * vx w * vy w + i_ixz i * vx w * vz w + i_iyz i * vy w * vz w).

(** The components of a direction of space along the axes of a frame. *)
Definition along (G : vec3 -> vec3) (u : vec3) : vec3 :=
  (vdot u (vsub (G (1,0,0)) (G (0,0,0))), vdot u (vsub (G (0,1,0)) (G (0,0,0))),
   vdot u (vsub (G (0,0,1)) (G (0,0,0)))).

Definition norm2 (v : vec3) : R := vdot v v.

(** The first moment, and the moment of inertia about the axis through [o] directed by the
    unit vector [u] (parallel axis theorem). *)
Definition first_moment (G : vec3 -> vec3) (i : Inertial R) : vec3 := vscale (i_mass i) (G (0,0,0)).
Definition axial_moment (G : vec3 -> vec3) (i : Inertial R) (o u : vec3) : R :=
  quad i (along G u) + i_mass i * norm2 (vcross u (vsub (G (0,0,0)) o)).

(** ** The robot

    [place n] is the position in space of the frame of link [n], [frame_of place n i] that
    of the frame of inertia of this link. *)
Definition frame_of (place : string -> vec3 -> vec3) (n : string) (i : Inertial R) (v : vec3) : vec3 :=
  place n (pose_motion (pose_from (i_origin i)) v).

Definition total (f : string -> Inertial R -> R) (d : list (elem R)) : R :=
  fold_right (fun l s => match l_inertial l with Some i => f (l_name l) i | None => 0 end + s) 0 (links d).

Definition total_mass (d : list (elem R)) : R := total (fun _ i => i_mass i) d.
(** The total mass times the centre of mass of the robot. *)
Definition total_first (place : string -> vec3 -> vec3) (d : list (elem R)) : vec3 :=
  (total (fun n i => vx (first_moment (frame_of place n i) i)) d,
   total (fun n i => vy (first_moment (frame_of place n i) i)) d,
   total (fun n i => vz (first_moment (frame_of place n i) i)) d).
(** The moment of inertia of the robot about an axis. *)
Definition total_axial (place : string -> vec3 -> vec3) (d : list (elem R)) (o u : vec3) : R :=
  total (fun n i => axial_moment (frame_of place n i) i o u) d.

(** Positions of the links by which a fixed joint is respected; those the fixed joints of a
    robot allow, whatever the other joints do. *)
Definition holds (place : string -> vec3 -> vec3) (j : Joint R) : Prop :=
  rigid_motion (place (j_parent j)) /\
  forall v, place (j_child j) v = place (j_parent j) (pose_motion (pose_from (j_origin j)) v).
Definition allowed (d : list (elem R)) (place : string -> vec3 -> vec3) : Prop :=
  forall j, In j (joints d) -> type_of (j_type j) = Some fixed -> holds place j.

(** The inertial of the link of a given name. *)
Definition inertial_at (d : list (elem R)) (n : string) : option (Inertial R) :=
  match find (fun l => l_name l =? n)%string (links d) with Some l => l_inertial l | None => None end.

(** An element without its inertial: all the rest of the document. *)
Definition bare (e : elem R) : elem R :=
  match e with
  | ELink l => ELink (mkLink (l_name l) None (l_visuals l) (l_collisions l))
  | _ => e
  end.

(** ** Two bodies linked by a joint

    [pi] is the inertial of the parent link and [ci] that of the child.

    The inertial of the child can be moved to a parent without one, unless its new origin
    has a zero position or orientation where the old one had not. *)
Definition movable (j : Joint R) (ci : Inertial R) : Prop :=
  let o := pose_from (j_origin j) in
  let i := pose_from (i_origin ci) in
  (pose_motion o (p_xyz i) = (0,0,0) -> p_xyz i = (0,0,0)) /\
  ((forall v, mapply (rpy_mat (p_rpy o)) (mapply (rpy_mat (p_rpy i)) v) = v) ->
   forall v, mapply (rpy_mat (p_rpy i)) v = v).

Definition mergeable (j : Joint R) (pi : option (Inertial R)) (ci : Inertial R) : Prop :=
  match pi with None => movable j ci | Some p => i_mass p + i_mass ci <> 0 end.

(** The orientation of the axes of inertia of the child, along those of the parent. *)
Definition orientation (j : Joint R) (p ci : Inertial R) : mat3 :=
  mmul (mtrans (rpy_mat (p_rpy (pose_from (i_origin p)))))
       (mmul (rpy_mat (p_rpy (pose_from (j_origin j)))) (rpy_mat (p_rpy (pose_from (i_origin ci))))).

(** Turned by this rotation or by the inverse one, the inertia of the child is the same. *)
Definition turns_alike (j : Joint R) (pi : option (Inertial R)) (ci : Inertial R) : Prop :=
  forall p, pi = Some p -> forall w,
    quad ci (mapply (orientation j p ci) w) = quad ci (mapply (mtrans (orientation j p ci)) w).

(** ** Robots

    Every link to which a fixed joint attaches another one has a body, and all bodies have
    a mass. *)
Definition heavy (d : list (elem R)) : Prop :=
  (forall j, In j (joints d) -> type_of (j_type j) = Some fixed -> inertial_at d (j_parent j) <> None) /\
  forall n i, inertial_at d n = Some i -> 0 < i_mass i.

(** No fixed joint and no frame of inertia is turned. *)
Definition unturned (d : list (elem R)) : Prop :=
  (forall j, In j (joints d) -> type_of (j_type j) = Some fixed -> p_rpy (pose_from (j_origin j)) = (0,0,0)) /\
  forall n i, inertial_at d n = Some i -> p_rpy (pose_from (i_origin i)) = (0,0,0).

(** The joints that can be reached from the root link. *)
Definition attached (d : list (elem R)) (root : string) (j : Joint R) : Prop :=
  exists p, path d root (p ++ [j]) (j_child j).

(** The document in which the joints of [names] are fixed (and have no axis). *)
Definition retype (names : list string) (d : list (elem R)) : list (elem R) :=
  map (fun e => match e with
                | EJoint j => if mem (j_name j) names
                              then EJoint (mkJoint (j_name j) "fixed" (j_parent j) (j_child j)
                                                   (j_origin j) None (j_mimic j))
                              else e
                | _ => e
                end) d.

(** The quadratic form of a matrix of inertia. *)
Definition mquad (m : Model_Squash.Mat3 R) (w : vec3) : R :=
  vdot w (vadd (vscale (vx w) (Model_Squash.x00 m, Model_Squash.x10 m, Model_Squash.x20 m))
         (vadd (vscale (vy w) (Model_Squash.x01 m, Model_Squash.x11 m, Model_Squash.x21 m))
               (vscale (vz w) (Model_Squash.x02 m, Model_Squash.x12 m, Model_Squash.x22 m)))).
