(** * Specification of the mechanism a URDF document describes

    Where the bodies of the robot are, for every position of its joints. *)

From Coq Require Import String List Reals.
Import ListNotations.
From Verif Require Import Scalar RInst Spec_Geom Model_Pose Spec_Pose Model_Urdf Spec_Urdf.
Local Open Scope R_scope.

(** The position of the joints: an angle or a length for the joints with an axis, any
    displacement for the others (floating, planar). *)
Record config := mkConfig { q_scalar : string -> R; q_free : string -> vec3 -> vec3 }.

(** The rotation of angle [a] around the unit vector [n]. *)
Definition rotate (n : vec3) (a : R) (v : vec3) : vec3 :=
  vadd (vadd (vscale (cos a) v) (vscale (sin a) (vcross n v)))
       (vscale ((1 - cos a) * vdot n v) n).

(** The axis of a joint, of length one; x by default. *)
Definition axis_of (j : Joint R) : vec3 := match j_axis j with Some a => a | None => (1, 0, 0) end.
Definition direction (j : Joint R) : vec3 := vscale (/ vnorm (axis_of j)) (axis_of j).

(** The displacement of a joint from its zero position; a joint with the axis (0,0,0) does
    not move. *)
Definition joint_motion (q : config) (j : Joint R) (v : vec3) : vec3 :=
  match type_of (j_type j) with
  | Some fixed => v
  | Some revolute | Some continuous =>
      if Req_EM_T (vdot (axis_of j) (axis_of j)) 0 then v
      else rotate (direction j) (q_scalar q (j_name j)) v
  | Some prismatic =>
      if Req_EM_T (vdot (axis_of j) (axis_of j)) 0 then v
      else vadd v (vscale (q_scalar q (j_name j)) (direction j))
  | _ => q_free q (j_name j) v
  end.

(** Where the frame of the last link of a path is, in the frame of its first link: every
    joint is placed by its origin, then moves. *)
Fixpoint placement (q : config) (p : list (Joint R)) (v : vec3) : vec3 :=
  match p with
  | [] => v
  | j :: r => pose_motion (pose_from (j_origin j)) (joint_motion q j (placement q r v))
  end.

(** The displacements of a rigid body. *)
Definition rigid_motion (G : vec3 -> vec3) : Prop :=
  exists t : Model_Rigid.Transform R, rigid t /\ forall v, G v = motion t v.

(** An origin in the frame of a link reached by the path [p], and one in the frame of a
    link reached by [p'], are at the same place after the change of frame [G] of the whole
    space. *)
Definition same_place (q : config) (G : vec3 -> vec3) (p p' : list (Joint R))
  (o o' : option (Pose R)) : Prop :=
  forall v, placement q p' (pose_motion (pose_from o') v) =
            G (placement q p (pose_motion (pose_from o) v)).

Definition same_shapes q G p p' (s s' : list (Shape R)) : Prop :=
  Forall2 (fun x x' => sh_geometry x = sh_geometry x' /\ same_place q G p p' (sh_origin x) (sh_origin x')) s s'.

Definition same_inertials q G p p' (i i' : option (Inertial R)) : Prop :=
  match i, i' with
  | None, None => True
  | Some a, Some b =>
      (i_mass a, i_ixx a, i_ixy a, i_ixz a, i_iyy a, i_iyz a, i_izz a) =
      (i_mass b, i_ixx b, i_ixy b, i_ixz b, i_iyy b, i_iyz b, i_izz b) /\
      same_place q G p p' (i_origin a) (i_origin b)
  | _, _ => False
  end.

(** The two links have the same bodies, at the same places. *)
Definition same_body q G p p' (l l' : Link R) : Prop :=
  l_name l = l_name l' /\ same_inertials q G p p' (l_inertial l) (l_inertial l') /\
  same_shapes q G p p' (l_visuals l) (l_visuals l') /\
  same_shapes q G p p' (l_collisions l) (l_collisions l').

(** The two documents describe the same mechanism seen from two links: element by element,
    the joints connect the same links, in one direction or the other, and move in the same
    way; and in every position of the joints there is a change of frame that brings each
    body of the first document to the corresponding body of the second. *)
Definition same_joint (j j' : Joint R) : Prop :=
  j_name j = j_name j' /\ j_type j = j_type j' /\ j_mimic j = j_mimic j' /\
  ((j_parent j = j_parent j' /\ j_child j = j_child j') \/
   (j_parent j = j_child j' /\ j_child j = j_parent j')).

Definition same_element (e e' : elem R) : Prop :=
  match e, e' with
  | EJoint j, EJoint j' => same_joint j j'
  | ELink l, ELink l' => l_name l = l_name l'
  | EOther s, EOther s' => s = s'
  | _, _ => False
  end.

Definition same_mechanism (d : list (elem R)) (root : string) (d' : list (elem R)) (root' : string) : Prop :=
  Forall2 same_element d d' /\
  forall q, exists G, rigid_motion G /\
    Forall2 (fun e e' =>
      match e, e' with
      | ELink l, ELink l' =>
          forall p, path d root p (l_name l) ->
          exists p', path d' root' p' (l_name l') /\ same_body q G p p' l l'
      | _, _ => True
      end) d d'.

(** Angles in their usual ranges. *)
Definition usual_angles (p : Pose R) : Prop :=
  - PI < vx (p_rpy p) <= PI /\ - PI / 2 < vy (p_rpy p) < PI / 2 /\ - PI < vz (p_rpy p) <= PI.

(** The origins that appear in a document. *)
Definition origins_of (e : elem R) : list (option (Pose R)) :=
  match e with
  | EJoint j => [j_origin j]
  | ELink l => match l_inertial l with Some i => [i_origin i] | None => [] end ++
               map (@sh_origin R) (l_visuals l) ++ map (@sh_origin R) (l_collisions l)
  | EOther _ => []
  end.
Definition usual_origins (d : list (elem R)) : Prop :=
  forall e o, In e d -> In o (origins_of e) -> usual_angles (pose_from o).

(** [O] is the pose of an origin attached to the link [x]: that of a joint below it, or of
    its inertia or of one of its geometries. *)
Definition attached (d : list (elem R)) (x : string) (O : Pose R) : Prop :=
  (exists k, In k (joints d) /\ j_parent k = x /\ O = pose_from (j_origin k)) \/
  (exists l o, In l (links d) /\ l_name l = x /\ In o (origins_of (ELink l)) /\ O = pose_from o).

(** [P] and [O] are two ways to write the same pose; if it is a mere translation, [P] has
    null angles. *)
Definition rewritten (P O : Pose R) : Prop :=
  same_motion P O /\ P <> O /\ ((forall v, pose_motion O v = vadd v (p_xyz O)) -> p_rpy P = (0,0,0)).
