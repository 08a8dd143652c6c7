(** * Specification vocabulary for URDF poses *)

From Coq Require Import Reals List.
From Verif Require Import Spec_Geom Model_Pose.
Local Open Scope R_scope.

(** The rotation of roll-pitch-yaw angles: roll about x first, then pitch about y, then
    yaw about z, about fixed axes. *)
Definition rpy_mat (rpy : vec3) : mat3 :=
  mmul (RZ (vz rpy)) (mmul (RY (vy rpy)) (RX (vx rpy))).

(** The displacement a pose stands for. *)
Definition pose_motion (p : Pose R) (v : vec3) : vec3 :=
  vadd (mapply (rpy_mat (p_rpy p)) v) (p_xyz p).

(** Two poses stand for the same displacement. *)
Definition same_motion (p q : Pose R) : Prop := forall v, pose_motion p v = pose_motion q v.
