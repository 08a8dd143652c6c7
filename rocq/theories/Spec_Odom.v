(** * Planar poses of floats, and the poses they stand for *)

From Coq Require Import Reals List Bool.
Import ListNotations.
From Flocq Require Import Core.Core IEEE754.BinarySingleNaN.
From Verif Require Import Scalar Model_Base Model_Vec F32 Spec_Round.
Local Open Scope R_scope.

(** The pose of real numbers a pose of floats stands for. *)
Definition qval (p : Pose2D f32) : Pose2D R := mkPose2D (val (pose_x p)) (val (pose_y p)) (val (pose_theta p)).

(** No infinity and no NaN. *)
Definition finite_q (p : Pose2D f32) : Prop :=
  is_finite (pose_x p) = true /\ is_finite (pose_y p) = true /\ is_finite (pose_theta p) = true.

(** None of the three numbers is larger than [M]. *)
Definition within_q (M : R) (p : Pose2D R) : Prop :=
  Rabs (pose_x p) <= M /\ Rabs (pose_y p) <= M /\ Rabs (pose_theta p) <= M.

(** Where one is after the move [m], relative to one's own frame, from the pose [p]. *)
Definition after (p m : Pose2D R) : Pose2D R :=
  mkPose2D (pose_x p + (cos (pose_theta p) * pose_x m - sin (pose_theta p) * pose_y m))
           (pose_y p + (sin (pose_theta p) * pose_x m + cos (pose_theta p) * pose_y m))
           (pose_theta p + pose_theta m).

(** How one returns from the pose [p]. *)
Definition back (p : Pose2D R) : Pose2D R :=
  mkPose2D (- (cos (pose_theta p) * pose_x p + sin (pose_theta p) * pose_y p))
           (- (cos (pose_theta p) * pose_y p - sin (pose_theta p) * pose_x p))
           (- pose_theta p).

(** [c] is [after A B], up to rounding errors and to errors of [e] on the cosine and sine. *)
Definition near_move (e : R) (A B : Pose2D R) (c : Pose2D f32) : Prop :=
  let s := Rabs (pose_x B) + Rabs (pose_y B) in
  finite_q c /\
  Rabs (val (pose_x c) - pose_x (after A B)) <= 4 * bpow radix2 (-24) * (Rabs (pose_x A) + s) + e * s + bpow radix2 (-147) /\
  Rabs (val (pose_y c) - pose_y (after A B)) <= 4 * bpow radix2 (-24) * (Rabs (pose_y A) + s) + e * s + bpow radix2 (-147) /\
  Rabs (val (pose_theta c) - pose_theta (after A B)) <= bpow radix2 (-24) * Rabs (pose_theta (after A B)) + bpow radix2 (-150).

(** [pose *= move], on two variables. *)
Definition assign {T} {S : Scalar T} (p m : Pose2D T) : Pose2D T :=
  pose_mulIn (fun k => match k with O => p | _ => m end) 0%nat 1%nat 0%nat.
