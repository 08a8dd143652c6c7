(** * Specification of circle - segment - circle paths *)

From Coq Require Import Reals.
From Verif Require Import Model_Vec Spec_Angle.
Local Open Scope R_scope.

(** Sign of a left (counter-clockwise) or right turn. *)
Definition side_sign (left : bool) : R := if left then 1 else -1.

(** Centre of the circle of radius [r] followed when turning left or right from a pose. *)
Definition turn_centre (p : Pose2D R) (left : bool) (r : R) : Position2D R :=
  mkPosition2D (pose_x p - side_sign left * r * sin (pose_theta p))
               (pose_y p + side_sign left * r * cos (pose_theta p)).

(** From the start pose, turn left or right ([l1]) on a circle of radius [r] up to the point
    (x1,y1), follow a segment of length [len] with heading [h] up to (x2,y2), then turn
    ([l2]) on the circle of radius [r] that ends with the final pose. At both points the
    heading is the direction of the circle. *)
Definition csc_path (start final : Pose2D R) (r : R) (l1 l2 : bool) (x1 y1 x2 y2 h len : R) : Prop :=
  0 <= len /\ x2 = x1 + len * cos h /\ y2 = y1 + len * sin h /\
  turn_centre (mkPose2D x1 y1 h) l1 r = turn_centre start l1 r /\
  turn_centre (mkPose2D x2 y2 h) l2 r = turn_centre final l2 r.

(** The two poses are the ends of the segment of such a path, and their headings are its
    direction, up to whole turns. *)
Definition describes (start final : Pose2D R) (r : R) (a b : Pose2D R) (l1 l2 : bool) (h len : R) : Prop :=
  csc_path start final r l1 l2 (pose_x a) (pose_y a) (pose_x b) (pose_y b) h len /\
  same_angle (pose_theta a) h /\ same_angle (pose_theta b) h.

(** The length of the segment of some path between the two poses. *)
Definition segment_length (start final : Pose2D R) (r len : R) : Prop :=
  exists l1 l2 x1 y1 x2 y2 h, csc_path start final r l1 l2 x1 y1 x2 y2 h len.
