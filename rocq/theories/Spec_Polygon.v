(** * Specification of segments and polygons of the plane *)

From Coq Require Import Reals List Arith.
Import ListNotations.
From Verif Require Import Model_Vec.
Local Open Scope R_scope.

Notation pt := (Position2D R).

(** The point [a + t (b - a)]. *)
Definition between (a b : pt) (t : R) : pt :=
  mkPosition2D (p2_x a + t * (p2_x b - p2_x a)) (p2_y a + t * (p2_y b - p2_y a)).
Definition on_segment (a b p : pt) : Prop := exists t, 0 <= t <= 1 /\ p = between a b t.

(** Negative when [p] is on the right of the line from [a] to [b], zero on the line. *)
Definition turn (a b p : pt) : R :=
  (p2_x b - p2_x a) * (p2_y p - p2_y a) - (p2_y b - p2_y a) * (p2_x p - p2_x a).

(** Cross product of the directions of two segments: zero when they are parallel. *)
Definition cross_dir (a1 a2 b1 b2 : pt) : R :=
  (p2_x a2 - p2_x a1) * (p2_y b2 - p2_y b1) - (p2_y a2 - p2_y a1) * (p2_x b2 - p2_x b1).

(** The convex hull of a list of points: contained in every convex set that contains them. *)
Definition convex (C : pt -> Prop) : Prop :=
  forall a b t, C a -> C b -> 0 <= t <= 1 -> C (between a b t).
Definition hull (l : list pt) (p : pt) : Prop :=
  forall C, convex C -> (forall q, In q l -> C q) -> C p.

(** The i-th corner, counted cyclically, and the sides. *)
Definition corner (l : list pt) (i : nat) : pt := nth (i mod length l) l (mkPosition2D 0 0).
Definition is_side (l : list pt) (a b : pt) : Prop :=
  exists i, (i < length l)%nat /\ a = corner l i /\ b = corner l (i + 1).

(** Strictly convex polygon whose corners are listed clockwise: every corner is strictly on
    the right of every side it does not belong to. *)
Definition convex_clockwise (l : list pt) : Prop :=
  (3 <= length l)%nat /\
  forall i j, (i < length l)%nat -> (j < length l)%nat -> j <> i -> j <> ((i + 1) mod length l)%nat ->
    turn (corner l i) (corner l (i + 1)) (corner l j) < 0.

(** Strictly inside: strictly on the right of every side. *)
Definition strictly_inside (l : list pt) (p : pt) : Prop :=
  forall a b, is_side l a b -> turn a b p < 0.

(** One of the coordinates of the side is at least 1e-5 in absolute value. *)
Definition side_visible (a b : pt) : Prop :=
  1/100000 <= Rabs (p2_x b - p2_x a) \/ 1/100000 <= Rabs (p2_y b - p2_y a).

(** Two sides are parallel, or make a cross product of at least 1e-5. *)
Definition transversal (a1 a2 b1 b2 : pt) : Prop :=
  cross_dir a1 a2 b1 b2 = 0 \/ 1/100000 <= Rabs (cross_dir a1 a2 b1 b2).

(** The image of a point by the pose: rotation by theta, then translation. *)
Definition moved (m : Pose2D R) (p : pt) : pt :=
  mkPosition2D (pose_x m + cos (pose_theta m) * p2_x p - sin (pose_theta m) * p2_y p)
               (pose_y m + sin (pose_theta m) * p2_x p + cos (pose_theta m) * p2_y p).
