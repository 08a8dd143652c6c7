(** * Property C34: Dubins curves *)
From Coq Require Import Reals List Lra Lia Psatz Bool Arith ZArith.
Import ListNotations.
From Verif Require Import Scalar RInst RLemmas Model_Base Model_Vec Model_Almath Model_Tools Spec_Angle Spec_Dubins Proofs_Geom.
Local Open Scope R_scope.
From Verif Require Proofs_Dubins.

(** ** C34 *)

(** C34: getDubinsSolutions throws exactly when the target is nearer than four radii;
    otherwise it returns three poses, the last one being the target. *)
Theorem C34_throws : forall (p : Pose2D R) (r : R),
  (getDubinsSolutions p r = Throw <-> sqrt (pose_x p * pose_x p + pose_y p * pose_y p) < 4 * r) /\
  (4 * r <= sqrt (pose_x p * pose_x p + pose_y p * pose_y p) ->
   exists a b, getDubinsSolutions p r = Ok [a; b; p]).
Proof. exact @Proofs_Dubins.C34_throws_proof. Qed.
Print Assumptions C34_throws.

(** C34: for a target farther than four radii (and nearer than 10^19), the returned poses
    describe a circle - segment - circle path from (0,0,0) to the target. Its segment is the
    shortest among all such paths for the four combinations of left and right turns. The two
    intermediate headings are equal to the heading of the segment, up to whole turns. *)
Theorem C34_path_far : forall (p : Pose2D R) (r : R), 0 <= r ->
  4 * r < sqrt (pose_x p * pose_x p + pose_y p * pose_y p) ->
  sqrt (pose_x p * pose_x p + pose_y p * pose_y p) + 2 * r <= 10 ^ 19 ->
  exists l1 l2 a b h len, getDubinsSolutions p r = Ok [a; b; p] /\
    csc_path (mkPose2D 0 0 0) p r l1 l2 (pose_x a) (pose_y a) (pose_x b) (pose_y b) h len /\ 0 < len /\
    same_angle (pose_theta a) h /\ same_angle (pose_theta b) h /\
    forall k1 k2 x1 y1 x2 y2 h' len', csc_path (mkPose2D 0 0 0) p r k1 k2 x1 y1 x2 y2 h' len' -> len <= len'.
Proof. exact @Proofs_Dubins.C34_path_far_proof. Qed.
Print Assumptions C34_path_far.

(** C34: exactly, for a positive radius and a target at four radii or more, the returned poses
    describe a circle - segment - circle path from (0,0,0) to the target if and only if no
    such path has an empty segment and some path has a segment whose squared length is below
    the greatest float. *)
Theorem C34_path_exact : forall (p : Pose2D R) (r : R), 0 < r ->
  4 * r <= sqrt (pose_x p * pose_x p + pose_y p * pose_y p) ->
  let start := mkPose2D 0 0 0 in
  exists a b, getDubinsSolutions p r = Ok [a; b; p] /\
    ((exists l1 l2 h len, describes start p r a b l1 l2 h len) <->
     (~ segment_length start p r 0 /\ exists len, segment_length start p r len /\ len * len < (2 ^ 24 - 1) * 2 ^ 104)).
Proof. exact @Proofs_Dubins.C34_path_exact_proof. Qed.
Print Assumptions C34_path_exact.

(** C34: and then its segment is not empty and is the shortest among all such paths, for the
    four combinations of left and right turns. *)
Theorem C34_shortest : forall (p : Pose2D R) (r : R) a b l1 l2 h len, 0 < r ->
  getDubinsSolutions p r = Ok [a; b; p] -> describes (mkPose2D 0 0 0) p r a b l1 l2 h len ->
  0 < len /\ forall len', segment_length (mkPose2D 0 0 0) p r len' -> len <= len'.
Proof. exact @Proofs_Dubins.C34_shortest_proof. Qed.
Print Assumptions C34_shortest.

(** C34: exactly, for a target heading in [-pi, pi], with [h] the heading of the segment in
    (-pi, pi]: the first heading is in [0, 2 pi] when the first turn is a left turn (from
    heading 0 it grows), and the last heading change is in [-2 pi, 0] when the last turn is a
    right turn; when the first turn is a right turn the first heading is in [-2 pi, 0] if and
    only if [h] is not positive, and when the last turn is a left turn the last change is in
    [0, 2 pi] if and only if [h] is not above the target heading. *)
Theorem C34_turn_sign_exact : forall (p : Pose2D R) (r : R), 0 < r ->
  4 * r <= sqrt (pose_x p * pose_x p + pose_y p * pose_y p) -> - PI <= pose_theta p <= PI ->
  let start := mkPose2D 0 0 0 in
  ~ segment_length start p r 0 -> (exists len, segment_length start p r len /\ len * len < (2 ^ 24 - 1) * 2 ^ 104) ->
  exists l1 l2 a b h len, getDubinsSolutions p r = Ok [a; b; p] /\
    describes start p r a b l1 l2 h len /\ - PI < h <= PI /\
    (l1 = true -> 0 <= pose_theta a <= 2 * PI) /\
    (l1 = false -> (- (2 * PI) <= pose_theta a <= 0 <-> h <= 0)) /\
    (l2 = false -> - (2 * PI) <= pose_theta p - pose_theta b <= 0) /\
    (l2 = true -> (0 <= pose_theta p - pose_theta b <= 2 * PI <-> h <= pose_theta p)).
Proof. exact @Proofs_Dubins.C34_turn_sign_exact_proof. Qed.
Print Assumptions C34_turn_sign_exact.

(** C34, violated: for the target (-49/8, -1, 0) and radius 1 the path turns right, then left.
    The first heading is above 2 pi although a right turn from heading 0 decreases it, and the
    last heading change is below -2 pi although a left turn increases it. *)
Theorem C34_turn_sign_refuted :
  let p := mkPose2D (-49/8) (-1) 0 in
  exists a b h len, getDubinsSolutions p 1 = Ok [a; b; p] /\
    csc_path (mkPose2D 0 0 0) p 1 false true (pose_x a) (pose_y a) (pose_x b) (pose_y b) h len /\
    2 * PI < pose_theta a /\ pose_theta p - pose_theta b < - (2 * PI).
Proof. exact @Proofs_Dubins.C34_turn_sign_refuted_proof. Qed.
Print Assumptions C34_turn_sign_refuted.

(** C34, violated: for the target (0, 4, 0) and radius 1, at exactly four radii, the left
    circle of the start touches the right circle of the target. The segment is empty and the
    returned heading is 0: it is the heading of no path through the returned points. *)
Theorem C34_touching_refuted :
  let p := mkPose2D 0 4 0 in
  getDubinsSolutions p 1 = Ok [mkPose2D 0 2 0; mkPose2D 0 2 0; p] /\
  (forall l1 l2 len, ~ csc_path (mkPose2D 0 0 0) p 1 l1 l2 0 2 0 2 0 len) /\
  csc_path (mkPose2D 0 0 0) p 1 true false 0 2 0 2 PI 0.
Proof. exact @Proofs_Dubins.C34_touching_refuted_proof. Qed.
Print Assumptions C34_touching_refuted.

(** C34, violated: beyond FLT_MAX for the squared length (here a target at 10^20), no tangent is
    retained and the two intermediate poses are null: they are on no path. *)
Theorem C34_overflow_refuted :
  let p := mkPose2D (10 ^ 20) 0 0 in
  getDubinsSolutions p 1 = Ok [mkPose2D 0 0 0; mkPose2D 0 0 0; p] /\
  forall l1 l2 h len, ~ csc_path (mkPose2D 0 0 0) p 1 l1 l2 0 0 0 0 h len.
Proof. exact @Proofs_Dubins.C34_overflow_refuted_proof. Qed.
Print Assumptions C34_overflow_refuted.

(** The target (10, 5, 1) is within reach for a radius of 1. *)
Example ex_C34 : let p := mkPose2D 10 5 1 in
  4 * 1 < sqrt (pose_x p * pose_x p + pose_y p * pose_y p) /\
  sqrt (pose_x p * pose_x p + pose_y p * pose_y p) + 2 * 1 <= 10 ^ 19 /\ - PI <= pose_theta p <= PI.
Proof.
  cbv zeta. cbn [pose_x pose_y pose_theta].
  assert (H19 : 100 <= 10 ^ 19) by (rewrite pow_IZR; apply IZR_le; vm_compute; discriminate).
  assert (10 < sqrt (10 * 10 + 5 * 5) < 12).
  { split.
    - replace 10 with (sqrt (10 * 10)) at 1 by (apply sqrt_square; lra). apply sqrt_lt_1; lra.
    - replace 12 with (sqrt (12 * 12)) by (apply sqrt_square; lra). apply sqrt_lt_1; lra. }
  generalize PI2_1. lra.
Qed.

(** For it the conditions of the exact theorems are met. *)
Example ex_C34_exact : let p := mkPose2D 10 5 1 in let start := mkPose2D 0 0 0 in
  ~ segment_length start p 1 0 /\ exists len, segment_length start p 1 len /\ len * len < (2 ^ 24 - 1) * 2 ^ 104.
Proof.
  cbv zeta. destruct ex_C34 as (h1&h2&h3).
  destruct (C34_path_far (mkPose2D 10 5 1) 1) as (l1&l2&a&b&h&len&g&cp&_&sa&sb&_); [lra|exact h1|exact h2|].
  destruct (C34_path_exact (mkPose2D 10 5 1) 1) as (a'&b'&g'&X); [lra|lra|].
  rewrite g in g'. injection g' as <- <-. apply X. exists l1, l2, h, len. split; [exact cp|]. split; assumption.
Qed.
