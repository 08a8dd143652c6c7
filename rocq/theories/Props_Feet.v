(** * Properties C32 and C33: segments, boxes, foot collisions, clipping to an ellipse *)
From Coq Require Import Reals List Lra Lia Psatz Bool Arith ZArith.
Import ListNotations.
From Verif Require Import Scalar RInst F32 RLemmas Model_Base Model_Vec Model_Almath Model_Tools Spec_Polygon Proofs_Geom.
Local Open Scope R_scope.
From Verif Require Proofs_Feet.

(** ** C32: segments *)

(** C32, soundness of the segment test: a point reported is common to the two segments; when
    the answer is no the output is left as it was. *)
Theorem C32_segment_sound : forall a1 a2 b1 b2 c p : pt,
  (intersectionSegment2D a1 a2 b1 b2 c = (true, p) -> on_segment a1 a2 p /\ on_segment b1 b2 p) /\
  (intersectionSegment2D a1 a2 b1 b2 c = (false, p) -> p = c).
Proof. exact @Proofs_Feet.C32_segment_sound_proof. Qed.
Print Assumptions C32_segment_sound.

(** C32, the segment test exactly: two segments with a common point are reported,
    with that point, as soon as a coordinate of the first one is at least 1e-5 and their
    cross product is at least 1e-5. No other pair is reported. *)
Theorem C32_segment_exact : forall a1 a2 b1 b2 c p : pt,
  intersectionSegment2D a1 a2 b1 b2 c = (true, p) <->
  side_visible a1 a2 /\ 1/100000 <= Rabs (cross_dir a1 a2 b1 b2) /\ on_segment a1 a2 p /\ on_segment b1 b2 p.
Proof. exact @Proofs_Feet.C32_segment_exact_proof. Qed.
Print Assumptions C32_segment_exact.

(** C32, violated: the tolerance 1e-5 is absolute, so two segments of 3 mm that cross at a
    right angle in their middles are not reported. *)
Theorem C32_segment_small_refuted : forall c : pt,
  let a1 := mkPosition2D (-15/10000) 0 in let a2 := mkPosition2D (15/10000) 0 in
  let b1 := mkPosition2D 0 (-15/10000) in let b2 := mkPosition2D 0 (15/10000) in
  on_segment a1 a2 (mkPosition2D 0 0) /\ on_segment b1 b2 (mkPosition2D 0 0) /\
  intersectionSegment2D a1 a2 b1 b2 c = (false, c).
Proof. exact @Proofs_Feet.C32_segment_small_refuted_proof. Qed.
Print Assumptions C32_segment_small_refuted.

(** The diagonals of the unit square cross in (1/2, 1/2). *)
Example ex_C32_segment : intersectionSegment2D (mkPosition2D 0 0) (mkPosition2D 1 1)
  (mkPosition2D 0 1) (mkPosition2D 1 0) (mkPosition2D 7 7) = (true, mkPosition2D (1/2) (1/2)).
Proof.
  apply C32_segment_exact. unfold side_visible, cross_dir, on_segment, between. cbn [p2_x p2_y].
  split; [left; rewrite Rabs_right; lra|]. split.
  - match goal with |- _ <= Rabs ?x => replace x with (-(2)) by lra end. rewrite Rabs_Ropp, Rabs_right; lra.
  - split; exists (1/2); (split; [lra|]; f_equal; lra).
Qed.

(** ** C32: boxes *)

(** C32, the box test exactly: two boxes are reported if and only if a side of the first one,
    with a coordinate of at least 1e-5, meets a side of the second one, with a cross product
    of at least 1e-5, or the first corner of a box is strictly on the right of all the sides
    of the other one. *)
Theorem C32_collision_exact : forall A B : list pt,
  areTwoBoxesInCollision A B = true <->
  (exists a1 a2 b1 b2 p, is_side A a1 a2 /\ is_side B b1 b2 /\ side_visible a1 a2 /\
     1/100000 <= Rabs (cross_dir a1 a2 b1 b2) /\ on_segment a1 a2 p /\ on_segment b1 b2 p) \/
  (exists a l, A = a :: l /\ strictly_inside B a) \/ (exists b l, B = b :: l /\ strictly_inside A b).
Proof. exact @Proofs_Feet.C32_collision_exact_proof. Qed.
Print Assumptions C32_collision_exact.

(** C32: two non-empty boxes reported in collision have a common point, in the convex hulls
    of their corners, whatever the number and the order of the corners. *)
Theorem C32_collision_sound : forall A B : list pt, A <> [] -> B <> [] ->
  areTwoBoxesInCollision A B = true -> exists p, hull A p /\ hull B p.
Proof. exact @Proofs_Feet.C32_collision_sound_proof. Qed.
Print Assumptions C32_collision_sound.

(** C32: boxes separated by a line are not reported. *)
Theorem C32_separated : forall (A B : list pt) u v k, A <> [] -> B <> [] ->
  (forall p, In p A -> u * p2_x p + v * p2_y p <= k) ->
  (forall p, In p B -> k < u * p2_x p + v * p2_y p) ->
  areTwoBoxesInCollision A B = false.
Proof. exact @Proofs_Feet.C32_separated_proof. Qed.
Print Assumptions C32_separated.

(** C32: the answer does not depend on the order of the two boxes, when every side of both
    has a coordinate of at least 1e-5. *)
Theorem C32_symmetric_visible : forall A B : list pt,
  (forall a b, is_side A a b \/ is_side B a b -> side_visible a b) ->
  areTwoBoxesInCollision A B = areTwoBoxesInCollision B A.
Proof. exact @Proofs_Feet.C32_symmetric_visible_proof. Qed.
Print Assumptions C32_symmetric_visible.

(** C32: two strictly convex boxes, with corners listed clockwise, that share a strictly
    interior point are reported, provided the sides have a coordinate of at least 1e-5 and
    two sides are either parallel or make a cross product of at least 1e-5. *)
Theorem C32_collision_convex : forall (A B : list pt) (q : pt),
  convex_clockwise A -> convex_clockwise B -> strictly_inside A q -> strictly_inside B q ->
  (forall a1 a2, is_side A a1 a2 -> side_visible a1 a2) ->
  (forall a1 a2 b1 b2, is_side A a1 a2 -> is_side B b1 b2 -> transversal a1 a2 b1 b2) ->
  areTwoBoxesInCollision A B = true.
Proof. exact @Proofs_Feet.C32_collision_convex_proof. Qed.
Print Assumptions C32_collision_convex.

(** C32, violated: the answer depends on the order of the boxes. A square of 4 micrometres
    lies across a side of a 10 x 20 m box: it is not reported when it is given first. *)
Theorem C32_symmetric_refuted :
  let A := [mkPosition2D (-2/1000000) (-2/1000000); mkPosition2D (-2/1000000) (2/1000000);
            mkPosition2D (2/1000000) (2/1000000); mkPosition2D (2/1000000) (-2/1000000)] in
  let B := [mkPosition2D 0 (-10); mkPosition2D 0 10; mkPosition2D 10 10; mkPosition2D 10 (-10)] in
  areTwoBoxesInCollision A B = false /\ areTwoBoxesInCollision B A = true.
Proof. exact @Proofs_Feet.C32_symmetric_refuted_proof. Qed.
Print Assumptions C32_symmetric_refuted.

(** C32, violated: two clockwise rectangles of 3 mm x 1 mm that form a cross share their
    centre and are not reported. *)
Theorem C32_small_boxes_refuted :
  let A := [mkPosition2D (-15/10000) (-5/10000); mkPosition2D (-15/10000) (5/10000);
            mkPosition2D (15/10000) (5/10000); mkPosition2D (15/10000) (-5/10000)] in
  let B := [mkPosition2D (-5/10000) (-15/10000); mkPosition2D (-5/10000) (15/10000);
            mkPosition2D (5/10000) (15/10000); mkPosition2D (5/10000) (-15/10000)] in
  strictly_inside A (mkPosition2D 0 0) /\ strictly_inside B (mkPosition2D 0 0) /\
  areTwoBoxesInCollision A B = false.
Proof. exact @Proofs_Feet.C32_small_boxes_refuted_proof. Qed.
Print Assumptions C32_small_boxes_refuted.

(** C32, violated: a box that contains the other one is not reported when its corners are
    listed counter-clockwise; an empty box is reported in collision with any other. *)
Theorem C32_orientation_refuted :
  let A := [mkPosition2D 0 0; mkPosition2D 3 0; mkPosition2D 3 3; mkPosition2D 0 3] in
  let B := [mkPosition2D 1 1; mkPosition2D 1 2; mkPosition2D 2 2; mkPosition2D 2 1] in
  convex_clockwise (rev A) /\ convex_clockwise B /\ (forall p, In p B -> strictly_inside (rev A) p) /\
  areTwoBoxesInCollision A B = false /\ areTwoBoxesInCollision (rev A) B = true /\
  (forall C : list pt, C <> [] -> areTwoBoxesInCollision [] C = true).
Proof. exact @Proofs_Feet.C32_orientation_refuted_proof. Qed.
Print Assumptions C32_orientation_refuted.

(** Two unit squares overlapping on a quarter meet the hypotheses of the completeness theorem. *)
Example ex_C32_boxes :
  let A := [mkPosition2D 0 0; mkPosition2D 0 1; mkPosition2D 1 1; mkPosition2D 1 0] in
  let B := [mkPosition2D (1/2) (1/2); mkPosition2D (1/2) (3/2); mkPosition2D (3/2) (3/2); mkPosition2D (3/2) (1/2)] in
  convex_clockwise A /\ convex_clockwise B /\
  strictly_inside A (mkPosition2D (3/4) (3/4)) /\ strictly_inside B (mkPosition2D (3/4) (3/4)) /\
  (forall a1 a2, is_side A a1 a2 -> side_visible a1 a2) /\
  (forall a1 a2 b1 b2, is_side A a1 a2 -> is_side B b1 b2 -> transversal a1 a2 b1 b2).
Proof.
  cbv zeta. split; [|split; [|split; [|split; [|split]]]].
  - split; [cbn; lia|]. cbn [length]. intros i j hi hj n1 n2.
    destruct i as [|[|[|[|i]]]]; try lia; destruct j as [|[|[|[|j]]]]; try lia; cbn in n2; try lia;
      unfold turn, corner; cbn; lra.
  - split; [cbn; lia|]. cbn [length]. intros i j hi hj n1 n2.
    destruct i as [|[|[|[|i]]]]; try lia; destruct j as [|[|[|[|j]]]]; try lia; cbn in n2; try lia;
      unfold turn, corner; cbn; lra.
  - intros a b s. Proofs_Feet.sides4 s; unfold turn; cbn [p2_x p2_y]; lra.
  - intros a b s. Proofs_Feet.sides4 s; unfold turn; cbn [p2_x p2_y]; lra.
  - intros a b s. Proofs_Feet.sides4 s; unfold side_visible; cbn [p2_x p2_y];
      first [left; rewrite Rabs_right; lra|left; rewrite Rabs_left; lra|right; rewrite Rabs_right; lra|right; rewrite Rabs_left; lra].
  - intros a1 a2 b1 b2 s1 s2. Proofs_Feet.sides4 s1; Proofs_Feet.sides4 s2; unfold transversal, cross_dir; cbn [p2_x p2_y];
      first [left; lra|right; rewrite Rabs_right; lra|right; rewrite Rabs_left; lra].
Qed.

(** ** C32: clipping to an ellipse *)

(** C32: for non-null half axes, a move inside the ellipse is reported unchanged and left as
    it is; a move outside is brought back, along its own direction, exactly on the ellipse,
    its heading being kept. Inside means (x/maxX)^2 + (y/maxY)^2 < 1.00001. *)
Theorem C32_ellipse_exact : forall (mx my : R) (m : Pose2D R), mx <> 0 -> my <> 0 ->
  let excess (p : Pose2D R) := (pose_x p / mx)^2 + (pose_y p / my)^2 in
  (excess m < 100001/100000 -> clipFootWithEllipse mx my m = (false, m)) /\
  (100001/100000 <= excess m -> exists m', clipFootWithEllipse mx my m = (true, m') /\
     pose_theta m' = pose_theta m /\ excess m' = 1 /\
     exists s, 0 < s < 1 /\ pose_x m' = s * pose_x m /\ pose_y m' = s * pose_y m).
Proof. exact @Proofs_Feet.C32_ellipse_exact_proof. Qed.
Print Assumptions C32_ellipse_exact.

(** C32: clipping is idempotent. *)
Theorem C32_ellipse_idempotent : forall (mx my : R) (m m' : Pose2D R) b, mx <> 0 -> my <> 0 ->
  clipFootWithEllipse mx my m = (b, m') -> clipFootWithEllipse mx my m' = (false, m').
Proof. exact @Proofs_Feet.C32_ellipse_idempotent_proof. Qed.
Print Assumptions C32_ellipse_idempotent.

(** C32, violated: a move slightly outside the ellipse is left outside. *)
Theorem C32_ellipse_outside_refuted : clipFootWithEllipse 1 1 (mkPose2D (1000001/1000000) 0 0) =
  (false, mkPose2D (1000001/1000000) 0 0) /\ 1 < (1000001/1000000 / 1)^2 + (0 / 1)^2.
Proof. exact @Proofs_Feet.C32_ellipse_outside_refuted_proof. Qed.
Print Assumptions C32_ellipse_outside_refuted.

(** C32, violated in binary32: with a null half axis along x (maxX = 0, maxY = 1) the null
    move, whose coordinates satisfy |x| <= maxX and |y| <= maxY, is reported clipped, since
    0*0/0 is a NaN. *)
Theorem C32_ellipse_null_axis_refuted : forall (L : libm32) (th : f32),
  fst (@clipFootWithEllipse f32 (F32Scalar L) (f32_ofZ 0) (f32_ofZ 1) (mkPose2D (f32_ofZ 0) (f32_ofZ 0) th)) = true.
Proof. exact @Proofs_Feet.C32_ellipse_null_axis_refuted_proof. Qed.
Print Assumptions C32_ellipse_null_axis_refuted.

(** C32 and C33, in any arithmetic (binary32 included): the intersection point, the move and
    the pose are left untouched when the answer is no; avoiding a collision changes nothing
    but the heading, clipping to the ellipse nothing but the translation. *)
Theorem C33_frame_any_arithmetic : forall (T : Type) (S : Scalar T),
  (forall a1 a2 b1 b2 c, fst (intersectionSegment2D a1 a2 b1 b2 c) = false ->
     snd (intersectionSegment2D a1 a2 b1 b2 c) = c) /\
  (forall lbox rbox ls (m : Pose2D T), let r := avoidFootCollision lbox rbox ls m in
     pose_x (snd r) = pose_x m /\ pose_y (snd r) = pose_y m /\ (fst r = false -> snd r = m)) /\
  (forall mx my (m : Pose2D T), let r := clipFootWithEllipse mx my m in
     pose_theta (snd r) = pose_theta m /\ (fst r = false -> snd r = m)).
Proof. exact @Proofs_Feet.C33_frame_any_arithmetic_proof. Qed.
Print Assumptions C33_frame_any_arithmetic.

Example ex_C32_ellipse : 100001/100000 <= (3 / 2)^2 + (1 / 1)^2.
Proof. cbn [pow]. lra. Qed.

(** ** C33 *)

(** C33: the flag says whether the requested move collides; when it does not the move is
    returned untouched. The moving foot is the one that does not support. *)
Theorem C33_flag : forall (lbox rbox : list pt) (leftSupport : bool) (m : Pose2D R),
  let fixed := if leftSupport then lbox else rbox in
  let moving := if leftSupport then rbox else lbox in
  fst (avoidFootCollision lbox rbox leftSupport m) = areTwoBoxesInCollision fixed (map (moved m) moving) /\
  (fst (avoidFootCollision lbox rbox leftSupport m) = false -> snd (avoidFootCollision lbox rbox leftSupport m) = m).
Proof. exact @Proofs_Feet.C33_flag_proof. Qed.
Print Assumptions C33_flag.

(** C33: a move reported in collision keeps its translation, and its heading becomes k/32 of
    the requested one for some k between 0 and 31, such that (k+1)/32 of it still collides
    and either k = 0 or the returned move does not collide. *)
Theorem C33_bisection : forall (lbox rbox : list pt) (leftSupport : bool) (m m' : Pose2D R),
  let fixed := if leftSupport then lbox else rbox in
  let moving := if leftSupport then rbox else lbox in
  avoidFootCollision lbox rbox leftSupport m = (true, m') ->
  exists k, (k <= 31)%nat /\ m' = mkPose2D (pose_x m) (pose_y m) (pose_theta m * (INR k / 32)) /\
    areTwoBoxesInCollision fixed
      (map (moved (mkPose2D (pose_x m) (pose_y m) (pose_theta m * (INR (k + 1) / 32)))) moving) = true /\
    (k = 0%nat \/ areTwoBoxesInCollision fixed (map (moved m') moving) = false).
Proof. exact @Proofs_Feet.C33_bisection_proof. Qed.
Print Assumptions C33_bisection.

(** C33: exactly, the returned move is free of collision if and only if the requested one is,
    or the one with the requested heading divided by 2, 4, 8, 16 or 32, or the one with a null
    heading. *)
Theorem C33_result_free_exact : forall (lbox rbox : list pt) (leftSupport : bool) (m : Pose2D R),
  let fixed := if leftSupport then lbox else rbox in
  let moving := if leftSupport then rbox else lbox in
  let free th := areTwoBoxesInCollision fixed (map (moved (mkPose2D (pose_x m) (pose_y m) th)) moving) = false in
  areTwoBoxesInCollision fixed (map (moved (snd (avoidFootCollision lbox rbox leftSupport m))) moving) = false <->
  (free (pose_theta m) \/ free (pose_theta m / 2) \/ free (pose_theta m / 4) \/ free (pose_theta m / 8) \/
   free (pose_theta m / 16) \/ free (pose_theta m / 32) \/ free 0).
Proof. exact @Proofs_Feet.C33_result_free_exact_proof. Qed.
Print Assumptions C33_result_free_exact.

(** C33, violated: a step that lands on the support foot is reported as corrected, but the
    returned move is the requested one and still collides. *)
Theorem C33_result_free_refuted :
  let box := [mkPosition2D 0 0; mkPosition2D 0 1; mkPosition2D 1 1; mkPosition2D 1 0] in
  avoidFootCollision box box true (mkPose2D (1/2) (1/2) 0) = (true, mkPose2D (1/2) (1/2) 0) /\
  areTwoBoxesInCollision box (map (moved (mkPose2D (1/2) (1/2) 0)) box) = true.
Proof. exact @Proofs_Feet.C33_result_free_refuted_proof. Qed.
Print Assumptions C33_result_free_refuted.

(** A move of 3 units to the side, without rotation, does not collide. *)
Example ex_C33 :
  let box := [mkPosition2D 0 0; mkPosition2D 0 1; mkPosition2D 1 1; mkPosition2D 1 0] in
  areTwoBoxesInCollision box (map (moved (mkPose2D 0 3 0)) box) = false.
Proof.
  cbv zeta. apply (C32_separated _ _ 0 1 2); try discriminate.
  - intros p [<-|[<-|[<-|[<-|[]]]]]; cbn [p2_x p2_y]; lra.
  - intros p h. apply in_map_iff in h. destruct h as [q [<- h]].
    unfold moved. cbn [p2_x p2_y pose_x pose_y pose_theta]. rewrite cos_0, sin_0.
    destruct h as [<-|[<-|[<-|[<-|[]]]]]; cbn [p2_x p2_y]; lra.
Qed.
