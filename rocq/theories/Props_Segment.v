(** * Segments and boxes in the plane, in binary32 *)

From Coq Require Import Reals ZArith List Bool Lra Lia Psatz.
Import ListNotations.
From Flocq Require Import Core.Core IEEE754.BinarySingleNaN.
From Verif Require Import Scalar RInst RLemmas Model_Base Model_Vec Model_Tools F32 Spec_Geom Spec_Round Spec_Segment.
From Verif Require Import F32Err Proofs_Float Proofs_Clip.
Local Open Scope R_scope.
From Verif Require Proofs_Segment.

(** C82. In binary32, for a box and a point of finite coordinates up to M <= 2^40: if the point
    is on the right of every side of the box by more than the rounding errors (the cross
    product is below - 2^-18 M^2), xPointsInsideBox, the test of areTwoBoxesInCollision for
    boxes one inside the other, answers yes; if it is on the left of one side by more than
    that, no. *)
Theorem C82_inside : forall (L : libm32) (M : R) (box : list (Position2D f32)) (p : Position2D f32),
  bpow radix2 (-60) <= M <= bpow radix2 40 -> Forall (point_in M) box -> point_in M p ->
  let inside := @pointInsideBox f32 (F32Scalar L) box p in
  let margin := bpow radix2 (-18) * (M * M) in
  ((forall a b, In (a, b) (sides box) -> cross a b a p < - margin) -> inside = true) /\
  ((exists a b, In (a, b) (sides box) /\ margin < cross a b a p) -> inside = false).
Proof. exact @Proofs_Segment.C82_inside_proof. Qed.
Print Assumptions C82_inside.

(** C82. In binary32, for segments of coordinates up to 1 that are neither nearly parallel nor
    too short nor too steep (the cross product of the two directions times the extent of the
    first segment along x is at least 1/512; along y if the first segment is exactly vertical),
    and which lie on lines meeting at the fraction s of the first and t of the second:
    intersectionSegment2D answers no when s or t is out of [0,1] by more than the margins e1
    and e2, and yes, with the point up to 2 e1, when both are inside by as much. *)
Theorem C82_segments : forall (L : libm32) (a1 a2 b1 b2 c : Position2D f32) (s t g : R),
  point_in 1 a1 -> point_in 1 a2 -> point_in 1 b1 -> point_in 1 b2 -> meet a1 a2 b1 b2 s t ->
  let D := Rabs (cross b1 b2 a1 a2) in
  g = Rabs (dx a1 a2) \/ dx a1 a2 = 0 /\ g = Rabs (dy a1 a2) -> / 512 <= D * g ->
  let e1 := bpow radix2 (-14) / (D * g) in let e2 := bpow radix2 (-17) / D in
  let '(crossing, p) := @intersectionSegment2D f32 (F32Scalar L) a1 a2 b1 b2 c in
  (s < - e1 \/ 1 + e1 < s \/ t < - e2 \/ 1 + e2 < t -> crossing = false) /\
  (e1 <= s <= 1 - e1 -> e2 <= t <= 1 - e2 -> crossing = true /\
     is_finite (p2_x p) = true /\ is_finite (p2_y p) = true /\
     Rabs (val (p2_x p) - (val (p2_x a1) + s * dx a1 a2)) <= 2 * e1 /\
     Rabs (val (p2_y p) - (val (p2_y a1) + s * dy a1 a2)) <= 2 * e1).
Proof. exact @Proofs_Segment.C82_segments_proof. Qed.
Print Assumptions C82_segments.

(** C82. The margin along x is needed: the fraction along the first segment is computed from
    x alone as soon as the segment is 10 micrometres wide, whatever its height. Of two nearly
    vertical segments of more than 1.7 m, crossed almost at right angles by a segment of
    more than 1.1 m, the first is reported as crossed more than a centimetre off the true point, and the
    second as not crossed at all, although the segments cross 6 mm inside of both. *)
Theorem C82_steep_refuted : forall (L : libm32) (c : Position2D f32),
  (exists a1 a2 b1 b2 s t, point_in 1 a1 /\ point_in 1 a2 /\ point_in 1 b1 /\ point_in 1 b2 /\ meet a1 a2 b1 b2 s t /\
     2 <= Rabs (cross b1 b2 a1 a2) /\ 1 / 4 <= s <= 3 / 4 /\ 1 / 4 <= t <= 3 / 4 /\
     let '(crossing, p) := @intersectionSegment2D f32 (F32Scalar L) a1 a2 b1 b2 c in
     crossing = true /\ 1 / 100 <= Rabs (val (p2_y p) - (val (p2_y a1) + s * dy a1 a2))) /\
  (exists a1 a2 b1 b2 s t, point_in 1 a1 /\ point_in 1 a2 /\ point_in 1 b1 /\ point_in 1 b2 /\ meet a1 a2 b1 b2 s t /\
     2 <= Rabs (cross b1 b2 a1 a2) /\ 35 / 10000 <= s <= 1 - 35 / 10000 /\ 1 / 5 <= t <= 4 / 5 /\
     6 / 1000 <= (1 - s) * dy a1 a2 /\
     fst (@intersectionSegment2D f32 (F32Scalar L) a1 a2 b1 b2 c) = false).
Proof. exact @Proofs_Segment.C82_steep_refuted_proof. Qed.
Print Assumptions C82_steep_refuted.

(** C82: the two diagonals of a square of 1 m cross in its middle, at 1/2 of both; half of
    the first diagonal ends before reaching a parallel to the second. *)
Example ex_C82 : let P x y := mkPosition2D (f32_frac x 4) (f32_frac y 4) in
  let a1 := P 0%Z 0%Z in let a2 := P 4%Z 4%Z in let b1 := P 4%Z 0%Z in let b2 := P 0%Z 4%Z in
  let a3 := P 1%Z 1%Z in
  (point_in 1 a1 /\ point_in 1 a2 /\ point_in 1 b1 /\ point_in 1 b2 /\ point_in 1 a3) /\
  (meet a1 a2 b1 b2 (1 / 2) (1 / 2) /\ dx a1 a2 = 1 /\ / 512 <= Rabs (cross b1 b2 a1 a2) * 1 /\ Rabs (cross b1 b2 a1 a2) = 2) /\
  (meet a1 a3 b1 b2 2 (1 / 2) /\ dx a1 a3 = 1 / 4 /\ / 512 <= Rabs (cross b1 b2 a1 a3) * (1 / 4)) /\
  bpow radix2 (-14) / (2 * 1) <= 1 / 2 /\ bpow radix2 (-17) / 2 <= 1 / 2.
Proof.
  assert (v0 : val (f32_frac 0 4) = 0) by (cbv; lra). assert (v1 : val (f32_frac 1 4) = 1 / 4) by (cbv; lra). assert (v4 : val (f32_frac 4 4) = 1) by (cbv; lra).
  unfold point_in, meet, cross, dx, dy. cbv zeta. cbn [p2_x p2_y]. rewrite v0, v1, v4.
  assert (a1 : Rabs ((0 - 1) * (1 - 0) - (1 - 0) * (1 - 0)) = 2) by (rewrite Rabs_left; lra).
  assert (a2 : Rabs ((0 - 1) * (1 / 4 - 0) - (1 - 0) * (1 / 4 - 0)) = 1 / 2) by (rewrite Rabs_left; lra). rewrite a1, a2.
  repeat match goal with |- _ /\ _ => split end;
    lazymatch goal with |- is_finite _ = true => reflexivity | |- fst _ = false => vm_compute; reflexivity | |- 2 <= _ => idtac | |- Rabs _ <= _ => apply Rabs_le; lra | |- let (_, _) := _ in _ => idtac | _ => try lra end; cbn; lra.
Qed.

(** C82: the middle of a square of 1 m, its corners given clockwise, is on the right of the
    four sides by 1/2; a point at 1/4 to the left of the square is on the left of one. *)
Example ex_C82_inside : let P x y := mkPosition2D (f32_frac x 4) (f32_frac y 4) in
  let box := [P 0%Z 0%Z; P 0%Z 4%Z; P 4%Z 4%Z; P 4%Z 0%Z] in let p := P 2%Z 2%Z in let q := P (-1)%Z 2%Z in
  Forall (point_in 1) box /\ point_in 1 p /\ point_in 1 q /\ bpow radix2 (-18) * (1 * 1) <= 1 / 8 /\
  (forall a b, In (a, b) (sides box) -> cross a b a p = - (1 / 2)) /\
  In (P 0%Z 0%Z, P 0%Z 4%Z) (sides box) /\ cross (P 0%Z 0%Z) (P 0%Z 4%Z) (P 0%Z 0%Z) q = 1 / 4.
Proof.
  assert (v0 : val (f32_frac 0 4) = 0) by (cbv; lra). assert (v2 : val (f32_frac 2 4) = 1 / 2) by (cbv; lra). assert (v4 : val (f32_frac 4 4) = 1) by (cbv; lra).
  assert (vm : val (f32_frac (-1) 4) = - (1 / 4)) by (cbv; lra). cbv zeta.
  split; [repeat (apply Forall_cons; [unfold point_in; cbn [p2_x p2_y]; rewrite ?v0, ?v4; (repeat split; try (apply Rabs_le; lra); reflexivity)|]); apply Forall_nil|].
  split; [unfold point_in; cbn [p2_x p2_y]; rewrite ?v2; repeat split; try (apply Rabs_le; lra); reflexivity|].
  split; [unfold point_in; cbn [p2_x p2_y]; rewrite ?v2, ?vm; repeat split; try (apply Rabs_le; lra); reflexivity|].
  split; [cbn; lra|]. split.
  - intros a b h. cbn [sides app combine In] in h. unfold cross, dx, dy.
    destruct h as [h|[h|[h|[h|[]]]]]; pose proof (f_equal fst h) as ha; pose proof (f_equal snd h) as hb; cbn [fst snd] in ha, hb; rewrite <- ha, <- hb; cbn [p2_x p2_y]; rewrite ?v0, ?v2, ?v4; lra.
  - split; [now left|]. unfold cross, dx, dy. cbn [p2_x p2_y]. rewrite v0, v2, v4, vm. lra.
Qed.
