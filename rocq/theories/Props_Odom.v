(** * Rounding errors of planar poses: moves, returns and odometry in binary32 *)

From Coq Require Import Reals ZArith List Bool Lra Lia Psatz.
Import ListNotations.
From Flocq Require Import Core.Core IEEE754.BinarySingleNaN.
From Verif Require Import Scalar RInst RLemmas Model_Base Model_Vec F32 Spec_Geom Spec_Round Spec_Odom.
From Verif Require Import F32Err MemTac.
From Verif Require Proofs_Round.
Local Open Scope R_scope.
From Verif Require Proofs_Odom.

(** C70: the pose reached by a move, computed with floats, is finite and differs from the
    exact one by a few units of 2^-24 of the lengths, and by the error [e] of the cosine and
    sine times the length of the move. *)
Theorem C70_product : forall (L : libm32) (e : R) (a b : Pose2D f32), accurate L e -> e <= /100 ->
  finite_q a -> finite_q b -> within_q (bpow radix2 50) (qval a) -> within_q (bpow radix2 50) (qval b) ->
  near_move e (qval a) (qval b) (@pose_mul f32 (F32Scalar L) a b).
Proof. exact @Proofs_Odom.C70_product_proof. Qed.
Print Assumptions C70_product.

(** C70: so does the assignment, even of a pose to itself; the two operators, which add in
    different orders, agree up to 7/2^24 of the lengths, and give the same heading. *)
Theorem C70_mul_assign : forall (L : libm32) (e : R) (m : mem (Pose2D f32)) (o q : nat), accurate L e -> e <= /100 ->
  finite_q (m o) -> finite_q (m q) -> within_q (bpow radix2 50) (qval (m o)) -> within_q (bpow radix2 50) (qval (m q)) ->
  let d := @pose_mulIn f32 (F32Scalar L) m o q o in let c := @pose_mul f32 (F32Scalar L) (m o) (m q) in
  let s := Rabs (val (pose_x (m q))) + Rabs (val (pose_y (m q))) in
  near_move e (qval (m o)) (qval (m q)) d /\
  Rabs (val (pose_x d) - val (pose_x c)) <= 7 * bpow radix2 (-24) * (Rabs (val (pose_x (m o))) + s) + bpow radix2 (-146) /\
  Rabs (val (pose_y d) - val (pose_y c)) <= 7 * bpow radix2 (-24) * (Rabs (val (pose_y (m o))) + s) + bpow radix2 (-146) /\
  pose_theta d = pose_theta c.
Proof. exact @Proofs_Odom.C70_mul_assign_proof. Qed.
Print Assumptions C70_mul_assign.

(** C70: the inverse of a pose has exactly the opposite heading, and its coordinates are
    exact up to 3/2^24 of the lengths and the error of the cosine and sine. *)
Theorem C70_inverse : forall (L : libm32) (e : R) (a : Pose2D f32), accurate L e -> e <= /100 ->
  finite_q a -> within_q (bpow radix2 50) (qval a) ->
  let c := @pose_inverse f32 (F32Scalar L) a in let A := qval a in
  let s := Rabs (pose_x A) + Rabs (pose_y A) in
  finite_q c /\ val (pose_theta c) = - pose_theta A /\
  Rabs (val (pose_x c) - pose_x (back A)) <= 3 * bpow radix2 (-24) * s + e * s + bpow radix2 (-147) /\
  Rabs (val (pose_y c) - pose_y (back A)) <= 3 * bpow radix2 (-24) * s + e * s + bpow radix2 (-147).
Proof. exact @Proofs_Odom.C70_inverse_proof. Qed.
Print Assumptions C70_inverse.

(** C70, odometry: after n moves, each of at most M along x and along y and at most T in
    heading, added one by one with either operator, the pose is finite; its heading is exact
    up to 2^-24 n^2 T and its coordinates up to n M (2 e + 2^-23 n^2 T + 2^-20 n) (plus n
    times less than the smallest normal float). *)
Theorem C70_odometry : forall (L : libm32) (e M T : R) (l : list (Pose2D f32)) (step : Pose2D f32 -> Pose2D f32 -> Pose2D f32),
  accurate L e -> e <= /100 -> step = @pose_mul f32 (F32Scalar L) \/ step = @assign f32 (F32Scalar L) ->
  Forall finite_q l ->
  Forall (fun m => Rabs (val (pose_x m)) <= M /\ Rabs (val (pose_y m)) <= M /\ Rabs (val (pose_theta m)) <= T) l ->
  0 <= M <= bpow radix2 20 -> 0 <= T <= bpow radix2 20 -> INR (length l) <= bpow radix2 20 ->
  let n := INR (length l) in
  let k := 2 * e + bpow radix2 (-23) * (n * n * T) + bpow radix2 (-20) * n in k <= 1 ->
  let P := fold_left step l (@pose_default f32 (F32Scalar L)) in
  let Q := fold_left after (map qval l) (mkPose2D 0 0 0) in
  finite_q P /\
  Rabs (val (pose_x P) - pose_x Q) <= n * (M * k + bpow radix2 (-145)) /\
  Rabs (val (pose_y P) - pose_y Q) <= n * (M * k + bpow radix2 (-145)) /\
  Rabs (val (pose_theta P) - pose_theta Q) <= bpow radix2 (-24) * (n * n * T) + n * bpow radix2 (-149).
Proof. exact @Proofs_Odom.C70_odometry_proof. Qed.
Print Assumptions C70_odometry.

(** A hundred steps of 25 cm, turning by 1/64 rad each, with a cosine and a sine exact up to
    2^-23 (C68_accurate): after 25 m the position is known within 3 mm. *)
Example C70_hundred_steps : forall L : libm32, accurate L (bpow radix2 (-23)) ->
  let l := repeat (mkPose2D (f32_frac 1 4) (f32_ofZ 0) (f32_frac 1 64)) 100 in
  let P := fold_left (@pose_mul f32 (F32Scalar L)) l (@pose_default f32 (F32Scalar L)) in
  let Q := fold_left after (map qval l) (mkPose2D 0 0 0) in
  finite_q P /\ Rabs (val (pose_x P) - pose_x Q) <= 3/1000 /\ Rabs (val (pose_y P) - pose_y Q) <= 3/1000.
Proof.
  intros L HL l P Q.
  assert (v1 : val (f32_frac 1 4) = 1/4) by (cbv; lra). assert (v2 : val (f32_frac 1 64) = 1/64) by (cbv; lra).
  assert (v0 : val (f32_ofZ 0) = 0) by reflexivity.
  assert (n : INR (length l) = 100) by (unfold l; rewrite repeat_length; cbn; lra).
  destruct (C70_odometry L (bpow radix2 (-23)) (1/4) (1/64) l (@pose_mul f32 (F32Scalar L)) HL) as (h1&h2&h3&_).
  - cbn; lra.
  - now left.
  - apply Forall_forall. intros m hm. apply repeat_spec in hm. subst m. repeat split.
  - apply Forall_forall. intros m hm. apply repeat_spec in hm. subst m. cbn [pose_x pose_y pose_theta]. rewrite v0, v1, v2. repeat split; apply Rabs_le; lra.
  - cbn; lra.
  - cbn; lra.
  - rewrite n. cbn; lra.
  - cbv zeta. rewrite n. cbn; lra.
  - fold P Q in h1, h2, h3. rewrite n in h2, h3.
    assert (t : bpow radix2 (-145) <= bpow radix2 (-30)) by (apply bpow_le; lia). assert (t2 : bpow radix2 (-30) = / 1073741824) by reflexivity.
    assert (t3 : bpow radix2 (-23) = / 8388608) by reflexivity. assert (t4 : bpow radix2 (-20) = / 1048576) by reflexivity.
    rewrite t3, t4 in h2, h3. split; [exact h1|]. split; lra.
Qed.
