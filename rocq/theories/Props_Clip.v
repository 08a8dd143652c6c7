(** * Moves limited to an ellipse, in binary32 *)

From Coq Require Import Reals ZArith List Bool Lra Lia Psatz.
Import ListNotations.
From Flocq Require Import Core.Core IEEE754.BinarySingleNaN.
From Verif Require Import Scalar RInst RLemmas Model_Base Model_Vec Model_Tools F32 Spec_Geom Spec_Round Spec_Odom Spec_Clip.
From Verif Require Import F32Err Proofs_Float.
Local Open Scope R_scope.
From Verif Require Proofs_Clip.

(** C81. In binary32, for half axes between 2^-20 and 2^20 and moves up to 2^40, and functions
    cos, sin and atan2 with errors up to e <= 1/100: a move inside the ellipse is kept, one
    which is outside by more than 1.1e-5 is clipped, and a clipped move is on the ellipse up to
    2^-20, in the direction of the requested one, up to (3 e + 2^-20) times the larger half
    axis. The heading is kept, and no infinity or NaN appears. *)
Theorem C81_clip : forall (L : libm32) (e : R) (mx my : f32) (m : Pose2D f32),
  accurate L e -> accurate_angle L e -> 0 <= e <= / 100 ->
  is_finite mx = true -> is_finite my = true -> is_finite (pose_x m) = true -> is_finite (pose_y m) = true ->
  let a := Rabs (val mx) in let b := Rabs (val my) in
  bpow radix2 (-20) <= a <= bpow radix2 20 -> bpow radix2 (-20) <= b <= bpow radix2 20 ->
  Rabs (val (pose_x m)) <= bpow radix2 40 -> Rabs (val (pose_y m)) <= bpow radix2 40 ->
  let E := excess a b (val (pose_x m)) (val (pose_y m)) in
  exists (clipped : bool) (m' : Pose2D f32), @clipFootWithEllipse f32 (F32Scalar L) mx my m = (clipped, m') /\
    is_finite (pose_x m') = true /\ is_finite (pose_y m') = true /\ pose_theta m' = pose_theta m /\
    (E <= 1 + 9 / 1000000 -> clipped = false) /\ (1 + 11 / 1000000 <= E -> clipped = true) /\
    (clipped = false -> m' = m) /\
    (clipped = true -> Rabs (excess a b (val (pose_x m')) (val (pose_y m')) - 1) <= bpow radix2 (-20) /\
       exists k, 0 < k /\ Rabs (val (pose_x m') - k * val (pose_x m)) <= (3 * e + bpow radix2 (-20)) * Rmax a b /\
                          Rabs (val (pose_y m') - k * val (pose_y m)) <= (3 * e + bpow radix2 (-20)) * Rmax a b) /\
    excess a b (val (pose_x m')) (val (pose_y m')) <= 1 + 11 / 1000000.
Proof. exact @Proofs_Clip.C81_clip_proof. Qed.
Print Assumptions C81_clip.

(** C81. Clipping is idempotent in binary32: clipping a move which has been through
    clipFootWithEllipse changes nothing. *)
Theorem C81_idempotent : forall (L : libm32) (e : R) (mx my : f32) (m m' : Pose2D f32) (clipped : bool),
  accurate L e -> accurate_angle L e -> 0 <= e <= / 100 ->
  is_finite mx = true -> is_finite my = true -> is_finite (pose_x m) = true -> is_finite (pose_y m) = true ->
  bpow radix2 (-20) <= Rabs (val mx) <= bpow radix2 20 -> bpow radix2 (-20) <= Rabs (val my) <= bpow radix2 20 ->
  Rabs (val (pose_x m)) <= bpow radix2 40 -> Rabs (val (pose_y m)) <= bpow radix2 40 ->
  @clipFootWithEllipse f32 (F32Scalar L) mx my m = (clipped, m') ->
  @clipFootWithEllipse f32 (F32Scalar L) mx my m' = (false, m').
Proof. exact @Proofs_Clip.C81_idempotent_proof. Qed.
Print Assumptions C81_idempotent.

(** C81: functions of such an accuracy exist. *)
Theorem C81_accurate : exists L : libm32, accurate L (bpow radix2 (-19)) /\ accurate_angle L (bpow radix2 (-19)).
Proof. exact @Proofs_Clip.C81_accurate_proof. Qed.
Print Assumptions C81_accurate.

(** C81: a step of half a metre forwards and a quarter to the left, limited to 1/4 by 1/8. *)
Example ex_C81 : let m := mkPose2D (f32_frac 1 2) (f32_frac 1 4) (f32_ofZ 0) in
  let a := Rabs (val (f32_frac 1 4)) in let b := Rabs (val (f32_frac (-1) 8)) in
  is_finite (f32_frac 1 4) = true /\ is_finite (f32_frac (-1) 8) = true /\ is_finite (pose_x m) = true /\ is_finite (pose_y m) = true /\
  bpow radix2 (-20) <= a <= bpow radix2 20 /\ bpow radix2 (-20) <= b <= bpow radix2 20 /\
  Rabs (val (pose_x m)) <= bpow radix2 40 /\ Rabs (val (pose_y m)) <= bpow radix2 40 /\
  excess a b (val (pose_x m)) (val (pose_y m)) = 8 /\ 0 <= bpow radix2 (-19) <= / 100.
Proof.
  assert (v2 : val (f32_frac 1 2) = 1 / 2) by (cbv; lra). assert (v4 : val (f32_frac 1 4) = 1 / 4) by (cbv; lra).
  assert (v8 : val (f32_frac (-1) 8) = - (1 / 8)) by (cbv; lra). cbv zeta. cbn [pose_x pose_y].
  rewrite v2, v4, v8, Rabs_Ropp, !Rabs_pos_eq by lra.
  assert (b1 : bpow radix2 (-20) <= / 8) by (cbn; lra). assert (b2 : 1 <= bpow radix2 20) by (change 1 with (bpow radix2 0); apply bpow_le; lia).
  assert (b3 : 1 <= bpow radix2 40) by (change 1 with (bpow radix2 0); apply bpow_le; lia).
  assert (b4 : 0 < bpow radix2 (-19) <= / 100) by (split; [apply bpow_gt_0|cbn; lra]).
  repeat (split; [reflexivity|]). repeat (split; [lra|]). split; [unfold excess; field|lra].
Qed.
