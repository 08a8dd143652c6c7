(** * Properties C28 to C30: angles, means, clipping *)
From Coq Require Import Reals List Lra Lia Psatz Bool Arith ZArith Permutation.
Import ListNotations.
From Flocq Require Import Core.Core Sterbenz IEEE754.BinarySingleNaN.
From Verif Require Import Scalar RInst F32 RLemmas F32Lemmas Model_Base Model_Vec Model_Rigid Model_Almath
  Spec_Angle Proofs_Geom.
Local Open Scope R_scope.
From Verif Require Proofs_Angles.

(** ** C28 *)

(** C28: modulo2PI returns an angle of [-pi,pi] equal to its argument up to whole turns;
    it does not change an angle of [-pi,pi], and -pi can only come from a negative
    argument. *)
Theorem C28_modulo2PI : forall x : R,
  same_angle (modulo2PI x) x /\ - PI <= modulo2PI x <= PI /\
  (- PI <= x <= PI -> modulo2PI x = x) /\
  (0 <= x -> - PI < modulo2PI x) /\
  modulo2PI (modulo2PI x) = modulo2PI x.
Proof. exact @Proofs_Angles.C28_modulo2PI_proof. Qed.
Print Assumptions C28_modulo2PI.

(** C28: two angles equal up to whole turns have the same modulo2PI, except that one may
    give -pi and the other pi. *)
Theorem C28_modulo2PI_congruent : forall x y : R, same_angle x y ->
  modulo2PI x = modulo2PI y \/ (Rabs (modulo2PI x) = PI /\ modulo2PI x = - modulo2PI y).
Proof. exact @Proofs_Angles.C28_modulo2PI_congruent_proof. Qed.
Print Assumptions C28_modulo2PI_congruent.

(** C28: the documented half-open interval is not respected: -pi is left as it is. *)
Theorem C28_minus_pi_refuted : modulo2PI (- PI) = - PI.
Proof. exact @Proofs_Angles.C28_minus_pi_refuted_proof. Qed.
Print Assumptions C28_minus_pi_refuted.

Example C28_instance : modulo2PI 7 = 7 - 2 * PI.
Proof.
  assert (P : 3 <= PI <= 4) by (split; [generalize PI2_3_2; unfold PI2; lra | apply PI_4]).
  destruct (C28_modulo2PI 7) as ([k E]&B&_).
  assert (N : 0 < IZR k < 2) by (split; nra). destruct N as [N1 N2].
  change 0 with (IZR 0) in N1. apply lt_IZR in N1. apply lt_IZR in N2.
  assert (k = 1)%Z by lia. subst k. lra.
Qed.

(** C28, in binary32: the result is exactly the argument minus a whole number of times
    the float 2*pi (no rounding error at all), is finite, and its magnitude is at most
    the float pi; an argument of that magnitude is unchanged. *)
Theorem C28_modulo2PI_binary32 : forall (L : libm32) (x : f32), is_finite x = true ->
  let r := @modulo2PI f32 (F32Scalar L) x in
  is_finite r = true /\ (exists k : Z, B2R r = B2R x - IZR k * B2R f32_2pi) /\
  - B2R f32_pi <= B2R r <= B2R f32_pi /\
  (- B2R f32_pi <= B2R x <= B2R f32_pi -> B2R r = B2R x).
Proof. exact @Proofs_Angles.C28_modulo2PI_binary32_proof. Qed.
Print Assumptions C28_modulo2PI_binary32.

(** C28, in binary32: an infinite or NaN angle gives NaN. *)
Theorem C28_modulo2PI_not_finite : forall (L : libm32) (x : f32), is_finite x = false ->
  @modulo2PI f32 (F32Scalar L) x = B754_nan.
Proof. exact @Proofs_Angles.C28_modulo2PI_not_finite_proof. Qed.
Print Assumptions C28_modulo2PI_not_finite.

Example C28_binary32_instance : forall L : libm32,
  B2SF (@modulo2PI f32 (F32Scalar L) (f32_ofZ 1000000)) = B2SF (f32_frac (-808225) 2097152).
Proof. intro L. vm_compute. reflexivity. Qed.

(** ** C29 *)

(** C29: weightedMeanAngle returns exactly the circular mean (the direction of the weighted
    sum of the unit vectors) when sizes agree, weights are positive and the sum is not shorter
    than 1/1000, and throws in every other case. *)
Theorem C29_mean_exact : forall angles weights : list R,
  let ok := length angles = length weights /\ Forall (fun w => 0 < w) weights /\
            1/1000 <= resultant (combine angles weights) in
  (ok -> exists m, weightedMeanAngle angles weights = Ok m /\ is_circular_mean (combine angles weights) m /\
           forall m', is_circular_mean (combine angles weights) m' -> m' = m) /\
  (~ ok -> weightedMeanAngle angles weights = Throw).
Proof. exact @Proofs_Angles.C29_mean_exact_proof. Qed.
Print Assumptions C29_mean_exact.

(** C29: meanAngle is the weighted mean with unit weights. *)
Theorem C29_mean_unweighted : forall angles : list R,
  meanAngle angles = weightedMeanAngle angles (map (fun _ => 1) angles).
Proof. exact @Proofs_Angles.C29_mean_unweighted_proof. Qed.
Print Assumptions C29_mean_unweighted.

(** C29: permuting the (angle, weight) pairs changes nothing. *)
Theorem C29_mean_permutation : forall angles weights angles' weights' : list R,
  length angles = length weights -> length angles' = length weights' ->
  Permutation (combine angles weights) (combine angles' weights') ->
  weightedMeanAngle angles weights = weightedMeanAngle angles' weights'.
Proof. exact @Proofs_Angles.C29_mean_permutation_proof. Qed.
Print Assumptions C29_mean_permutation.

(** C29: adding whole turns to any of the angles changes nothing. *)
Theorem C29_mean_turns : forall angles angles' weights : list R,
  Forall2 same_angle angles angles' -> weightedMeanAngle angles weights = weightedMeanAngle angles' weights.
Proof. exact @Proofs_Angles.C29_mean_turns_proof. Qed.
Print Assumptions C29_mean_turns.

(** C29: turning all angles by d turns the mean by d (it throws for both or for none). *)
Theorem C29_mean_rotation : forall (d : R) (angles weights : list R),
  match weightedMeanAngle angles weights, weightedMeanAngle (map (fun a => a + d) angles) weights with
  | Ok m, Ok m' => same_angle (m + d) m'
  | Throw, Throw => True
  | _, _ => False
  end.
Proof. exact @Proofs_Angles.C29_mean_rotation_proof. Qed.
Print Assumptions C29_mean_rotation.

(** C29: the mean of a list whose angles are all equal is that angle (reduced to ]-pi,pi]),
    as soon as the weights add up to at least 1/1000. *)
Theorem C29_mean_constant : forall (a : R) (weights : list R),
  Forall (fun w => 0 < w) weights -> 1/1000 <= fold_right Rplus 0 weights ->
  exists m, weightedMeanAngle (map (fun _ => a) weights) weights = Ok m /\ same_angle m a /\ - PI < m <= PI.
Proof. exact @Proofs_Angles.C29_mean_constant_proof. Qed.
Print Assumptions C29_mean_constant.

(** C29: scaling all weights by k > 0: exactly, the result is the circular mean for the
    weights as they were when sizes agree, weights are positive and k times the length of
    their sum is at least 1/1000, and an exception otherwise. *)
Theorem C29_mean_scaling_exact : forall (k : R) (angles weights : list R), 0 < k ->
  let ok := length angles = length weights /\ Forall (fun w => 0 < w) weights /\
            1/1000 <= k * resultant (combine angles weights) in
  let r := weightedMeanAngle angles (map (fun w => k * w) weights) in
  (ok -> exists m, r = Ok m /\ is_circular_mean (combine angles weights) m) /\ (~ ok -> r = Throw).
Proof. exact @Proofs_Angles.C29_mean_scaling_exact_proof. Qed.
Print Assumptions C29_mean_scaling_exact.

(** C29: the threshold on the length of the sum is not relative to the sum of the weights, so
    scaling the weights can turn a mean into an exception. *)
Theorem C29_mean_scaling_refuted : exists (k : R) (angles weights : list R) (m : R), 0 < k /\
  weightedMeanAngle angles weights = Ok m /\
  weightedMeanAngle angles (map (fun w => k * w) weights) = Throw.
Proof. exact @Proofs_Angles.C29_mean_scaling_refuted_proof. Qed.
Print Assumptions C29_mean_scaling_refuted.

Example C29_instance : exists m, weightedMeanAngle [0; 1; -1] [1; 2; 2] = Ok m /\ m = 0.
Proof.
  destruct (C29_mean_exact [0; 1; -1] [1; 2; 2]) as [p _].
  assert (c1 : 0 < cos 1) by (apply cos_gt_0; generalize PI2_1; lra).
  assert (SC : sum_cos (combine [0; 1; -1] [1; 2; 2]) = 1 + 4 * cos 1).
  { cbn. rewrite cos_0. replace (-1) with (- (1)) by ring. rewrite cos_neg. ring. }
  assert (SS : sum_sin (combine [0; 1; -1] [1; 2; 2]) = 0).
  { cbn. rewrite sin_0. replace (-1) with (- (1)) by ring. rewrite sin_neg. ring. }
  assert (R : resultant (combine [0; 1; -1] [1; 2; 2]) = 1 + 4 * cos 1).
  { unfold resultant. rewrite SC, SS. apply sqrt_unique'; [lra|ring]. }
  destruct p as (m&E&_&U).
  { split; [reflexivity|]. split; [repeat constructor; lra|]. rewrite R. lra. }
  exists m. split; [exact E|]. symmetry. apply U. assert (P := PI_RGT_0).
  unfold is_circular_mean. rewrite R, SC, SS, cos_0, sin_0. repeat split; lra.
Qed.

(** ** C30 *)

(** C30, on the reals: with lo <= hi the new value is in [lo,hi]; it is the old one exactly when
    the old one was already inside, and the call reports exactly that; otherwise it is the
    bound that was crossed; clipping again does nothing. *)
Theorem C30_clip : forall lo hi x : R, lo <= hi ->
  let '(changed, x') := clipData lo hi x in
  lo <= x' <= hi /\ (changed = true <-> x' <> x) /\ (changed = false <-> lo <= x <= hi) /\
  (x < lo -> x' = lo) /\ (hi < x -> x' = hi) /\ clipData lo hi x' = (false, x').
Proof. exact @Proofs_Angles.C30_clip_proof. Qed.
Print Assumptions C30_clip.

(** C30, in binary32, infinities included, when none of the three numbers is NaN. Comparisons
    are those of the floats. *)
Theorem C30_clip_binary32 : forall (L : libm32) (lo hi x : f32),
  is_nan lo = false -> is_nan hi = false -> is_nan x = false -> Bleb lo hi = true ->
  let '(changed, x') := @clipData f32 (F32Scalar L) lo hi x in
  Bleb lo x' = true /\ Bleb x' hi = true /\
  (changed = false <-> Bleb lo x = true /\ Bleb x hi = true) /\ (changed = false -> x' = x) /\
  (changed = true <-> Beqb x x' = false) /\
  (Bltb x lo = true -> x' = lo) /\ (Bltb hi x = true -> x' = hi) /\
  @clipData f32 (F32Scalar L) lo hi x' = (false, x').
Proof. exact @Proofs_Angles.C30_clip_binary32_proof. Qed.
Print Assumptions C30_clip_binary32.

(** C30: a NaN is left as it is, outside the interval, although the call reports a change. *)
Theorem C30_clip_nan_refuted : forall (L : libm32) (lo hi : f32),
  @clipData f32 (F32Scalar L) lo hi B754_nan = (true, B754_nan).
Proof. exact @Proofs_Angles.C30_clip_nan_refuted_proof. Qed.
Print Assumptions C30_clip_nan_refuted.

(** C30: on a vector, every element is clipped as by the scalar overload, and the call reports
    whether any element was. *)
Theorem C30_clip_vector : forall {T} {S : Scalar T} (lo hi : T) (l : list T),
  snd (clipDataV lo hi l) = map (fun x => snd (clipData lo hi x)) l /\
  (fst (clipDataV lo hi l) = true <-> exists x, In x l /\ fst (clipData lo hi x) = true).
Proof. exact @Proofs_Angles.C30_clip_vector_proof. Qed.
Print Assumptions C30_clip_vector.

(** C30: likewise on a vector of vectors. *)
Theorem C30_clip_matrix : forall {T} {S : Scalar T} (lo hi : T) (l : list (list T)),
  snd (clipDataVV lo hi l) = map (map (fun x => snd (clipData lo hi x))) l /\
  (fst (clipDataVV lo hi l) = true <-> exists r x, In r l /\ In x r /\ fst (clipData lo hi x) = true).
Proof. exact @Proofs_Angles.C30_clip_matrix_proof. Qed.
Print Assumptions C30_clip_matrix.

Example C30_instance : clipDataVV 0 1 [[-1; 1/2]; []; [3]] = (true, [[0; 1/2]; []; [1]]).
Proof.
  unfold clipDataVV, clipDataV, clipData, clamp. rsimp.
  rewrite (Rltb_true (-1)), (Rltb_false (1/2)), (Rltb_false 1 (1/2)), (Rltb_false 3 0), (Rltb_true 1 3),
    (Reqb_false (-1)), (Reqb_true (1/2)), (Reqb_false 3) by lra. reflexivity.
Qed.
