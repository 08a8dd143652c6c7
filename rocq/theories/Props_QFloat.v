(** * Rounding errors of quaternions in binary32: products, chains, normalisation, rotations *)

From Coq Require Import Reals ZArith List Bool Lra Lia Psatz.
Import ListNotations.
From Flocq Require Import Core.Core IEEE754.BinarySingleNaN.
From Verif Require Import Scalar RInst RLemmas Model_Base Model_Vec Model_Rigid Model_Almath Model_Helpers F32 Spec_Geom Spec_Average Spec_Round Spec_QFloat.
From Verif Require Import F32Err F64Err Wide NormLemmas.
From Verif Require Proofs_Round Proofs_Float Proofs_Odom Proofs_Geom.
Local Open Scope R_scope.
From Verif Require Proofs_QFloat.

(** C71: the product of two quaternions of floats of any norm up to 2^50 is within ten units
    in the last place of the product of the norms of Hamilton's product. *)
Theorem C71_product : forall (L : libm32) (a b : Quaternion f32), finite_qu a -> finite_qu b ->
  qn (quval a) <= bpow radix2 50 -> qn (quval b) <= bpow radix2 50 ->
  let c := @q_mul f32 (F32Scalar L) a b in
  finite_qu c /\
  qn (qsub (quval c) (hamilton (quval a) (quval b))) <= 10 * bpow radix2 (-24) * (qn (quval a) * qn (quval b)) + bpow radix2 (-145).
Proof. exact @Proofs_QFloat.C71_product_proof. Qed.
Print Assumptions C71_product.

(** C71: a product of any number n of quaternions of floats, each within d of a unit
    quaternion, is within n(5/4 d + 2^-20) of the product of the unit quaternions, as long as
    this is at most 1/4: the error grows linearly with the number of factors. *)
Theorem C71_chain : forall (L : libm32) (l : list (Quaternion f32)) (rs : list (Quaternion R)) (d : R),
  Forall2 (near_unit d) l rs -> 0 <= d ->
  let k := INR (length l) * (5 / 4 * d + bpow radix2 (-20)) in k <= / 4 ->
  near_unit k (@qproduct f32 (F32Scalar L) l) (hproduct rs).
Proof. exact @Proofs_QFloat.C71_chain_proof. Qed.
Print Assumptions C71_chain.

(** C71: norm() and normalize() of a quaternion of floats, between 2^-50 and 2^50: norm is
    accurate to 5/4 of a unit in the last place, normalize does not throw and returns the
    direction of the quaternion up to 2^-22. *)
Theorem C71_normalize : forall (L : libm32) (q : Quaternion f32), finite_qu q ->
  bpow radix2 (-50) <= qn (quval q) <= bpow radix2 50 ->
  let n := @q_norm f32 (F32Scalar L) q in
  is_finite n = true /\ Rabs (val n - qn (quval q)) <= 5 / 4 * bpow radix2 (-24) * qn (quval q) /\
  exists u, @q_normalize f32 (F32Scalar L) q = Ok u /\ near_unit (bpow radix2 (-22)) u (qdirection (quval q)).
Proof. exact @Proofs_QFloat.C71_normalize_proof. Qed.
Print Assumptions C71_normalize.

(** C71: normalising a quaternion of floats that has drifted by d at most from a unit
    quaternion leaves it within 2 d + 2^-22 of the same unit quaternion, and makes its norm
    right to 2^-22 whatever the drift was. *)
Theorem C71_renormalize : forall (L : libm32) (q : Quaternion f32) (r : Quaternion R) (d : R), near_unit d q r -> d <= / 4 ->
  exists u, @q_normalize f32 (F32Scalar L) q = Ok u /\ near_unit (2 * d + bpow radix2 (-22)) u r /\
    Rabs (qn (quval u) - 1) <= bpow radix2 (-22).
Proof. exact @Proofs_QFloat.C71_renormalize_proof. Qed.
Print Assumptions C71_renormalize.

(** C71: the rotation matrix (transformFromQuaternion, and the same nine numbers in
    rotationFromQuaternion) of a quaternion of floats within d of a unit quaternion is within
    9 d + 2^-19 of the matrix of that unit quaternion, and the translation is null. *)
Theorem C71_matrix : forall (L : libm32) (q : Quaternion f32) (r : Quaternion R) (d : R), near_unit d q r -> d <= / 100 ->
  let t := @transformFromQuaternion f32 (F32Scalar L) q in
  close (9 * d + bpow radix2 (-19)) t (place (qmat r) (0, 0, 0)) /\
  @transformFromRotation f32 (F32Scalar L) (@rotationFromQuaternion f32 (F32Scalar L) q) = t.
Proof. exact @Proofs_QFloat.C71_matrix_proof. Qed.
Print Assumptions C71_matrix.

(** C71: an attitude accumulated as a product of n quaternions of floats, each within d of a
    unit quaternion, turned into a matrix: the result is within 9 n (5/4 d + 2^-20) + 2^-19 of
    the product of the n exact rotation matrices, as long as n (5/4 d + 2^-20) <= 1/100. *)
Theorem C71_attitude : forall (L : libm32) (l : list (Quaternion f32)) (rs : list (Quaternion R)) (d : R),
  Forall2 (near_unit d) l rs -> 0 <= d ->
  let k := INR (length l) * (5 / 4 * d + bpow radix2 (-20)) in k <= / 100 ->
  let t := @transformFromQuaternion f32 (F32Scalar L) (@qproduct f32 (F32Scalar L) l) in
  let exact_matrix := fold_left mmul (map qmat rs) mident in
  finite_t t /\ proper_rotation exact_matrix /\ tpos (tval t) = (0, 0, 0) /\
  fro (mdiff (tmat (tval t)) exact_matrix) <= 9 * k + bpow radix2 (-19).
Proof. exact @Proofs_QFloat.C71_attitude_proof. Qed.
Print Assumptions C71_attitude.

(** C71: rotating a vector by a quaternion of floats within d of a unit quaternion: the
    result is within (11 d + 2^-16) times the length of the vector of the vector rotated
    exactly. *)
Theorem C71_rotate : forall (L : libm32) (q : Quaternion f32) (r : Quaternion R) (p : Position3D f32) (d : R), near_unit d q r -> d <= / 100 ->
  finite_p p -> vnorm (pval p) <= bpow radix2 50 ->
  let v := @q_apply f32 (F32Scalar L) q p in
  finite_p v /\ vnorm (vsub (pval v) (mapply (qmat r) (pval p))) <= (11 * d + bpow radix2 (-16)) * vnorm (pval p) + bpow radix2 (-145).
Proof. exact @Proofs_QFloat.C71_rotate_proof. Qed.
Print Assumptions C71_rotate.

(** C71: quaternionFromAngleAndAxisRotation with an axis within d of a unit vector does not
    throw and returns a quaternion within d + 3 e + 2^-22 of the unit quaternion of the
    rotation, e being the accuracy of cos and sin. *)
Theorem C71_angle_axis : forall (L : libm32) (e d : R) (angle ax ay az : f32) (u : vec3), accurate L e -> e <= / 100 ->
  is_finite angle = true -> Rabs (val angle) <= bpow radix2 50 ->
  is_finite ax = true -> is_finite ay = true -> is_finite az = true ->
  vnorm u = 1 -> vnorm (vsub (val ax, val ay, val az) u) <= d -> d <= / 100 ->
  exists q, @q_fromAngleAndAxis f32 (F32Scalar L) angle ax ay az = Ok q /\
    near_unit (d + 3 * e + bpow radix2 (-22)) q (half_turn_of (val angle) u).
Proof. exact @Proofs_QFloat.C71_angle_axis_proof. Qed.
Print Assumptions C71_angle_axis.

(** C71: the inverse of a quaternion of floats makes no rounding error: it is as near to the
    conjugate as the quaternion was to the unit quaternion. *)
Theorem C71_inverse : forall (L : libm32) (q : Quaternion f32) (r : Quaternion R) (d : R), near_unit d q r ->
  quval (@q_inverse f32 (F32Scalar L) q) = mkQuaternion (q_w (quval q)) (- q_x (quval q)) (- q_y (quval q)) (- q_z (quval q)) /\
  near_unit d (@q_inverse f32 (F32Scalar L) q) (mkQuaternion (q_w r) (- q_x r) (- q_y r) (- q_z r)).
Proof. exact @Proofs_QFloat.C71_inverse_proof. Qed.
Print Assumptions C71_inverse.

(** A thousand products in floats of a third of a turn: within 1/100 of the exact rotation. *)
Example C71_thousand : forall L : libm32,
  let n := Z.to_nat 1000 in let t := @transformFromQuaternion f32 (F32Scalar L) (@qproduct f32 (F32Scalar L) (repeat Proofs_QFloat.third n)) in
  fro (mdiff (tmat (tval t)) (fold_left mmul (map qmat (repeat Proofs_QFloat.third_exact n)) mident)) <= / 100.
Proof.
  intros L n t.
  assert (h : Forall2 (near_unit 0) (repeat Proofs_QFloat.third n) (repeat Proofs_QFloat.third_exact n)).
  { generalize n. intro m. induction m as [|m IH]; cbn [repeat]; constructor; [apply Proofs_QFloat.third_near|exact IH]. }
  assert (b : bpow radix2 (-20) = / 1048576) by reflexivity.
  assert (b2 : bpow radix2 (-19) = / 524288) by reflexivity.
  assert (e : INR (length (repeat Proofs_QFloat.third n)) = 1000).
  { rewrite repeat_length. unfold n. rewrite INR_IZR_INZ, Z2Nat.id by lia. reflexivity. }
  destruct (C71_attitude L _ _ 0 h (Rle_refl 0)) as [_ [_ [_ k]]].
  - rewrite e, b. lra.
  - fold t in k. rewrite e, b, b2 in k. apply Rle_trans with (1 := k). lra.
Qed.
