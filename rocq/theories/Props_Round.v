(** * Rounding errors of products, inverses and chains of transforms in binary32 *)

From Coq Require Import Reals ZArith List Bool Lra Lia Psatz.
Import ListNotations.
From Flocq Require Import Core.Core IEEE754.BinarySingleNaN.
From Verif Require Import Scalar RInst RLemmas Model_Base Model_Vec Model_Rigid F32 Spec_Geom Spec_Round.
From Verif Require Import Proofs_Geom F32Err NormLemmas.
From Verif Require Proofs_Transform.
Local Open Scope R_scope.
From Verif Require Proofs_Round.

(** C66: the product of two transforms of finite floats of moderate size is finite, and each
    of its coefficients differs from the exact one by at most 4 (translation: 5) units of
    2^-24 times the sum of the absolute values of the terms it is the sum of, or by less
    than the smallest float. *)
Theorem C66_product : forall (L : libm32) (a b : Transform f32),
  finite_t a -> finite_t b -> within_t (bpow radix2 50) (tval a) -> within_t (bpow radix2 50) (tval b) ->
  let c := @t_mul f32 (F32Scalar L) a b in
  let A := tval a in let B := tval b in let C := t_mul A B in
  finite_t c /\
  (forall i j, (i < 3)%nat -> (j < 3)%nat ->
     Rabs (tmat (tval c) i j - tmat C i j) <=
       4 * bpow radix2 (-24) * sum3 (fun k => Rabs (tmat A i k) * Rabs (tmat B k j)) + bpow radix2 (-147)) /\
  (forall i, (i < 3)%nat ->
     Rabs (vc (tpos (tval c)) i - vc (tpos C) i) <=
       5 * bpow radix2 (-24) * (sum3 (fun k => Rabs (tmat A i k) * Rabs (vc (tpos B) k)) + Rabs (vc (tpos A) i)) + bpow radix2 (-147)).
Proof. exact @Proofs_Round.C66_product_proof. Qed.
Print Assumptions C66_product.

(** C67: the product of n transforms of floats, each with a rotation part within d of that of
    a rigid transform, has no infinity and no NaN; its rotation part is within n (5/4 d + 2^-20)
    of the exact product of the rigid transforms, and its translation, when the translations
    are no longer than M, within n^2 (5/4 d + 2^-20) M (plus n times less than the smallest
    normal float): errors grow linearly along a chain of rotations, not exponentially. *)
Theorem C67_chain : forall (L : libm32) (l : list (Transform f32)) (rs : list (Transform R)) (d M : R),
  Forall2 (close d) l rs -> Forall (fun r => vnorm (tpos r) <= M) rs -> 0 <= d -> 0 <= M <= bpow radix2 30 ->
  let n := INR (length l) in let k := 5 / 4 * d + bpow radix2 (-20) in n * k <= / 4 ->
  let P := @product f32 (F32Scalar L) l in let Q := product rs in
  finite_t P /\ rigid Q /\
  fro (mdiff (tmat (tval P)) (tmat Q)) <= n * k /\
  vnorm (vsub (tpos (tval P)) (tpos Q)) <= n * n * k * M + n * bpow radix2 (-145).
Proof. exact @Proofs_Round.C67_chain_proof. Qed.
Print Assumptions C67_chain.

(** C67: hence every point is moved where it should, up to (|w| + n M) n (5/4 d + 2^-20). *)
Theorem C67_points : forall (L : libm32) (l : list (Transform f32)) (rs : list (Transform R)) (d M : R) (w : vec3),
  Forall2 (close d) l rs -> Forall (fun r => vnorm (tpos r) <= M) rs -> 0 <= d -> 0 <= M <= bpow radix2 30 ->
  let n := INR (length l) in let k := 5 / 4 * d + bpow radix2 (-20) in n * k <= / 4 ->
  vnorm (vsub (motion (tval (@product f32 (F32Scalar L) l)) w) (motion (product rs) w)) <=
    n * k * (vnorm w + n * M) + n * bpow radix2 (-145).
Proof. exact @Proofs_Round.C67_points_proof. Qed.
Print Assumptions C67_points.

(** C66: the inverse of a transform of floats has exactly the transposed rotation part; each
    coordinate of its translation is that of the exact inverse up to 4/2^24 of the sum of the
    absolute values of its terms (plus less than the smallest normal float). *)
Theorem C66_inverse : forall (L : libm32) (a : Transform f32),
  finite_t a -> within_t (bpow radix2 50) (tval a) ->
  let c := @t_inverse f32 (F32Scalar L) a in let A := tval a in
  finite_t c /\ meq (tmat (tval c)) (mtrans (tmat A)) /\
  (forall i, (i < 3)%nat ->
     Rabs (vc (tpos (tval c)) i - vc (tpos (@t_inverse R RScalar A)) i) <=
       4 * bpow radix2 (-24) * sum3 (fun k => Rabs (tmat A k i) * Rabs (vc (tpos A) k)) + bpow radix2 (-147)).
Proof. exact @Proofs_Round.C66_inverse_proof. Qed.
Print Assumptions C66_inverse.

(** C66: a transform times its inverse, both computed with floats, is the identity up to the
    distance of its rotation part to a rotation and to rounding errors. *)
Theorem C66_back : forall (L : libm32) (a : Transform f32) (r : Transform R) (d M : R),
  close d a r -> d <= / 5 -> vnorm (tpos r) <= M -> 0 <= M <= bpow radix2 30 ->
  let p := @t_mul f32 (F32Scalar L) a (@t_inverse f32 (F32Scalar L) a) in
  finite_t p /\ fro (mdiff (tmat (tval p)) mident) <= 5 / 2 * d + bpow radix2 (-20) /\
  vnorm (tpos (tval p)) <= (4 * d + bpow radix2 (-18)) * M + bpow radix2 (-144).
Proof. exact @Proofs_Round.C66_back_proof. Qed.
Print Assumptions C66_back.

Example ex_C66 : let a := mkTransform (f32_ofZ 1) (f32_ofZ 0) (f32_ofZ 0) (f32_ofZ 3) (f32_ofZ 0) (f32_ofZ 0) (f32_ofZ (-1)) (f32_ofZ 0) (f32_ofZ 0) (f32_ofZ 1) (f32_ofZ 0) (f32_ofZ 0) in
  finite_t a /\ within_t (bpow radix2 50) (tval a).
Proof.
  intro a. split; [repeat constructor|].
  assert (v3 : B2R (f32_ofZ 3) = 3) by (cbv; lra). assert (vm : B2R (f32_ofZ (-1)) = -1) by (cbv; lra).
  assert (v1 : B2R (f32_ofZ 1) = 1) by (cbv; lra). assert (v0 : B2R (f32_ofZ 0) = 0) by reflexivity.
  assert (h : 3 <= bpow radix2 50) by (apply Rle_trans with (bpow radix2 2); [cbn; lra|apply bpow_le; lia]).
  unfold within_t, coefs, tval, a, val. cbn [t_r1c1 t_r1c2 t_r1c3 t_r1c4 t_r2c1 t_r2c2 t_r2c3 t_r2c4 t_r3c1 t_r3c2 t_r3c3 t_r3c4]. rewrite v0, v1, v3, vm.
  repeat apply Forall_cons; try apply Forall_nil; apply Rabs_le; lra.
Qed.
