(** * Displacements in single precision *)

From Coq Require Import Reals ZArith List Bool Lra Lia Psatz.
Import ListNotations.
From Flocq Require Import Core.Core IEEE754.BinarySingleNaN.
From Verif Require Import Scalar RInst RLemmas Model_Base Model_Vec Model_Rigid Model_Almath Model_Helpers F32 Spec_Geom Spec_Average Spec_Round Spec_QFloat Spec_Disp.
From Verif Require Import F32Err NormLemmas.
From Verif Require Proofs_Round Proofs_Float Proofs_QFloat.
Local Open Scope R_scope.
From Verif Require Proofs_Disp.

(** C83. A product of n displacements of floats, each standing for a motion up to d on the
    quaternion, with translations no longer than M: the quaternion is within
    n (5/4 d + 2^-20) of the product of the n unit quaternions, and the position within
    n (6 n (5/4 d + 2^-20) + 2^-15) M of where the n motions, one after the other, move the
    origin, as long as n (5/4 d + 2^-20) <= 1/100. No infinity and no NaN appears. *)
Theorem C83_chain : forall (L : libm32) (l : list (Displacement f32)) (ms : list (Quaternion R * vec3)) (d M : R),
  Forall2 (stands_for d) l ms -> Forall (fun m => vnorm (snd m) <= M) ms -> 0 <= d -> 0 <= M <= bpow radix2 30 ->
  let n := INR (length l) in let k := 5 / 4 * d + bpow radix2 (-20) in n * k <= / 100 ->
  let c := @dproduct f32 (F32Scalar L) l in
  near_unit (n * k) (d_Q c) (hproduct (map fst ms)) /\ finite_p (d_P c) /\
  vnorm (vsub (pval (d_P c)) (moves ms (0, 0, 0))) <= n * (6 * n * k + bpow radix2 (-15)) * M + n * bpow radix2 (-140) /\
  forall w, moves ms w = vadd (mapply (qmat (hproduct (map fst ms))) w) (moves ms (0, 0, 0)).
Proof. exact @Proofs_Disp.C83_chain_proof. Qed.
Print Assumptions C83_chain.

(** C83. The Transform made of such a product (transformFromDisplacement) moves every point w
    where the n motions move it, up to (9 n (5/4 d + 2^-20) + 2^-19) |w| plus the error on
    the position. *)
Theorem C83_transform : forall (L : libm32) (l : list (Displacement f32)) (ms : list (Quaternion R * vec3)) (d M : R) (w : vec3),
  Forall2 (stands_for d) l ms -> Forall (fun m => vnorm (snd m) <= M) ms -> 0 <= d -> 0 <= M <= bpow radix2 30 ->
  let n := INR (length l) in let k := 5 / 4 * d + bpow radix2 (-20) in n * k <= / 100 ->
  let t := @transformFromDisplacement f32 (F32Scalar L) (@dproduct f32 (F32Scalar L) l) in
  finite_t t /\
  vnorm (vsub (motion (tval t) w) (moves ms w)) <=
    (9 * (n * k) + bpow radix2 (-19)) * vnorm w + n * (6 * n * k + bpow radix2 (-15)) * M + n * bpow radix2 (-140).
Proof. exact @Proofs_Disp.C83_transform_proof. Qed.
Print Assumptions C83_transform.

(** C83: a third of a turn about the diagonal (the quaternion (1/2, 1/2, 1/2, 1/2) is exact in
    binary32) and a move of 1 m along x, a hundred times. *)
Example ex_C83 : let a := mkDisplacement (mkPosition3D (f32_ofZ 1) (f32_ofZ 0) (f32_ofZ 0)) Proofs_QFloat.third in
  let m : Quaternion R * vec3 := (Proofs_QFloat.third_exact, (1, 0, 0)) in
  let l := repeat a (Z.to_nat 100) in let ms := repeat m (Z.to_nat 100) in
  Forall2 (stands_for 0) l ms /\ Forall (fun m => vnorm (snd m) <= 1) ms /\
  INR (length l) * (5 / 4 * 0 + bpow radix2 (-20)) <= / 100 /\
  move m (0, 1, 0) = (1, 0, 1).
Proof.
  intros a m l ms.
  assert (s : stands_for 0 a m).
  { split; [apply Proofs_QFloat.third_near|]. split; [repeat split|].
    assert (v1 : val (f32_ofZ 1) = 1) by (cbv; lra). assert (v0 : val (f32_ofZ 0) = 0) by (cbv; lra).
    unfold pval, a, m. cbn [d_P p3_x p3_y p3_z snd]. now rewrite v1, v0. }
  split; [unfold l, ms; generalize (Z.to_nat 100); intro n; induction n; cbn [repeat]; constructor; assumption|]. split.
  - unfold ms. apply Forall_forall. intros x hx. apply repeat_spec in hx. subst x. cbn [snd m]. unfold vnorm, vdot, vx, vy, vz. cbn [fst snd].
    replace (1 * 1 + 0 * 0 + 0 * 0) with 1 by ring. rewrite sqrt_1. lra.
  - split.
    + unfold l. rewrite repeat_length, INR_IZR_INZ, Z2Nat.id by lia. cbn. lra.
    + unfold move, m, mapply, sum3, qmat, of_rows, Proofs_QFloat.third_exact, vadd, vx, vy, vz. cbn [q_w q_x q_y q_z fst snd]. apply f_equal2; [apply f_equal2|]; lra.
Qed.
