(** * Change of reference in single precision *)

From Coq Require Import Reals ZArith List Bool Lra Lia Psatz.
Import ListNotations.
From Flocq Require Import Core.Core IEEE754.BinarySingleNaN.
From Verif Require Import Scalar RInst RLemmas Model_Base Model_Vec Model_Rigid Model_Almath Model_Helpers F32 Spec_Geom Spec_Round Spec_Turn.
From Verif Require Import F32Err NormLemmas.
From Verif Require Proofs_Round Proofs_Frames MemTac.
Local Open Scope R_scope.
From Verif Require Proofs_Turn.

(** C84. A transform of floats with a rotation part within d of a rotation: every function of
    the changeReference family turns each triple of floats by that rotation (by its
    transpose, for the transposed variants) up to (d + 2^-21) times the length of the triple,
    without infinity or NaN, and writes nothing but its output. *)
Theorem C84_vectors : forall (L : libm32) (d : R) (h : Transform f32) (r : Transform R) (i o : nat), close d h r -> d <= / 5 -> i <> o ->
  let S := F32Scalar L in let e := d + bpow radix2 (-21) in let M := tmat r in let N := mtrans (tmat r) in
  (forall m : mem (Position3D f32),
     let a := changeReferencePosition3D h m i o in let b := changeReferenceTransposePosition3D h m i o in
     turned e M (triple_p3 (m i)) (triple_p3 (a o)) /\ turned e N (triple_p3 (m i)) (triple_p3 (b o)) /\
     (forall x, x <> o -> a x = m x /\ b x = m x)) /\
  (forall m : mem (Velocity6D f32),
     let a := changeReferenceVelocity6D h m i o in let b := changeReferenceTransposeVelocity6D h m i o in
     turned e M (triple_linear (m i)) (triple_linear (a o)) /\ turned e M (triple_angular (m i)) (triple_angular (a o)) /\
     turned e N (triple_linear (m i)) (triple_linear (b o)) /\ turned e N (triple_angular (m i)) (triple_angular (b o)) /\
     (forall x, x <> o -> a x = m x /\ b x = m x)) /\
  (forall m : mem (Position6D f32),
     let a := changeReferencePosition6D h m i o in let b := changeReferenceTransposePosition6D h m i o in
     turned e M (triple_first (m i)) (triple_first (a o)) /\ turned e M (triple_last (m i)) (triple_last (a o)) /\
     turned e N (triple_first (m i)) (triple_first (b o)) /\ turned e N (triple_last (m i)) (triple_last (b o)) /\
     (forall x, x <> o -> a x = m x /\ b x = m x)) /\
  (forall p : Position3D f32,
     turned e M (triple_p3 p) (triple_p3 (changeReferencePosition3DInPlace h p)) /\
     turned e N (triple_p3 p) (triple_p3 (changeReferenceTransposePosition3DInPlace h p))).
Proof. exact @Proofs_Turn.C84_vectors_proof. Qed.
Print Assumptions C84_vectors.

(** C84. Going to the other frame and back returns the position up to (9/4 d + 2^-19) times
    its length. *)
Theorem C84_back : forall (L : libm32) (d : R) (h : Transform f32) (r : Transform R) (p : Position3D f32), close d h r -> d <= / 5 ->
  finite_p p -> vnorm (pval p) <= bpow radix2 40 ->
  let S := F32Scalar L in
  let q := changeReferenceTransposePosition3DInPlace h (changeReferencePosition3DInPlace h p) in
  finite_p q /\ vnorm (vsub (pval q) (pval p)) <= (9 / 4 * d + bpow radix2 (-19)) * vnorm (pval p) + bpow radix2 (-144).
Proof. exact @Proofs_Turn.C84_back_proof. Qed.
Print Assumptions C84_back.

(** C84: a quarter of a turn about z, exact in binary32, and the vector (1, 2, -1/2). *)
Example ex_C84 : let o := f32_ofZ 0 in let i := f32_ofZ 1 in
  let h := mkTransform o (f32_ofZ (-1)) o o i o o o o o i o in
  let p := mkPosition3D i (f32_ofZ 2) (f32_frac (-1) 2) in
  close 0 h (place (of_rows 0 (-1) 0 1 0 0 0 0 1) (0, 0, 0)) /\ finite_p p /\ vnorm (pval p) <= bpow radix2 40 /\
  mapply (of_rows 0 (-1) 0 1 0 0 0 0 1) (pval p) = (-2, 1, - (1 / 2)).
Proof.
  assert (v0 : val (f32_ofZ 0) = 0) by (cbv; lra). assert (v1 : val (f32_ofZ 1) = 1) by (cbv; lra). assert (v2 : val (f32_ofZ 2) = 2) by (cbv; lra).
  assert (vn : val (f32_ofZ (-1)) = -1) by (cbv; lra). assert (vh : val (f32_frac (-1) 2) = - (1 / 2)) by (cbv; lra). cbv zeta.
  assert (hv : pval (mkPosition3D (f32_ofZ 1) (f32_ofZ 2) (f32_frac (-1) 2)) = (1, 2, - (1 / 2))) by (unfold pval; cbn [p3_x p3_y p3_z]; now rewrite v1, v2, vh).
  assert (ht : tval (mkTransform (f32_ofZ 0) (f32_ofZ (-1)) (f32_ofZ 0) (f32_ofZ 0) (f32_ofZ 1) (f32_ofZ 0) (f32_ofZ 0) (f32_ofZ 0) (f32_ofZ 0) (f32_ofZ 0) (f32_ofZ 1) (f32_ofZ 0)) =
    place (of_rows 0 (-1) 0 1 0 0 0 0 1) (0, 0, 0)).
  { unfold tval, place, of_rows, vx, vy, vz. cbn [t_r1c1 t_r1c2 t_r1c3 t_r1c4 t_r2c1 t_r2c2 t_r2c3 t_r2c4 t_r3c1 t_r3c2 t_r3c3 t_r3c4 fst snd]. rewrite v0, v1, vn. reflexivity. }
  split; [|split; [repeat split|split]].
  - split; [repeat constructor|]. split.
    + split.
      * intros i j hi hj. destruct i as [|[|[|i]]]; [| | |lia]; (destruct j as [|[|[|j]]]; [| | |lia]); unfold mmul, mtrans, sum3, mident, tmat, place, of_rows; cbn; lra.
      * unfold mdet, tmat, place, of_rows. cbn. lra.
    + rewrite ht. split; [|reflexivity].
      apply fro_le; [lra|]. unfold sum3, mdiff. lra.
  - rewrite hv. apply vnorm_le; [apply bpow_ge_0|]. assert (b : 4 <= bpow radix2 40) by (change 4 with (bpow radix2 2); apply bpow_le; lia).
    apply Rle_trans with (4 * 4); [unfold vdot, vx, vy, vz; cbn [fst snd]; lra|apply Rmult_le_compat; lra].
  - rewrite hv. unfold mapply, sum3, of_rows, vx, vy, vz. cbn [fst snd]. apply f_equal2; [apply f_equal2|]; lra.
Qed.
