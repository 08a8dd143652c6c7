(** * Rotations of an angle about an axis, in single precision *)

From Coq Require Import Reals ZArith List Bool Lra Lia Psatz.
Import ListNotations.
From Flocq Require Import Core.Core IEEE754.BinarySingleNaN.
From Verif Require Import Scalar RInst RLemmas Model_Base Model_Vec Model_Rigid F32 Spec_Geom Spec_Round Spec_Axis.
From Verif Require Import F32Err NormLemmas.
From Verif Require Proofs_Round Proofs_Float.
Local Open Scope R_scope.
From Verif Require Proofs_Axis.

(** C85. rotationFromAngleDirection with an axis of floats within d of a unit vector u, d up
    to 2^-20, does not throw and returns finite numbers, within 21 d + 9 e + 2^-18 of the
    matrix of the rotation of that angle about u (Rodrigues' formula), e being the accuracy
    of cos and sin. *)
Theorem C85_axis : forall (L : libm32) (e d : R) (angle ax ay az : f32) (u : vec3), accurate L e -> e <= / 100 ->
  is_finite angle = true -> is_finite ax = true -> is_finite ay = true -> is_finite az = true ->
  vnorm u = 1 -> vnorm (vsub (val ax, val ay, val az) u) <= d -> d <= bpow radix2 (-20) ->
  exists r M, @m_fromAngleDirection f32 (F32Scalar L) angle ax ay az = Ok r /\ turns_about M (val angle) u /\
    finite_r r /\ fro (mdiff (rval r) M) <= 21 * d + 9 * e + bpow radix2 (-18).
Proof. exact @Proofs_Axis.C85_axis_proof. Qed.
Print Assumptions C85_axis.

(** C85: the axis (3/5, 0, 4/5), which is not exact in binary32, an angle of 1 radian. *)
Example ex_C85 : exists u : vec3, u = (3 / 5, 0, 4 / 5) /\ vnorm u = 1 /\
  vnorm (vsub (val (f32_frac 3 5), val (f32_ofZ 0), val (f32_frac 4 5)) u) <= bpow radix2 (-24) /\ bpow radix2 (-24) <= bpow radix2 (-20) /\
  is_finite (f32_frac 3 5) = true /\ is_finite (f32_frac 4 5) = true /\ is_finite (f32_ofZ 1) = true /\
  exists L e, accurate L e /\ e <= / 100.
Proof.
  exists (3 / 5, 0, 4 / 5). split; [reflexivity|]. split.
  { unfold vnorm, vdot, vx, vy, vz. cbn [fst snd]. replace (3 / 5 * (3 / 5) + 0 * 0 + 4 / 5 * (4 / 5)) with 1 by field. apply sqrt_1. }
  split.
  { assert (v3 : val (f32_frac 3 5) = 10066330 / 16777216).
    { unfold val. rewrite <- SF2R_B2SF. replace (B2SF (f32_frac 3 5)) with (SpecFloat.S754_finite false 10066330 (-24)) by (vm_compute; reflexivity).
      cbn [SF2R]. unfold F2R. cbn [Fnum Fexp cond_Zopp bpow]. change (Z.pow_pos radix2 24) with 16777216%Z. lra. }
    assert (v4 : val (f32_frac 4 5) = 13421773 / 16777216).
    { unfold val. rewrite <- SF2R_B2SF. replace (B2SF (f32_frac 4 5)) with (SpecFloat.S754_finite false 13421773 (-24)) by (vm_compute; reflexivity).
      cbn [SF2R]. unfold F2R. cbn [Fnum Fexp cond_Zopp bpow]. change (Z.pow_pos radix2 24) with 16777216%Z. lra. }
    assert (v0 : val (f32_ofZ 0) = 0) by (cbv; lra). rewrite v0, v3, v4.
    apply vnorm_le; [apply bpow_ge_0|]. unfold vdot, vsub, vx, vy, vz. cbn [fst snd]. cbn [bpow]. change (Z.pow_pos radix2 24) with 16777216%Z. lra. }
  split; [apply bpow_le; lia|]. repeat (split; [reflexivity|]).
  exact Proofs_Axis.some_libm.
Qed.

(** C85: an axis whose squared length is off 1 by 2/100000 or more is refused. *)
Theorem C85_refused : forall (L : libm32) (angle ax ay az : f32),
  is_finite ax = true -> is_finite ay = true -> is_finite az = true ->
  let q := val ax * val ax + val ay * val ay + val az * val az in
  q <= 1 - 2 / 100000 \/ 1 + 2 / 100000 <= q <= bpow radix2 100 ->
  @m_fromAngleDirection f32 (F32Scalar L) angle ax ay az = Throw.
Proof. exact @Proofs_Axis.C85_refused_proof. Qed.
Print Assumptions C85_refused.

(** C85: the axis (1, 0, 1), of squared length 2. *)
Example ex_C85_refused : is_finite (f32_ofZ 1) = true /\ is_finite (f32_ofZ 0) = true /\
  1 + 2 / 100000 <= val (f32_ofZ 1) * val (f32_ofZ 1) + val (f32_ofZ 0) * val (f32_ofZ 0) + val (f32_ofZ 1) * val (f32_ofZ 1) <= bpow radix2 100.
Proof.
  split; [reflexivity|]. split; [reflexivity|]. assert (v0 : val (f32_ofZ 0) = 0) by (cbv; lra). assert (v1 : val (f32_ofZ 1) = 1) by (cbv; lra).
  rewrite v0, v1. assert (bpow radix2 1 <= bpow radix2 100) by (apply bpow_le; lia). cbn [bpow] in *. change (Z.pow_pos radix2 1) with 2%Z in *. lra.
Qed.
