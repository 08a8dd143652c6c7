(** * Property C78: the digital filter in single precision *)

From Coq Require Import Reals ZArith List Bool Lra Lia Psatz Arith.
Import ListNotations.
From Flocq Require Import Core.Core IEEE754.BinarySingleNaN.
From Verif Require Import Scalar RInst F32 Model_Base Model_Dsp Spec_Dsp Spec_DspFloat.
From Verif Require Import F32Err Proofs_Dsp.
Local Open Scope R_scope.
From Verif Require Proofs_DspFloat.

(** If the output weights sum to less than one in magnitude, the filter computed with floats gives
    for every sequence of inputs, however long, outputs that are finite and within one fixed
    distance of the exact solution of the difference equation: rounding errors do not pile up. U
    bounds the inputs divided by the gain, and Y the outputs. *)
Theorem C78_filter : forall (L : libm32) (f : DigitalFilter f32) (wIn wOut xs : list f32) (gain : f32) (U Y X : R),
  Forall (fun x => is_finite x = true) wIn -> Forall (fun x => is_finite x = true) wOut -> is_finite gain = true -> B2R gain <> 0 ->
  Forall (fun x => is_finite x = true /\ Rabs (B2R x) <= X) xs -> 0 <= X ->
  X / Rabs (B2R gain) <= U -> U <= 2^118 -> X <= Y -> Y <= 2^118 ->
  abs_sum wOut < 1 -> abs_sum wIn * U + abs_sum wOut * Y <= Y -> output_error wIn wOut U Y <= Y ->
  exists ys f', @run_filter f32 (F32Scalar L) (resetFilter (configureFilter f wIn wOut gain)) xs = Ok (ys, f') /\
  forall rs, difference_equation (map (@B2R 24 128) wIn) (map (@B2R 24 128) wOut) (B2R gain) (map (@B2R 24 128) xs) rs ->
  Forall2 (fun y r => is_finite y = true /\ Rabs (B2R y - r) <= output_error wIn wOut U Y /\ Rabs r <= Y) ys rs.
Proof. exact @Proofs_DspFloat.C78_filter_proof. Qed.
Print Assumptions C78_filter.

Example C78_ex : let half := f32_frac 1 2 in
  abs_sum [half] < 1 /\ abs_sum [half] * 10 + abs_sum [half] * 10 <= 10 /\ 10 / Rabs (B2R (f32_ofZ 1)) <= 10 /\ output_error [half] [half] 10 10 <= / 50000.
Proof.
  assert (e : B2R (f32_frac 1 2) = / 2).
  { rewrite <- SF2R_B2SF. replace (B2SF (f32_frac 1 2)) with (SpecFloat.S754_finite false 8388608 (-24)) by (vm_compute; reflexivity).
    cbn [SF2R]. unfold F2R. cbn [Fnum Fexp cond_Zopp bpow]. change (Z.pow_pos radix2 24) with 16777216%Z. lra. }
  assert (e1 : B2R (f32_ofZ 1) = 1).
  { rewrite <- SF2R_B2SF. replace (B2SF (f32_ofZ 1)) with (SpecFloat.S754_finite false 8388608 (-23)) by (vm_compute; reflexivity).
    cbn [SF2R]. unfold F2R. cbn [Fnum Fexp cond_Zopp bpow]. change (Z.pow_pos radix2 23) with 8388608%Z. lra. }
  assert (a : abs_sum [f32_frac 1 2] = / 2) by (unfold abs_sum; cbn [fold_right]; rewrite e, Rabs_pos_eq; lra).
  cbv zeta. unfold output_error. rewrite a, e1, Rabs_pos_eq by lra. cbn [length Nat.add INR].
  assert (h : 0 < / 2^150 <= / 2^24) by (split; [apply Rinv_0_lt_compat, pow_lt; lra|apply Rinv_le_contravar; [apply pow_lt; lra|apply Rle_pow; [lra|lia]]]).
  split; [lra|]. split; [lra|]. split; [lra|]. lra.
Qed.
