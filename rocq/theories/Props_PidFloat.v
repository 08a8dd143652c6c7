(** * Property C79: the PID controller in single precision *)

From Coq Require Import Reals ZArith List Bool Lra Lia Psatz.
Import ListNotations.
From Flocq Require Import Core.Core IEEE754.BinarySingleNaN.
From Verif Require Import Scalar RInst F32 Model_Base Model_Dsp Spec_Dsp Spec_PidFloat.
From Verif Require Import F32Err Proofs_Dsp Proofs_Float Proofs_DspFloat.
Local Open Scope R_scope.
From Verif Require Proofs_PidFloat.

(** After at most N calls on a new controller, with commands and measures of magnitude at most M,
    the feedback computed with floats is finite and within feedback_error of the textbook law
    evaluated exactly on the same numbers. *)
Theorem C79_feedback : forall (L : libm32) (kp kv ki th off T : f32) (c : PIDController f32) (h : list (f32 * f32)) (a b p : f32) (M : R) (N : nat),
  Forall (fun x => is_finite x = true) [kp; kv; ki; th; off; T] -> @pid_new f32 (F32Scalar L) kp kv ki th off T = Ok c ->
  Forall (fun x => is_finite (fst x) = true /\ is_finite (snd x) = true /\ Rabs (B2R (fst x)) <= M /\ Rabs (B2R (snd x)) <= M) (h ++ [(a, b)]) ->
  (length h < N)%nat -> (Z.of_nat N <= 2^22)%Z ->
  / 2^100 <= M <= 2^100 -> / 2^100 <= M / B2R T <= 2^100 -> / 2^100 <= M * B2R T -> M * B2R T * INR N <= 2^100 ->
  feedback_bound (B2R kp) (B2R kv) (B2R ki) (B2R off) (B2R T) M (INR N) <= 2^100 ->
  let c' := fold_left (fun s x => snd (@computeFeedback f32 (F32Scalar L) s (fst x) (snd x) p)) h c in
  let out := fst (@computeFeedback f32 (F32Scalar L) c' a b p) in
  let past := map (fun x => deadband (B2R th) (B2R (fst x) - B2R (snd x))) h in
  let e := deadband (B2R th) (B2R a - B2R b) in
  is_finite out = true /\
  Rabs (B2R out - pid_law (B2R kp, B2R kv, B2R ki) (B2R off) (B2R T) e (change past e) (sum_list past + e))
    <= feedback_error (B2R kp) (B2R kv) (B2R ki) (B2R off) (B2R T) M (INR N).
Proof. exact @Proofs_PidFloat.C79_feedback_proof. Qed.
Print Assumptions C79_feedback.

Example C79_ex : forall L : libm32, let one := f32_ofZ 1 in let zero := f32_ofZ 0 in
  (exists c, @pid_new f32 (F32Scalar L) one one one zero zero one = Ok c) /\
  feedback_bound (B2R one) (B2R one) (B2R one) (B2R zero) (B2R one) 1 (INR 100) <= 2^100 /\
  feedback_error (B2R one) (B2R one) (B2R one) (B2R zero) (B2R one) 1 (INR 100) <= 1 / 200.
Proof.
  intros L one zero. destruct F32Err.one_rd as [_ e1]. destruct F32Err.zero_rd as [_ e0]. fold one in e1. fold zero in e0. rewrite e1, e0.
  split; [eexists; reflexivity|]. unfold feedback_error, feedback_bound. replace (INR 100) with 100 by (rewrite INR_IZR_INZ; reflexivity).
  assert (h : 0 < / 2^147 <= / 2^24) by (split; [apply Rinv_0_lt_compat, pow_lt; lra|apply Rinv_le_contravar; [apply pow_lt; lra|apply Rle_pow; [lra|lia]]]).
  assert (h2 : 2^24 <= 2^100) by (apply Rle_pow; [lra|lia]). split; lra.
Qed.
