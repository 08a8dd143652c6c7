(** * Properties C35 and C36: digital filter and PID controller *)
From Coq Require Import Reals List Lra Lia Psatz Bool Arith ZArith.
Import ListNotations.
From Flocq Require Import IEEE754.BinarySingleNaN.
From Verif Require Import Scalar RInst F32 RLemmas Model_Base Model_Dsp Spec_Dsp.
Local Open Scope R_scope.
From Verif Require Proofs_Dsp.

(** ** C35 *)

(** C35: from a filter configured with any weights and gain, then reset, every sequence of
    inputs is processed without undefined behaviour and the outputs obey the difference
    equation. (A null gain divides by zero and is excluded.) *)
Theorem C35_difference_equation : forall (f : DigitalFilter R) (wIn wOut : list R) (gain : R) (xs : list R), gain <> 0 ->
  exists ys f', run_filter (resetFilter (configureFilter f wIn wOut gain)) xs = Ok (ys, f') /\
    difference_equation wIn wOut gain xs ys.
Proof. exact @Proofs_Dsp.C35_difference_equation_proof. Qed.
Print Assumptions C35_difference_equation.

(** C35: superposition. The response to a linear combination of two inputs is the same
    combination of the responses. *)
Theorem C35_superposition : forall (f : DigitalFilter R) (wIn wOut : list R) (gain a b : R) (xs xs' : list R),
  length xs' = length xs ->
  let f0 := resetFilter (configureFilter f wIn wOut gain) in
  let mix := fun u v : list R => map (fun p => a * fst p + b * snd p) (combine u v) in
  exists ys ys' f1 f2 f3, run_filter f0 xs = Ok (ys, f1) /\ run_filter f0 xs' = Ok (ys', f2) /\
    run_filter f0 (mix xs xs') = Ok (mix ys ys', f3).
Proof. exact @Proofs_Dsp.C35_superposition_proof. Qed.
Print Assumptions C35_superposition.

(** C35: in any arithmetic (binary32 included), once a filter has been configured, no later
    sequence of configure, reset and process calls reads outside the buffers. *)
Theorem C35_no_ub_once_configured : forall (T : Type) (S : Scalar T) (f : DigitalFilter T) wIn wOut gain (h : list (filter_call T)),
  exists f', run_calls (configureFilter f wIn wOut gain) h = Ok f'.
Proof. exact @Proofs_Dsp.C35_no_ub_once_configured_proof. Qed.
Print Assumptions C35_no_ub_once_configured.

(** C35: resetting erases the history: after any sequence of inputs, resetFilter gives back
    the filter as it was when it was configured and reset. *)
Theorem C35_reset_erases : forall (T : Type) (S : Scalar T) (f : DigitalFilter T) wIn wOut gain (xs : list T) ys f',
  run_filter (configureFilter f wIn wOut gain) xs = Ok (ys, f') ->
  resetFilter f' = resetFilter (configureFilter df_default wIn wOut gain).
Proof. exact @Proofs_Dsp.C35_reset_erases_proof. Qed.
Print Assumptions C35_reset_erases.

(** C35, violated: a filter that was never configured reads outside its (empty) input buffer
    at the first sample. *)
Theorem C35_default_refuted : forall (T : Type) (S : Scalar T) (x : T), processFilter df_default x = UB.
Proof. exact @Proofs_Dsp.C35_default_refuted_proof. Qed.
Print Assumptions C35_default_refuted.

(** C35, violated: configuring again does not restart the filter. After one sample 5 with the
    weights [1], the weights become [1; 1] and the next sample 1 gives 6, where a new filter
    gives 1. *)
Theorem C35_reconfigure_refuted :
  let f := configureFilter df_default [1] [] 1 in
  exists f1 f2 f3, processFilter f 5 = Ok (5, f1) /\ processFilter (configureFilter f1 [1; 1] [] 1) 1 = Ok (6, f2) /\
    processFilter (configureFilter df_default [1; 1] [] 1) 1 = Ok (1, f3).
Proof. exact @Proofs_Dsp.C35_reconfigure_refuted_proof. Qed.
Print Assumptions C35_reconfigure_refuted.

(** A moving average of two samples, with one output weight: the fourth output. *)
Example ex_C35 : exists f', run_filter (resetFilter (configureFilter df_default [1/2; 1/2] [1] 2)) [2; 4; 6] =
  Ok ([2; 7/2; 6], f').
Proof.
  unfold resetFilter, configureFilter, df_default, cb_default, cb_set_capacity, cb_clear.
  cbn. rsimp.
  replace (0 + 2 / 2 * (1 / 2) + 4 / 2 * (1 / 2) + 2 * 1) with (7/2) by field.
  replace (0 + 4 / 2 * (1 / 2) + 6 / 2 * (1 / 2) + 7 / 2 * 1) with 6 by field. eexists. reflexivity.
Qed.

(** ** C36 *)

(** C36: after construction or initialisation and any sequence [h] of calls (feedbacks,
    absolute feedbacks, changes of gains, accepted or not), computeFeedback returns
    offset + Kp e + Kv de/T + Ki T (sum of the errors), with the errors reduced by the
    threshold and the gains last accepted; computeFeedbackAbsolute likewise, with the absolute
    value of the change of the error. *)
Theorem C36_law : forall (kp kv ki th off T : R) (c : PIDController R) (h : list pid_call),
  pid_new kp kv ki th off T = Ok c \/ (exists c0, pid_initialize c0 kp kv ki th off T = (true, c)) ->
  let c' := fold_left (fun s op => match op with
     | CallFeedback a b p => snd (computeFeedback s a b p)
     | CallAbsolute x => snd (computeFeedbackAbsolute s x)
     | CallSetGains a b d => snd (pid_setGains s a b d) end) h c in
  let past := errors th h in
  (forall command sensor p, let e := deadband th (command - sensor) in
     fst (computeFeedback c' command sensor p) =
     pid_law (gains (kp, kv, ki) h) off T e (change past e) (sum_list past + e)) /\
  (forall x, let e := Rmax (x - th) 0 in
     fst (computeFeedbackAbsolute c' x) =
     pid_law (gains (kp, kv, ki) h) off T e (Rabs (change past e)) (sum_list past + e)).
Proof. exact @Proofs_Dsp.C36_law_proof. Qed.
Print Assumptions C36_law.

(** C36: the constructor and initialize return normally exactly when the gains, the threshold
    and the offset are not negative and the period is positive; setGains exactly when the
    gains are not negative, and a rejected setGains leaves the controller as it was. *)
Theorem C36_checks : forall (c : PIDController R) (kp kv ki th off T : R),
  let ok := 0 <= kp /\ 0 <= kv /\ 0 <= ki /\ 0 <= th /\ 0 <= off /\ 0 < T in
  ((exists c', pid_new kp kv ki th off T = Ok c') <-> ok) /\ (~ ok -> pid_new kp kv ki th off T = Throw) /\
  (fst (pid_initialize c kp kv ki th off T) = true <-> ok) /\
  (fst (pid_setGains c kp kv ki) = true <-> 0 <= kp /\ 0 <= kv /\ 0 <= ki) /\
  (fst (pid_setGains c kp kv ki) = false -> snd (pid_setGains c kp kv ki) = c).
Proof. exact @Proofs_Dsp.C36_checks_proof. Qed.
Print Assumptions C36_checks.

(** C36: initialize() without argument restarts the controller: it gives the same controller
    as initialising it with its own parameters, when these are valid. *)
Theorem C36_reset : forall (c : PIDController R),
  fst (pid_initialize c (pid_Kp c) (pid_Kv c) (pid_Ki c) (pid_threshold c) (pid_offset c) (pid_period c)) = true ->
  pid_initialize0 c = snd (pid_initialize c (pid_Kp c) (pid_Kv c) (pid_Ki c) (pid_threshold c) (pid_offset c) (pid_period c)).
Proof. exact @Proofs_Dsp.C36_reset_proof. Qed.
Print Assumptions C36_reset.

(** C36: with non-negative inputs the absolute feedback never decreases its integral part. *)
Theorem C36_absolute_integral_grows : forall (c : PIDController R) x, 0 < pid_period c ->
  pid_iErr c <= pid_iErr (snd (computeFeedbackAbsolute c x)).
Proof. exact @Proofs_Dsp.C36_absolute_integral_grows_proof. Qed.
Print Assumptions C36_absolute_integral_grows.

(** C36, violated, in any arithmetic: the period given to computeFeedback is ignored. *)
Theorem C36_period_refuted : forall (T : Type) (S : Scalar T) (c : PIDController T) command sensor p p',
  computeFeedback c command sensor p = computeFeedback c command sensor p'.
Proof. exact @Proofs_Dsp.C36_period_refuted_proof. Qed.
Print Assumptions C36_period_refuted.

(** C36, violated: an initialize that throws has already replaced the parameters. A null
    period is rejected, and stays in the controller, which then divides by it. *)
Theorem C36_initialize_atomic_refuted : exists c' : PIDController R,
  pid_initialize pid_default 1 2 3 0 0 0 = (false, c') /\ c' <> pid_default /\ pid_period c' = 0 /\ pid_Kp c' = 1.
Proof. exact @Proofs_Dsp.C36_initialize_atomic_refuted_proof. Qed.
Print Assumptions C36_initialize_atomic_refuted.

(** C36, violated in binary32: a NaN gain and a NaN period pass the checks. *)
Theorem C36_nan_refuted : forall L : libm32, let S := F32Scalar L in
  exists c, pid_new B754_nan B754_nan B754_nan B754_nan B754_nan B754_nan = Ok c /\ pid_period c = B754_nan.
Proof. exact @Proofs_Dsp.C36_nan_refuted_proof. Qed.
Print Assumptions C36_nan_refuted.

(** C36: a controller from the default constructor is, once it is given gains, the one made with
    these gains, no threshold, no offset and a period of one second. *)
Theorem C36_default : forall kp kv ki : R, 0 <= kp -> 0 <= kv -> 0 <= ki ->
  exists c, pid_setGains pid_default kp kv ki = (true, c) /\ pid_new kp kv ki 0 0 1 = Ok c.
Proof. exact @Proofs_Dsp.C36_default_proof. Qed.
Print Assumptions C36_default.

(** A controller with gains 2, 1, 3, threshold 1/2 and period 1/10: second feedback. *)
Example ex_C36 : exists c, pid_new 2 1 3 (1/2) 0 (1/10) = Ok c /\
  fst (computeFeedback (snd (computeFeedback c 1 0 0)) 0 2 0) =
  pid_law (2, 1, 3) 0 (1/10) (-3/2) (-2) (-1).
Proof.
  assert (E : exists c, pid_new 2 1 3 (1/2) 0 (1/10) = Ok c).
  { destruct (C36_checks pid_default 2 1 3 (1/2) 0 (1/10)) as [h _]. cbv zeta in h. apply h. lra. }
  destruct E as [c e]. exists c. split; [exact e|].
  destruct (C36_law 2 1 3 (1/2) 0 (1/10) c [CallFeedback 1 0 0] (or_introl e)) as [h _]. cbv zeta in h.
  cbn [fold_left] in h. rewrite h. cbn [gains errors]. unfold change. cbn [last sum_list fold_right].
  assert (D : deadband (1/2) (1 - 0) = 1/2 /\ deadband (1/2) (0 - 2) = -3/2).
  { unfold deadband, Rmax, Rmin. repeat match goal with |- context[Rle_dec ?a ?b] => destruct (Rle_dec a b) end; lra. }
  destruct D as [-> ->]. f_equal; lra.
Qed.
