(** * Properties C16, C17: where exponential, logarithm and interpolation are exact *)
From Coq Require Import Reals List Lra Lia Psatz Nsatz Bool Arith.
Import ListNotations.
From Verif Require Import Scalar RInst RLemmas Model_Base Model_Vec Model_Rigid Model_Almath
  Model_Helpers Spec_Geom Proofs_Geom MemTac SO3Quat Proofs_Transform Proofs_Rotation Proofs_Quat Proofs_ExpLog.
Local Open Scope R_scope.
From Verif Require Proofs_ExpLogExact.

(** C16: exactly. For a transform that turns by an angle [th] in [0, pi] about a unit vector
    [u], the exponential of the logarithm is the transform if and only if sin th >= 1/1000, or
    th = 0, or it is a half turn about a coordinate axis, or else [u] is one of the vectors x,
    y, z, the angle is above pi/2 and the translation is along [u]. *)
Theorem C16_exp_log_exact : forall (t : Transform R) (th : R) (u : vec3),
  turns_about (tmat t) th u -> 0 <= th <= PI ->
  (velocityExponential (transformLogarithm t) = t <->
   (1/1000 <= sin th \/ th = 0 \/
    exists e, In e [(1,0,0); (0,1,0); (0,0,1)] /\
    ((th = PI /\ (u = e \/ u = vscale (-1) e)) \/
     (PI/2 < th /\ u = e /\ tpos t = vscale (vdot e (tpos t)) e)))).
Proof. exact @Proofs_ExpLogExact.C16_exp_log_exact_proof. Qed.
Print Assumptions C16_exp_log_exact.

(** C16: every rigid transform turns by an angle in [0, pi] about some unit vector, so that
    the theorems of this file cover all of them. *)
Theorem C16_euler : forall t : Transform R, rigid t ->
  exists th u, 0 <= th <= PI /\ turns_about (tmat t) th u.
Proof. exact @Proofs_ExpLogExact.C16_euler_proof. Qed.
Print Assumptions C16_euler.

(** C16: the exponential of a velocity is exactly a rigid transform if and only if its angular
    part is null or at least 1/1000. *)
Theorem C16_exponential_rigid_exact : forall v : Velocity6D R,
  rigid (velocityExponential v) <-> (vang v = (0,0,0) \/ 1/1000 <= vnorm (vang v)).
Proof. exact @Proofs_ExpLogExact.C16_exponential_rigid_exact_proof. Qed.
Print Assumptions C16_exponential_rigid_exact.

(** C17: the interpolation reaches its second argument if and only if the relative transform
    is one that the logarithm and the exponential give back, see C16_exp_log_exact. *)
Theorem C17_end_exact : forall (a b : Transform R) (th : R) (u : vec3), rigid a ->
  let h := t_mul (t_inverse a) b in
  turns_about (tmat h) th u -> 0 <= th <= PI ->
  (transformMean a b 1 = Ok b <->
   (1/1000 <= sin th \/ th = 0 \/
    exists e, In e [(1,0,0); (0,1,0); (0,0,1)] /\
    ((th = PI /\ (u = e \/ u = vscale (-1) e)) \/
     (PI/2 < th /\ u = e /\ tpos h = vscale (vdot e (tpos h)) e)))).
Proof. exact @Proofs_ExpLogExact.C17_end_exact_proof. Qed.
Print Assumptions C17_end_exact.

(** C17: the interpolated transform is exactly rigid if and only if the interpolated angle is
    null or at least 1/1000. *)
Theorem C17_rigid_exact : forall (a b : Transform R) (d : R), rigid a -> 0 <= d <= 1 ->
  let n := d * vnorm (vang (transformLogarithm (t_mul (t_inverse a) b))) in
  exists r, transformMean a b d = Ok r /\ (rigid r <-> n = 0 \/ 1/1000 <= n).
Proof. exact @Proofs_ExpLogExact.C17_rigid_exact_proof. Qed.
Print Assumptions C17_rigid_exact.

(** C16: exactly, a velocity of angular norm [n] is recovered by the logarithm from its
    exponential if and only if n = 0, or n <= pi and sin n >= 1/1000, or pi/2 < n <= pi, the
    angular part is n times one of the vectors x, y, z, and n = pi or the linear part is along
    that vector. *)
Theorem C16_log_exp_exact : forall v : Velocity6D R,
  let n := vnorm (vang v) in
  transformLogarithm (velocityExponential v) = v <->
  (n = 0 \/ (n <= PI /\ 1/1000 <= sin n) \/
   (PI/2 < n <= PI /\ exists e, In e [(1,0,0); (0,1,0); (0,0,1)] /\ vang v = vscale n e /\
    (n = PI \/ vlin v = vscale (vdot e (vlin v)) e))).
Proof. exact @Proofs_ExpLogExact.C16_log_exp_exact_proof. Qed.
Print Assumptions C16_log_exp_exact.

Example C16_exact_example :
  let t := mkTransform 0 (-1) 0 3 1 0 0 4 0 0 1 5 in
  turns_about (tmat t) (PI/2) (0,0,1) /\ velocityExponential (transformLogarithm t) = t.
Proof.
  assert (P := PI2_3_2).
  assert (T : turns_about (tmat (mkTransform 0 (-1) 0 3 1 0 0 4 0 0 1 5)) (PI/2) (0,0,1)).
  { apply turns_rod9. cbn. rewrite cos_PI2, sin_PI2. split; [ring|repeat split; ring]. }
  split; [exact T|]. apply (C16_exp_log_exact _ _ _ T); [lra|]. left. rewrite sin_PI2. lra.
Qed.

Example C16_exact_example_half_turn :
  let t := mkTransform 1 0 0 3 0 (-1) 0 4 0 0 (-1) 5 in
  turns_about (tmat t) PI (1,0,0) /\ velocityExponential (transformLogarithm t) = t.
Proof.
  assert (P := PI2_3_2).
  assert (T : turns_about (tmat (mkTransform 1 0 0 3 0 (-1) 0 4 0 0 (-1) 5)) PI (1,0,0)).
  { apply turns_rod9. cbn. rewrite cos_PI, sin_PI. split; [ring|repeat split; ring]. }
  split; [exact T|]. apply (C16_exp_log_exact _ _ _ T); [lra|]. right. right.
  exists (1,0,0). split; [left; reflexivity|]. left. auto.
Qed.

Example C16_log_exp_example :
  transformLogarithm (velocityExponential (mkVelocity6D 1 2 3 0 1 0)) = mkVelocity6D 1 2 3 0 1 0 /\
  transformLogarithm (velocityExponential (mkVelocity6D 1 2 3 0 5 0)) <> mkVelocity6D 1 2 3 0 5 0.
Proof.
  assert (P := PI2_3_2). assert (P4 := PI_4).
  assert (N : forall k, 0 <= k -> vnorm (vang (mkVelocity6D 1 2 3 0 k 0)) = k).
  { intros k hk. unfold vnorm, vang, vdot, vx, vy, vz. cbn. replace (0*0+k*k+0*0) with (k*k) by ring. apply sqrt_square. exact hk. }
  split.
  - apply C16_log_exp_exact. rewrite (N 1) by lra. right. left. split; [lra|].
    assert (sin (PI/6) < sin 1) by (apply sin_increasing_1; lra). rewrite sin_PI6 in H. lra.
  - intro E. apply C16_log_exp_exact in E. rewrite (N 5) in E by lra.
    destruct E as [E|[[E _]|[[_ E] _]]]; lra.
Qed.

Example C17_end_example : let b := mkTransform 1 0 0 3 0 (-1) 0 4 0 0 (-1) 5 in transformMean t_id b 1 = Ok b.
Proof.
  assert (P := PI2_3_2). intro b.
  assert (H : t_mul (t_inverse t_id) b = b).
  { unfold b. change (@t_id R _) with (mkTransform 1 0 0 0 0 1 0 0 0 0 1 0). rewrite t_inverse_mk, t_mul_mk. rec_eq; ring. }
  apply (C17_end_exact t_id b PI (1,0,0)).
  - change (@t_id R _) with (mkTransform 1 0 0 0 0 1 0 0 0 0 1 0). apply rigid_mk. split; [repeat split; ring|ring].
  - rewrite H. apply turns_rod9. cbn. rewrite cos_PI, sin_PI. split; [ring|repeat split; ring].
  - lra.
  - right. right. exists (1,0,0). split; [left; reflexivity|]. left. auto.
Qed.
