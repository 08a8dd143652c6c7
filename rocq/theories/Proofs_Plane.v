(** * Lemmas for Props_Plane *)

From Coq Require Import Reals List Lra Lia Psatz Nsatz Bool Arith.
Import ListNotations.
From Verif Require Import Scalar RInst RLemmas Model_Base Model_Vec Model_Rigid Model_Almath
  Model_Helpers Spec_Geom Proofs_Geom MemTac Proofs_Transform Proofs_Rotation Proofs_Quat.
Local Open Scope R_scope.


Lemma C18_pose_monoid_proof : forall a b c : Pose2D R,
  pose_mul (pose_mul a b) c = pose_mul a (pose_mul b c) /\
  pose_mul (mkPose2D 0 0 0) a = a /\ pose_mul a (mkPose2D 0 0 0) = a.
Proof.
  intros [ax ay at_] [bx by_ bt] [cx cy ct]. split; [|split].
  - unr. rewrite cos_plus, sin_plus. rec_eq; ring.
  - unr. rewrite cos_0, sin_0. rec_eq; ring.
  - unr. rec_eq; ring.
Qed.


Lemma C18_pose_inverse_proof : forall a : Pose2D R,
  pose_mul a (pose_inverse a) = mkPose2D 0 0 0 /\ pose_mul (pose_inverse a) a = mkPose2D 0 0 0 /\
  pose_pinv a = pose_inverse a /\ pose_invertInPlace a = pose_inverse a /\
  (forall (m : mem (Pose2D R)) i o, m i = a ->
     pose_inverseOut m i o o = pose_inverse a /\ forall x, x <> o -> pose_inverseOut m i o x = m x).
Proof.
  intros a.
  assert (E : pose_inverse a = pose_invertInPlace a).
  { unfold pose_inverse, pose_inverseOut, mseq. rewrite mupd_same, mupd_same. reflexivity. }
  split; [|split; [|split; [|split]]].
  - rewrite E. destruct a as [x y t]. unr. rewrite cos_neg, sin_neg. generalize (cs2 t).
    generalize (cos t) (sin t). intros c s h. rec_eq; nsatz.
  - rewrite E. destruct a as [x y t]. unr. rewrite cos_neg, sin_neg. rec_eq; ring.
  - rewrite E. reflexivity.
  - rewrite E. reflexivity.
  - intros m i o h. unfold pose_inverseOut, mseq. split.
    + rewrite !mupd_same, h. exact (eq_sym E).
    + intros x hx. rewrite !mupd_other by exact hx. reflexivity.
Qed.


Lemma C18_pose_diff_proof : forall a b x : Pose2D R,
  pose_mul a (pose_diff a b) = b /\ (pose_mul a x = b -> x = pose_diff a b).
Proof.
  intros a b x.
  assert (E : pose_diff a b = pose_mul (pose_inverse a) b).
  { unfold pose_diff, pose_mulIn, pose_inverse, pose_inverseOut, mseq. cbv zeta.
    destruct a, b. unr. rec_eq; ring. }
  destruct (C18_pose_inverse_proof a) as (i1&i2&_).
  split.
  - rewrite E, <- (proj1 (C18_pose_monoid_proof _ _ _)), i1. apply (C18_pose_monoid_proof b b b).
  - intros <-. rewrite E, <- (proj1 (C18_pose_monoid_proof _ _ _)), i2. symmetry.
    apply (C18_pose_monoid_proof x x x).
Qed.


Lemma C18_pose_action_proof : forall (a b : Pose2D R) (p : Position2D R),
  pose_mul_p2 (pose_mul a b) p = pose_mul_p2 a (pose_mul_p2 b p) /\
  pose_mul_p2 (pose_inverse a) (pose_mul_p2 a p) = p /\
  pose_mul_p2 a p = mkPosition2D
    (pose_x a + cos (pose_theta a) * p2_x p - sin (pose_theta a) * p2_y p)
    (pose_y a + sin (pose_theta a) * p2_x p + cos (pose_theta a) * p2_y p).
Proof.
  assert (A : forall (a b : Pose2D R) (p : Position2D R),
    pose_mul_p2 (pose_mul a b) p = pose_mul_p2 a (pose_mul_p2 b p)).
  { intros [ax ay at_] [bx by_ bt] [x y]. unr. rewrite cos_plus, sin_plus. rec_eq; ring. }
  intros a b p. split; [apply A|]. split; [|reflexivity].
  rewrite <- A. destruct (C18_pose_inverse_proof a) as (i1&i2&_). rewrite i2.
  destruct p. unr. rewrite cos_0, sin_0. rec_eq; ring.
Qed.




Lemma tfp_mk : forall x y t : R, transformFromPose2D (mkPose2D x y t) =
  mkTransform (cos t) (- sin t) 0 x (sin t) (cos t) 0 y 0 0 1 0.
Proof.
  intros. unfold transformFromPose2D. rewrite t_mulAssign_eq. cbn [pose_x pose_y pose_theta].
  unfold t_ofXYZ, t_fromRotZ. cbv zeta. rewrite t_mul_mk. cbn. rec_eq; ring.
Qed.

Lemma C19_homomorphism_proof : forall a b : Pose2D R,
  transformFromPose2D (pose_mul a b) = t_mul (transformFromPose2D a) (transformFromPose2D b) /\
  transformFromPose2D (mkPose2D 0 0 0) = t_id /\
  transformFromPose2D (pose_inverse a) = t_inverse (transformFromPose2D a) /\
  rigid (transformFromPose2D a) /\
  meq (tmat (transformFromPose2D a)) (RZ (pose_theta a)) /\
  tpos (transformFromPose2D a) = (pose_x a, pose_y a, 0).
Proof.
  intros [ax ay at_] [bx by_ bt]. split; [|split; [|split; [|split; [|split]]]].
  - unfold pose_mul. cbn [pose_x pose_y pose_theta]. rewrite !tfp_mk, t_mul_mk.
    cbn [s_add s_sub s_mul s_cos s_sin RScalar]. rewrite cos_plus, sin_plus. rec_eq; ring.
  - rewrite tfp_mk, cos_0, sin_0. unr. rec_eq; ring.
  - replace (pose_inverse (mkPose2D ax ay at_)) with (pose_invertInPlace (mkPose2D ax ay at_))
      by apply (C18_pose_inverse_proof (mkPose2D ax ay at_)).
    unfold pose_invertInPlace. cbv zeta. cbn [pose_x pose_y pose_theta]. rewrite !tfp_mk, t_inverse_mk.
    cbn [s_add s_sub s_mul s_neg s_cos s_sin RScalar]. rewrite cos_neg, sin_neg. rec_eq; ring.
  - rewrite tfp_mk. apply rigid_mk. generalize (cs2 at_). generalize (cos at_) (sin at_). intros c s h.
    repeat split; nsatz.
  - rewrite tfp_mk, tmat_mk. intros i j _ _. reflexivity.
  - rewrite tfp_mk. reflexivity.
Qed.


Lemma C19_pose_recovered_proof : forall a : Pose2D R,
  let b := pose2DFromTransform (transformFromPose2D a) in
  (-PI < pose_theta a <= PI -> b = a) /\
  pose_x b = pose_x a /\ pose_y b = pose_y a /\ -PI < pose_theta b <= PI /\
  cos (pose_theta b) = cos (pose_theta a) /\ sin (pose_theta b) = sin (pose_theta a).
Proof.
  intros [x y t] b. subst b. rewrite tfp_mk. unfold pose2DFromTransform.
  cbn [t_r1c4 t_r2c4 t_r2c1 t_r1c1 pose_x pose_y pose_theta s_atan2 RScalar].
  split; [|split; [|split; [|split]]]; try reflexivity.
  - intro h. rewrite Ratan2_cs by exact h. reflexivity.
  - apply Ratan2_range.
  - apply Ratan2_unit. apply cs2.
Qed.


Lemma C19_action_proof : forall (a : Pose2D R) (p : Position2D R),
  t_mul_p3 (transformFromPose2D a) (mkPosition3D (p2_x p) (p2_y p) 0) =
    (let q := pose_mul_p2 a p in mkPosition3D (p2_x q) (p2_y q) 0) /\
  t_mul_p2 (transformFromPose2D a) p = (let q := pose_mul_p2 a p in mkPosition3D (p2_x q) (p2_y q) 0) /\
  transformFromPosition6D (position6DFromPose2D a) = transformFromPose2D a /\
  pose2DFromPosition6D (position6DFromPose2D a) = a.
Proof.
  intros [x y t] [px py]. rewrite tfp_mk. split; [|split; [|split]].
  - unr. rec_eq; ring.
  - unr. rec_eq; ring.
  - unfold transformFromPosition6D, position6DFromPose2D, t_fromPosition6.
    cbn [p6_x p6_y p6_z p6_wx p6_wy p6_wz pose_x pose_y pose_theta]. rewrite t_from3D_mk.
    change (s_ofZ 0 : R) with 0. rewrite cos_0, sin_0.
    cbv [set_t_r1c4 set_t_r2c4 set_t_r3c4 t_r1c1 t_r1c2 t_r1c3 t_r1c4 t_r2c1 t_r2c2 t_r2c3 t_r2c4 t_r3c1 t_r3c2 t_r3c3 t_r3c4].
    rec_eq; ring.
  - reflexivity.
Qed.
