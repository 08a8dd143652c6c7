(** * Properties C16, C17: exponential, logarithm and interpolation *)
From Coq Require Import Reals List Lra Lia Psatz Nsatz Bool Arith.
Import ListNotations.
From Verif Require Import Scalar RInst RLemmas Model_Base Model_Vec Model_Rigid Model_Almath
  Model_Helpers Spec_Geom Proofs_Geom MemTac SO3Quat Proofs_Transform Proofs_Rotation Proofs_Quat.
Local Open Scope R_scope.
From Verif Require Proofs_ExpLog.

(** ** C16 *)

(** C16: for every velocity whose angular part has norm at least 1/1000, the exponential
    is a rigid transform: the rotation of angle |w| about w, with the translation p of
    the helical motion, which is determined by w x p = M v - v and w . p = w . v. *)
Theorem C16_exponential : forall v : Velocity6D R, 1/1000 <= vnorm (vang v) ->
  let t := velocityExponential v in
  rigid t /\
  turns_about (tmat t) (vnorm (vang v)) (vscale (1 / vnorm (vang v)) (vang v)) /\
  vcross (vang v) (tpos t) = vsub (mapply (tmat t) (vlin v)) (vlin v) /\
  vdot (vang v) (tpos t) = vdot (vang v) (vlin v).
Proof. exact @Proofs_ExpLog.C16_exponential_proof. Qed.
Print Assumptions C16_exponential.

(** C16: the exponentials of the multiples of a velocity compose by adding the factors (as
    long as the three angles are above the threshold). *)
Theorem C16_exponential_one_parameter : forall (v : Velocity6D R) (k l : R),
  0 < k -> 0 < l -> 1/1000 <= k * vnorm (vang v) -> 1/1000 <= l * vnorm (vang v) ->
  t_mul (velocityExponential (v6_lscale k v)) (velocityExponential (v6_lscale l v))
  = velocityExponential (v6_lscale (k+l) v).
Proof. exact @Proofs_ExpLog.C16_exponential_one_parameter_proof. Qed.
Print Assumptions C16_exponential_one_parameter.

(** C16: on pure translations the exponential and the logarithm are exact. *)
Theorem C16_translations : forall x y z : R,
  velocityExponential (mkVelocity6D x y z 0 0 0) = transformFromPosition3D (mkPosition3D x y z) /\
  transformLogarithm (transformFromPosition3D (mkPosition3D x y z)) = mkVelocity6D x y z 0 0 0.
Proof. exact @Proofs_ExpLog.C16_translations_proof. Qed.
Print Assumptions C16_translations.

(** C16: regular domain. For a transform turning by an angle [th] in [0, pi] about a unit
    vector, with sin th >= 1/1000: the logarithm has angular part th * axis, whatever its
    output variable held before, and the exponential of the logarithm is the transform. *)
Theorem C16_exp_log_regular : forall (t : Transform R) (th : R) (u : vec3) (w0 : R * R * R),
  turns_about (tmat t) th u -> 0 <= th <= PI -> 1/1000 <= sin th ->
  let l := transformLogarithmInPlace t w0 in
  vang l = vscale th u /\ velocityExponential l = t /\ transformLogarithm t = l.
Proof. exact @Proofs_ExpLog.C16_exp_log_regular_proof. Qed.
Print Assumptions C16_exp_log_regular.

(** C16: conversely a velocity with angular norm [n] < pi, sin n >= 1/1000, is recovered
    by the logarithm from its exponential. *)
Theorem C16_log_exp_regular : forall v : Velocity6D R,
  vnorm (vang v) <= PI -> 1/1000 <= sin (vnorm (vang v)) ->
  transformLogarithm (velocityExponential v) = v.
Proof. exact @Proofs_ExpLog.C16_log_exp_regular_proof. Qed.
Print Assumptions C16_log_exp_regular.

Example ex_C16_regular : turns_about (tmat (mkTransform 0 (-1) 0 1 1 0 0 2 0 0 1 3)) (PI/2) (0,0,1) /\
  0 <= PI/2 <= PI /\ 1/1000 <= sin (PI/2).
Proof.
  split; [|rewrite sin_PI2; generalize PI_RGT_0; lra].
  apply Proofs_ExpLog.turns_rod9. rewrite cos_PI2, sin_PI2. split; [ring|]. repeat split; cbn; ring.
Qed.

(** C16: half turns about the three coordinate axes are inverted exactly. *)
Theorem C16_exp_log_half_turns : forall x y z : R,
  (let t := mkTransform 1 0 0 x 0 (-1) 0 y 0 0 (-1) z in
   velocityExponential (transformLogarithm t) = t /\ vang (transformLogarithm t) = (PI, 0, 0)) /\
  (let t := mkTransform (-1) 0 0 x 0 1 0 y 0 0 (-1) z in
   velocityExponential (transformLogarithm t) = t /\ vang (transformLogarithm t) = (0, PI, 0)) /\
  (let t := mkTransform (-1) 0 0 x 0 (-1) 0 y 0 0 1 z in
   velocityExponential (transformLogarithm t) = t /\ vang (transformLogarithm t) = (0, 0, PI)).
Proof. exact @Proofs_ExpLog.C16_exp_log_half_turns_proof. Qed.
Print Assumptions C16_exp_log_half_turns.

(** C16, violated: the half turn about the axis (3/5, 4/5, 0) has a null logarithm, so the
    exponential of its logarithm is the identity; and transformLogarithmInPlace leaves in
    place whatever angular velocity its output variable held. *)
Theorem C16_half_turn_refuted :
  let t := mkTransform (-7/25) (24/25) 0 0 (24/25) (7/25) 0 0 0 0 (-1) 0 in
  turns_about (tmat t) PI (3/5, 4/5, 0) /\
  transformLogarithm t = mkVelocity6D 0 0 0 0 0 0 /\
  velocityExponential (transformLogarithm t) = t_id /\ t <> t_id /\
  (forall w, vang (transformLogarithmInPlace t w) = w).
Proof. exact @Proofs_ExpLog.C16_half_turn_refuted_proof. Qed.
Print Assumptions C16_half_turn_refuted.

(** C16, violated near the identity: a rotation about z by the angle whose sine is 1/2000
    has a logarithm of half that angle. *)
Theorem C16_small_angle_refuted : exists th : R, sin th = 1/2000 /\ 0 < th /\
  let t := t_fromRotZ th in
  transformLogarithm t = mkVelocity6D 0 0 0 0 0 (th/2) /\ velocityExponential (transformLogarithm t) <> t.
Proof. exact @Proofs_ExpLog.C16_small_angle_refuted_proof. Qed.
Print Assumptions C16_small_angle_refuted.

(** C16: for every velocity, the exponential passes isTransform's test with a tolerance
    of 1e-12 (its default tolerance is 1e-4). *)
Theorem C16_exponential_near_rotation : forall v : Velocity6D R,
  near_rotation (tmat (velocityExponential v)) (1/1000000000000) /\
  t_isTransform (velocityExponential v) (1/10000) = true.
Proof. exact @Proofs_ExpLog.C16_exponential_near_rotation_proof. Qed.
Print Assumptions C16_exponential_near_rotation.

(** ** C17 *)

(** C17: transformMean throws exactly when the weight is outside [0,1]. *)
Theorem C17_throws_iff : forall (a b : Transform R) (d : R),
  transformMean a b d = Throw <-> d < 0 \/ 1 < d.
Proof. exact @Proofs_ExpLog.C17_throws_iff_proof. Qed.
Print Assumptions C17_throws_iff.

(** C17: the interpolation starts at its first argument, for all transforms. *)
Theorem C17_start : forall a b : Transform R, transformMean a b 0 = Ok a.
Proof. exact @Proofs_ExpLog.C17_start_proof. Qed.
Print Assumptions C17_start.

(** C17: and ends at the second one, when the relative rotation angle has a sine of at
    least 1/1000 or when there is no relative rotation. *)
Theorem C17_end_regular : forall a b : Transform R, rigid a ->
  ((exists th u, turns_about (tmat (t_mul (t_inverse a) b)) th u /\ 0 <= th <= PI /\ 1/1000 <= sin th) \/
   rotationFromTransform a = rotationFromTransform b) ->
  transformMean a b 1 = Ok b.
Proof. exact @Proofs_ExpLog.C17_end_regular_proof. Qed.
Print Assumptions C17_end_regular.

(** C17: when the interpolated angle is null or at least 1/1000 the interpolated transform
    is rigid. *)
Theorem C17_rigid_regular : forall (a b r : Transform R) (d : R), rigid a ->
  let n := d * vnorm (vang (transformLogarithm (t_mul (t_inverse a) b))) in
  n = 0 \/ 1/1000 <= n ->
  transformMean a b d = Ok r -> rigid r.
Proof. exact @Proofs_ExpLog.C17_rigid_regular_proof. Qed.
Print Assumptions C17_rigid_regular.

(** C17, violated: between the identity and the half turn about (3/5, 4/5, 0) the
    interpolation ends where it starts. *)
Theorem C17_half_turn_refuted :
  let b := mkTransform (-7/25) (24/25) 0 0 (24/25) (7/25) 0 0 0 0 (-1) 0 in
  rigid b /\ transformMean t_id b 1 = Ok t_id /\ b <> t_id.
Proof. exact @Proofs_ExpLog.C17_half_turn_refuted_proof. Qed.
Print Assumptions C17_half_turn_refuted.

(** C17: transformMeanInPlace writes only its output; the output may be its second
    argument. *)
Theorem C17_in_place : forall (m m' : mem (Transform R)) (i1 i2 o : nat) (d : R),
  transformMeanInPlace m i1 i2 d o = Ok m' -> o <> i1 ->
  transformMean (m i1) (m i2) d = Ok (m' o) /\ (forall x, x <> o -> m' x = m x).
Proof. exact @Proofs_ExpLog.C17_in_place_proof. Qed.
Print Assumptions C17_in_place.

(** C17, violated: with the output aliased to the first argument the start is lost:
    weight 0 returns the identity. *)
Theorem C17_in_place_aliased_refuted : exists (m m' : mem (Transform R)),
  transformMeanInPlace m 0 1 0 0 = Ok m' /\ rigid (m 0%nat) /\ rigid (m 1%nat) /\
  m' 0%nat = t_id /\ m 0%nat <> t_id.
Proof. exact @Proofs_ExpLog.C17_in_place_aliased_refuted_proof. Qed.
Print Assumptions C17_in_place_aliased_refuted.

Example ex_C17_end : exists th u,
  turns_about (tmat (t_mul (t_inverse (mkTransform 1 0 0 5 0 1 0 0 0 0 1 0)) (mkTransform 0 (-1) 0 1 1 0 0 2 0 0 1 3))) th u
  /\ 0 <= th <= PI /\ 1/1000 <= sin th.
Proof.
  exists (PI/2), (0,0,1). split; [|rewrite sin_PI2; generalize PI_RGT_0; lra].
  apply Proofs_ExpLog.turns_rod9. rewrite cos_PI2, sin_PI2. split; [ring|]. unr. repeat split; ring.
Qed.
