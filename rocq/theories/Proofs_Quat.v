(** * Lemmas for Props_Quat *)

From Coq Require Import Reals List Lra Lia Psatz Nsatz Bool Arith.
Import ListNotations.
From Verif Require Import Scalar RInst RLemmas Model_Base Model_Vec Model_Rigid Model_Almath
  Model_Helpers Spec_Geom Proofs_Geom MemTac SO3Quat Proofs_Transform Proofs_Rotation.
Local Open Scope R_scope.


(** The angle extraction common to the three conversions, on the coefficients. *)
Lemma Ratan2_unit : forall c s, c*c+s*s = 1 -> cos (Ratan2 s c) = c /\ sin (Ratan2 s c) = s.
Proof.
  intros c s h. destruct (Ratan2_cos_sin s c) as [h1 h2]; [lra|].
  rewrite h, sqrt_1 in h1, h2. lra.
Qed.

Lemma Ratan2_any : forall y x, exists r, 0 <= r /\ r*r = x*x+y*y /\
  x = r * cos (Ratan2 y x) /\ y = r * sin (Ratan2 y x).
Proof.
  intros y x. destruct (sqrt_ex (x*x+y*y)) as (r&er&hr&rr); [apply sum2sq_pos|].
  exists r. split; [exact hr|]. split; [exact rr|].
  destruct (Req_dec (x*x+y*y) 0) as [z|nz].
  - destruct (sum2sq_0 _ _ z) as [-> ->]. assert (r0 : r = 0) by nra. rewrite r0. split; ring.
  - destruct (Ratan2_cos_sin y x nz) as [h1 h2]. rewrite er in h1, h2.
    assert (r <> 0) by (intros ->; apply nz; lra).
    rewrite h1, h2. split; field; assumption.
Qed.

(** From a rotation matrix, the three angles rebuild it. *)
Lemma euler9 : forall a b c d e f g h i, so3 a b c d e f g h i ->
  let wz := Ratan2 d a in
  let wy := Ratan2 (- g) (cos wz * a + sin wz * d) in
  let wx := Ratan2 (sin wz * c - cos wz * f) (cos wz * e - sin wz * b) in
  a = cos wz * cos wy /\
  b = cos wz * sin wy * sin wx - sin wz * cos wx /\
  c = cos wz * sin wy * cos wx + sin wz * sin wx /\
  d = sin wz * cos wy /\
  e = sin wz * sin wy * sin wx + cos wz * cos wx /\
  f = sin wz * sin wy * cos wx - cos wz * sin wx /\
  g = - sin wy /\ h = cos wy * sin wx /\ i = cos wy * cos wx.
Proof.
  intros * S wz wy wx.
  destruct (Ratan2_any d a) as (r&hr&rr&ha&hd). fold wz in ha, hd.
  destruct (so3_full _ _ _ _ _ _ _ _ _ S) as [(r1&r2&r3&r4&r5&r6) (k1&k2&k3&k4&k5&k6&k7&k8&k9)].
  destruct S as [(h1&h2&h3&h4&h5&h6) h7].
  assert (Z := cs2 wz).
  assert (Ey : cos wz * a + sin wz * d = r).
  { rewrite ha at 1. rewrite hd at 1. transitivity (r*(cos wz * cos wz + sin wz * sin wz)); [ring|].
    rewrite Z. ring. }
  assert (Y : cos wy = r /\ sin wy = - g).
  { subst wy. rewrite Ey. apply Ratan2_unit. lra. }
  destruct Y as [cy sy].
  assert (X : cos wx = cos wz * e - sin wz * b /\ sin wx = sin wz * c - cos wz * f).
  { apply Ratan2_unit. clear cy sy Ey wy wx. revert Z ha hd.
    generalize (cos wz) (sin wz). intros C D Z ha hd. nsatz. }
  destruct X as [cx sx].
  rewrite cy, sy, cx, sx. clear cy sy cx sx wy wx Ey. revert Z ha hd.
  generalize (cos wz) (sin wz). intros C D Z ha hd.
  repeat split; try lra; nsatz.
Qed.

Lemma t_from3D_mk : forall x y z : R, t_from3DRotation x y z =
  mkTransform (cos z * cos y) (cos z * sin y * sin x - sin z * cos x) (cos z * sin y * cos x + sin z * sin x) 0
              (sin z * cos y) (sin z * sin y * sin x + cos z * cos x) (sin z * sin y * cos x - cos z * sin x) 0
              (- sin y) (cos y * sin x) (cos y * cos x) 0.
Proof.
  intros. rewrite t_from3DRotation_eq. unfold t_fromRotX, t_fromRotY, t_fromRotZ. cbv zeta.
  rewrite !t_mul_mk. rec_eq; cbn; ring.
Qed.

Lemma m_from3D_mk : forall x y z : R, m_from3DRotation x y z =
  mkRotation (cos z * cos y) (cos z * sin y * sin x - sin z * cos x) (cos z * sin y * cos x + sin z * sin x)
              (sin z * cos y) (sin z * sin y * sin x + cos z * cos x) (sin z * sin y * cos x - cos z * sin x)
              (- sin y) (cos y * sin x) (cos y * cos x).
Proof.
  intros. rewrite m_from3DRotation_eq. unfold m_fromRotX, m_fromRotY, m_fromRotZ. cbv zeta.
  rewrite !m_mul_mk. rec_eq; cbn; ring.
Qed.

Lemma C11_transform_round_trip_proof : forall t : Transform R, rigid t ->
  transformFromPosition6D (position6DFromTransform t) = t /\
  transformFromRotation3D (rotation3DFromTransform t) = transformFromRotation (rotationFromTransform t).
Proof.
  intros [a b c x d e f y g h i z] H. apply rigid_mk in H.
  pose proof (euler9 _ _ _ _ _ _ _ _ _ H) as E. cbv zeta in E.
  destruct E as (e1&e2&e3&e4&e5&e6&e7&e8&e9).
  split.
  - unfold transformFromPosition6D, position6DFromTransform, t_fromPosition6. cbv zeta. cbn [p6_x p6_y p6_z p6_wx p6_wy p6_wz t_r1c1 t_r1c2 t_r1c3 t_r1c4 t_r2c1 t_r2c2 t_r2c3 t_r2c4 t_r3c1 t_r3c2 t_r3c3 t_r3c4].
    rewrite t_from3D_mk. cbn [s_atan2 s_sin s_cos s_add s_sub s_mul s_neg RScalar].
    cbv [set_t_r1c4 set_t_r2c4 set_t_r3c4 t_r1c1 t_r1c2 t_r1c3 t_r1c4 t_r2c1 t_r2c2 t_r2c3 t_r2c4 t_r3c1 t_r3c2 t_r3c3 t_r3c4].
    symmetry. rec_eq; first [reflexivity | assumption].
  - unfold transformFromRotation3D, rotation3DFromTransform, transformFromRotation, rotationFromTransform,
      transformFromRotationInPlace. cbv zeta.
    cbn [e3_wx e3_wy e3_wz t_r1c1 t_r1c2 t_r1c3 t_r1c4 t_r2c1 t_r2c2 t_r2c3 t_r2c4 t_r3c1 t_r3c2 t_r3c3 t_r3c4
         m_r1c1 m_r1c2 m_r1c3 m_r2c1 m_r2c2 m_r2c3 m_r3c1 m_r3c2 m_r3c3].
    rewrite t_from3D_mk. cbn [s_atan2 s_sin s_cos s_add s_sub s_mul s_neg RScalar].
    symmetry. rec_eq; first [reflexivity | assumption].
Qed.


Lemma C11_rotation_round_trip_proof :
  (forall r : Rotation R, is_rot r ->
   m_from3DRotation (e3_wx (rotation3DFromRotation r)) (e3_wy (rotation3DFromRotation r))
                    (e3_wz (rotation3DFromRotation r)) = r) /\
  (forall q : Quaternion R, unitq q ->
   m_from3DRotation (e3_wx (rotation3DFromQuaternion q)) (e3_wy (rotation3DFromQuaternion q))
                    (e3_wz (rotation3DFromQuaternion q)) = rotationFromQuaternion q).
Proof.
  assert (A : forall r : Rotation R, is_rot r ->
   m_from3DRotation (e3_wx (rotation3DFromRotation r)) (e3_wy (rotation3DFromRotation r))
                    (e3_wz (rotation3DFromRotation r)) = r).
  { intros [a b c d e f g h i] H. apply is_rot_mk in H.
    pose proof (euler9 _ _ _ _ _ _ _ _ _ H) as E. cbv zeta in E.
    destruct E as (e1&e2&e3&e4&e5&e6&e7&e8&e9).
    unfold rotation3DFromRotation. cbv zeta.
    cbn [e3_wx e3_wy e3_wz m_r1c1 m_r1c2 m_r1c3 m_r2c1 m_r2c2 m_r2c3 m_r3c1 m_r3c2 m_r3c3].
    rewrite m_from3D_mk. cbn [s_atan2 s_sin s_cos s_add s_sub s_mul s_neg RScalar].
    symmetry. rec_eq; first [reflexivity | assumption]. }
  split; [exact A|].
  intros q hq. apply (A (rotationFromQuaternion q)).
  apply C05_constructors_from_quaternion_proof. exact hq.
Qed.


Lemma Ratan2_pos_range : forall y x, 0 <= x -> - (PI/2) <= Ratan2 y x <= PI/2.
Proof.
  intros y x h. generalize (atan_bound (y/x)). generalize PI_RGT_0. intros hp hb.
  unfold Ratan2. destruct (Rlt_dec 0 x); [lra|]. destruct (Rlt_dec x 0); [lra|].
  destruct (Rlt_dec 0 y); [lra|]. destruct (Rlt_dec y 0); lra.
Qed.

Lemma C11_angles_range_proof : forall t : Transform R,
  let r := rotation3DFromTransform t in
  -PI < e3_wx r <= PI /\ -(PI/2) <= e3_wy r <= PI/2 /\ -PI < e3_wz r <= PI.
Proof.
  intros [a b c x d e f y g h i z]. cbn -[PI Ratan2 cos sin].
  split; [apply Ratan2_range|]. split; [|apply Ratan2_range].
  apply Ratan2_pos_range.
  destruct (Ratan2_any d a) as (r&hr&rr&ha&hd).
  assert (Z := cs2 (Ratan2 d a)). revert ha hd Z. generalize (cos (Ratan2 d a)) (sin (Ratan2 d a)).
  intros C S -> -> Z. replace (C * (r*C) + S * (r*S)) with (r*(C*C+S*S)) by ring. rewrite Z. lra.
Qed.


Lemma C11_angles_recovered_proof : forall x y z wx wy wz : R,
  -PI < wx <= PI -> -(PI/2) < wy < PI/2 -> -PI < wz <= PI ->
  rotation3DFromTransform (transformFromRotation3D (mkRotation3D wx wy wz)) = mkRotation3D wx wy wz /\
  position6DFromTransform (transformFromPosition6D (mkPosition6D x y z wx wy wz))
  = mkPosition6D x y z wx wy wz.
Proof.
  intros x y z wx wy wz hx hy hz.
  assert (cp : 0 < cos wy) by (apply cos_gt_0; lra).
  assert (Ez : Ratan2 (sin wz * cos wy) (cos wz * cos wy) = wz).
  { rewrite (Rmult_comm (sin wz)), (Rmult_comm (cos wz)). apply Ratan2_polar; assumption. }
  assert (Ey : Ratan2 (- - sin wy) (cos wz * (cos wz * cos wy) + sin wz * (sin wz * cos wy)) = wy).
  { replace (- - sin wy) with (sin wy) by ring.
    replace (cos wz * (cos wz * cos wy) + sin wz * (sin wz * cos wy)) with (cos wy).
    - apply Ratan2_cs. generalize PI_RGT_0; lra.
    - generalize (cs2 wz); intro h. transitivity ((cos wz * cos wz + sin wz * sin wz) * cos wy); [|ring].
      rewrite h; ring. }
  assert (Ex : Ratan2 (sin wz * (cos wz * sin wy * cos wx + sin wz * sin wx) - cos wz * (sin wz * sin wy * cos wx - cos wz * sin wx))
                 (cos wz * (sin wz * sin wy * sin wx + cos wz * cos wx) - sin wz * (cos wz * sin wy * sin wx - sin wz * cos wx)) = wx).
  { assert (h := cs2 wz).
    match goal with |- Ratan2 ?A ?B = _ => replace A with (sin wx); [replace B with (cos wx)|] end.
    - apply Ratan2_cs; assumption.
    - transitivity ((cos wz * cos wz + sin wz * sin wz) * cos wx); [rewrite h; ring | ring].
    - transitivity ((cos wz * cos wz + sin wz * sin wz) * sin wx); [rewrite h; ring | ring]. }
  split.
  - unfold transformFromRotation3D. rewrite t_from3D_mk.
    cbv [rotation3DFromTransform]. cbn -[Ratan2 cos sin]. rewrite Ez, Ey, Ex. reflexivity.
  - unfold transformFromPosition6D, t_fromPosition6. cbn [e3_wx e3_wy e3_wz p6_x p6_y p6_z p6_wx p6_wy p6_wz].
    rewrite t_from3D_mk. cbv [position6DFromTransform].
    cbn -[Ratan2 cos sin]. rewrite Ez, Ey, Ex. reflexivity.
Qed.



Lemma C11_quaternion_from_angles_proof : forall wx wy wz : R,
  let q := quaternionFromRotation3D (mkRotation3D wx wy wz) in
  unitq q /\ rotationFromQuaternion q = m_from3DRotation wx wy wz.
Proof.
  intros wx wy wz q. rewrite m_from3D_mk. subst q.
  assert (D : forall a, cos a = cos (1/2*a) * cos (1/2*a) - sin (1/2*a) * sin (1/2*a) /\
                        sin a = 2 * sin (1/2*a) * cos (1/2*a)).
  { intro a. split.
    - replace a with (2*(1/2*a)) at 1 by field. rewrite cos_2a. ring.
    - replace a with (2*(1/2*a)) at 1 by field. rewrite sin_2a. ring. }
  destruct (D wx) as [c1 s1]. destruct (D wy) as [c2 s2]. destruct (D wz) as [c3 s3].
  rewrite c1, s1, c2, s2, c3, s3. clear c1 s1 c2 s2 c3 s3.
  generalize (cs2 (1/2*wx)) (cs2 (1/2*wy)) (cs2 (1/2*wz)).
  unr.
  generalize (cos (1/2*wx)) (sin (1/2*wx)) (cos (1/2*wy)) (sin (1/2*wy)) (cos (1/2*wz)) (sin (1/2*wz)).
  intros a b c d e f h1 h2 h3. split.
  - nsatz.
  - rec_eq; nsatz.
Qed.



Lemma C12_quaternion_monoid_proof : forall a b c : Quaternion R,
  q_mul (q_mul a b) c = q_mul a (q_mul b c) /\ q_mul q_id a = a /\ q_mul a q_id = a.
Proof. intros. drec. repeat split; unr; rec_eq; ring. Qed.


Lemma C12_norm_multiplicative_proof : forall a b : Quaternion R,
  q_norm a = sqrt (qnorm2 a) /\ q_norm (q_mul a b) = q_norm a * q_norm b.
Proof.
  intros a b. split; [reflexivity|]. destruct a as [w x y z], b as [w' x' y' z'].
  unr. rewrite <- sqrt_mult by apply sum4sq_pos. f_equal. ring.
Qed.


Lemma C12_inverse_proof : forall (a : Quaternion R),
  (unitq a -> q_mul a (q_inverse a) = q_id /\ q_mul (q_inverse a) a = q_id) /\
  q_mul a (q_inverse a) = mkQuaternion (qnorm2 a) 0 0 0 /\
  (forall (m : mem (Quaternion R)) i o,
     q_inverseOut m i o o = q_inverse (m i) /\ (forall x, x <> o -> q_inverseOut m i o x = m x)).
Proof.
  intros a. split; [|split].
  - intro h. drec. unr in h. split; unr; rec_eq; nsatz.
  - drec. unr. rec_eq; ring.
  - intros m i o. split.
    + unfold q_inverseOut, q_inverse, mseq. cbv beta iota zeta. unfold mupd.
      destruct (Nat.eqb_spec i o) as [->|n].
      * rewrite !Nat.eqb_refl. cbn. reflexivity.
      * apply Nat.eqb_neq in n. rewrite !Nat.eqb_refl, ?n. cbn. reflexivity.
    + intros x hx. unfold q_inverseOut, mseq. rewrite !mupd_other by exact hx. reflexivity.
Qed.


Lemma C12_normalize_proof : forall a : Quaternion R,
  (q_normalize a = Throw <-> a = mkQuaternion 0 0 0 0) /\
  (a <> mkQuaternion 0 0 0 0 ->
   exists k, 0 < k /\ q_normalize a = Ok (q_scale a k) /\ unitq (q_scale a k)).
Proof.
  intros [w x y z].
  assert (N0 : sqrt (w*w+x*x+y*y+z*z) = 0 <-> mkQuaternion w x y z = mkQuaternion 0 0 0 0).
  { rewrite sqrt_eq_0_iff by apply sum4sq_pos. split.
    - intro h. assert (w*w = 0 /\ x*x = 0 /\ y*y = 0 /\ z*z = 0) as (a1&a2&a3&a4).
      { generalize (Rle_0_sqr w) (Rle_0_sqr x) (Rle_0_sqr y) (Rle_0_sqr z). unfold Rsqr. intros. repeat split; lra. }
      apply Rsqr_0_uniq in a1, a2, a3, a4. congruence.
    - intro h. injection h; intros -> -> -> ->. ring. }
  unfold q_normalize, q_div, q_norm, s_pow2. cbn.
  destruct (Reqb_spec (sqrt (w*w+x*x+y*y+z*z)) 0) as [e|n].
  - split; [tauto|]. intro h. exfalso. tauto.
  - split; [split; [discriminate|tauto]|]. intros _.
    destruct (sqrt_ex (w*w+x*x+y*y+z*z)) as (s&es&hs&ss); [apply sum4sq_pos|]. rewrite es in *.
    exists (1/s). split; [|split; [reflexivity|]].
    + apply Rdiv_lt_0_compat; lra.
    + unfold unitq, qnorm2, q_scale. cbn.
      transitivity ((w*w+x*x+y*y+z*z)/(s*s)); [field; lra|]. rewrite <- ss. field. lra.
Qed.




Lemma C13_homomorphism_proof : forall p q : Quaternion R, unitq p -> unitq q ->
  rotationFromQuaternion (q_mul p q) = m_mul (rotationFromQuaternion p) (rotationFromQuaternion q) /\
  transformFromQuaternion (q_mul p q) = t_mul (transformFromQuaternion p) (transformFromQuaternion q) /\
  rotationFromQuaternion (q_inverse q) = m_transpose (rotationFromQuaternion q) /\
  rotationFromQuaternion (qneg q) = rotationFromQuaternion q /\
  m_fromQuaternion4 (q_w q) (q_x q) (q_y q) (q_z q) = rotationFromQuaternion q /\
  transformFromQuaternion q = transformFromRotation (rotationFromQuaternion q) /\
  rotationFromQuaternion (@q_id R _) = m_id.
Proof.
  intros [a b c d] [w x y z] hp hq. unr in hp. unr in hq.
  split; [|split; [|split; [|split; [|split; [|split]]]]].
  - unfold rotationFromQuaternion, q_mul, s_pow2. cbn [q_w q_x q_y q_z]. rewrite m_mul_mk. cbn. rec_eq; nsatz.
  - unfold transformFromQuaternion, q_mul, s_pow2. cbn [q_w q_x q_y q_z]. rewrite t_mul_mk. cbn. rec_eq; nsatz.
  - unr. rec_eq; ring.
  - unr. rec_eq; ring.
  - unr. rec_eq; ring.
  - unr. rec_eq; ring.
  - unr. rec_eq; ring.
Qed.


Lemma C13_apply_proof : forall (q : Quaternion R) (p : Position3D R), unitq q ->
  q_apply q p = m_mul_p3 (rotationFromQuaternion q) p.
Proof.
  intros [w x y z] [] h. unr in h. unr. rec_eq; nsatz.
Qed.


Lemma sqrt_pos_lt' : forall x, 0 < x -> 0 < sqrt x.
Proof. exact sqrt_lt_R0. Qed.

Lemma sqrt_sq_abs : forall x, sqrt (x*x) = Rabs x.
Proof. intro x. exact (sqrt_Rsqr_abs x). Qed.

Lemma Rabs_cases : forall x, (0 <= x /\ Rabs x = x) \/ (x < 0 /\ Rabs x = - x).
Proof. intro x. unfold Rabs. destruct (Rcase_abs x); [right|left]; split; lra. Qed.

(** The end of quaternionFromTransform: the axis vector is [k (x,y,z)] with [k w >= 0]. *)
Lemma qft_end : forall w x y z k tr,
  w*w+x*x+y*y+z*z = 1 -> tr = 4*(w*w) ->
  (k = 0 -> x*x+y*y+z*z = 0) -> (0 <= k*w) ->
  forall P : Quaternion R -> Prop,
  (forall w' x' y' z', w'*w'+x'*x'+y'*y'+z'*z' = 1 -> 0 <= w' ->
     (w' = w /\ x' = x /\ y' = y /\ z' = z) \/ (w' = -w /\ x' = -x /\ y' = -y /\ z' = -z) ->
     P (mkQuaternion w' x' y' z')) ->
  P (if Reqb (sqrt (k*x*(k*x) + k*y*(k*y) + k*z*(k*z))) 0 then mkQuaternion 1 0 0 0
     else
       let tr' := if Rltb tr 0 then 0 else tr in
       let qs := 1/2 * sqrt tr' in
       let s := sqrt (1 - qs*qs) / sqrt (k*x*(k*x) + k*y*(k*y) + k*z*(k*z)) in
       mkQuaternion qs (s*(k*x)) (s*(k*y)) (s*(k*z))).
Proof.
  intros w x y z k tr hu htr hk hkw P HP.
  set (n2 := x*x+y*y+z*z) in *.
  assert (n2p : 0 <= n2) by apply sum3sq_pos.
  assert (En : sqrt (k*x*(k*x) + k*y*(k*y) + k*z*(k*z)) = Rabs k * sqrt n2).
  { replace (k*x*(k*x) + k*y*(k*y) + k*z*(k*z)) with ((k*k)*n2) by (subst n2; ring).
    rewrite sqrt_mult; [|exact (Rle_0_sqr k)|exact n2p]. rewrite sqrt_sq_abs. reflexivity. }
  rewrite En.
  destruct (Req_dec n2 0) as [z0|nz].
  - (* the identity *)
    rewrite z0, sqrt_0, Rmult_0_r. rewrite Reqb_true by reflexivity.
    destruct (sum3sq_0 x y z z0) as (->&->&->).
    apply HP; [ring|lra|].
    assert (w = 1 \/ w = -1) as [->| ->].
    { assert (E : (w-1)*(w+1) = 0) by nra. apply Rmult_integral in E. lra. }
    + left. lra.
    + right. lra.
  - assert (np : 0 < n2) by lra.
    assert (sp := sqrt_lt_R0 _ np).
    assert (kn : k <> 0) by (intro h; apply nz, hk, h).
    assert (ap := Rabs_pos_lt _ kn).
    rewrite Reqb_false by nra.
    cbv zeta.
    assert (0 <= w*w) by exact (Rle_0_sqr w).
    rewrite (Rltb_false tr 0) by lra.
    rewrite htr.
    replace (4*(w*w)) with ((2*w)*(2*w)) by ring. rewrite sqrt_sq_abs.
    assert (E1 : 1/2 * Rabs (2*w) = Rabs w).
    { rewrite Rabs_mult. rewrite (Rabs_right 2) by lra. field. }
    rewrite E1.
    assert (E2 : Rabs w * Rabs w = w*w).
    { destruct (Rabs_cases w) as [[_ ->]|[_ ->]]; ring. }
    rewrite E2.
    replace (1 - w*w) with n2 by (subst n2; lra).
    assert (E3 : sqrt n2 / (Rabs k * sqrt n2) = / Rabs k) by (field; split; lra).
    rewrite E3.
    assert (E4 : forall t, / Rabs k * (k*t) = t \/ / Rabs k * (k*t) = -t).
    { intro t. destruct (Rabs_cases k) as [[_ ->]|[_ ->]]; [left|right]; field; lra. }
    destruct (Rabs_cases k) as [[k0 ke]|[k0 ke]].
    + assert (w0 : 0 <= w) by nra.
      rewrite (Rabs_right w) by lra. rewrite ke.
      assert (E5 : forall t, / k * (k*t) = t) by (intro t; field; lra). rewrite !E5.
      apply HP; [lra|lra|]. left. lra.
    + assert (w0 : w <= 0) by nra.
      rewrite (Rabs_left1 w) by lra. rewrite ke.
      assert (E5 : forall t, / -k * (k*t) = -t) by (intro t; field; lra). rewrite !E5.
      apply HP; [|lra|].
      * subst n2. lra.
      * right. lra.
Qed.

(** quaternionFromTransform of the matrix of a unit quaternion. *)
Lemma qft_quat : forall w x y z a b c d e f g h i px py pz,
  w*w+x*x+y*y+z*z = 1 -> quat9 w x y z a b c d e f g h i ->
  forall P : Quaternion R -> Prop,
  (forall w' x' y' z', w'*w'+x'*x'+y'*y'+z'*z' = 1 -> 0 <= w' ->
     (w' = w /\ x' = x /\ y' = y /\ z' = z) \/ (w' = -w /\ x' = -x /\ y' = -y /\ z' = -z) ->
     P (mkQuaternion w' x' y' z')) ->
  P (quaternionFromTransform (mkTransform a b c px d e f py g h i pz)).
Proof.
  intros * hu (->&->&->&->&->&->&->&->&->) P HP.
  unfold quaternionFromTransform, q_id, s_pow2. cbn [t_r1c1 t_r1c2 t_r1c3 t_r1c4 t_r2c1 t_r2c2 t_r2c3 t_r2c4 t_r3c1 t_r3c2 t_r3c3 t_r3c4 s_add s_sub s_mul s_div s_sqrt s_leb s_ltb s_eqb s_ofZ s_frac RScalar].
  set (A := 1 - 2*(y*y+z*z)). set (B := 1-2*(x*x+z*z)). set (C := 1-2*(x*x+y*y)).
  assert (TR : A + B + C + 1 = 4*(w*w)) by (subst A B C; lra).
  assert (Kx : 2*(y*z+x*w) - 2*(y*z-x*w) = 4*w*x) by ring.
  assert (Ky : 2*(x*z+y*w) - 2*(x*z-y*w) = 4*w*y) by ring.
  assert (Kz : 2*(x*y+z*w) - 2*(x*y-z*w) = 4*w*z) by ring.
  assert (Sxy : 2*(x*y+z*w) + 2*(x*y-z*w) = 4*x*y) by ring.
  assert (Sxz : 2*(x*z-y*w) + 2*(x*z+y*w) = 4*x*z) by ring.
  assert (Syz : 2*(y*z+x*w) + 2*(y*z-x*w) = 4*y*z) by ring.
  assert (Dx : A - B - C + 1 = 4*x*x) by (subst A B C; ring).
  assert (Dy : B - A - C + 1 = 4*y*y) by (subst A B C; ring).
  assert (Dz : C - A - B + 1 = 4*z*z) by (subst A B C; ring).
  rewrite Kx, Ky, Kz, Sxy, Sxz, Syz, Dx, Dy, Dz, TR.
  assert (FIN : forall k X Y Z, X = k*x -> Y = k*y -> Z = k*z ->
     (k = 0 -> x*x+y*y+z*z = 0) -> 0 <= k*w ->
     P (if Reqb (sqrt (X*X+Y*Y+Z*Z)) 0 then mkQuaternion 1 0 0 0 else
        let trace := if Rltb (4*(w*w)) 0 then 0 else 4*(w*w) in
        let qs := 1/2 * sqrt trace in
        let s := sqrt (1 - qs*qs) / sqrt (X*X+Y*Y+Z*Z) in
        mkQuaternion qs (s*X) (s*Y) (s*Z))).
  { intros k X Y Z -> -> -> hk hw. apply (qft_end w x y z k); auto. }
  destruct (Rleb_spec B A) as [l1|l1]; [destruct (Rleb_spec C A) as [l2|l2]|]; cbn [andb].
  - destruct (Rleb_spec 0 (4*w*x)) as [l3|l3].
    + apply (FIN (4*(w+x))); try ring; [|nra].
      intro h. assert (w = 0 /\ x = 0) as [-> ->] by (split; nra). subst A B C. nra.
    + apply (FIN (4*(w-x))); try ring; [|nra].
      intro h. exfalso. assert (w = x) by lra. subst x. nra.
  - destruct (Rleb_spec C B) as [l4|l4]; [lra|].
    destruct (Rleb_spec 0 (4*w*z)) as [l3|l3].
    + apply (FIN (4*(w+z))); try ring; [|nra].
      intro h. assert (w = 0 /\ z = 0) as [-> ->] by (split; nra). subst A B C. nra.
    + apply (FIN (4*(w-z))); try ring; [|nra].
      intro h. exfalso. assert (w = z) by lra. subst z. nra.
  - destruct (Rleb_spec C B) as [l4|l4].
    + destruct (Rleb_spec 0 (4*w*y)) as [l3|l3].
      * apply (FIN (4*(w+y))); try ring; [|nra].
        intro h. assert (w = 0 /\ y = 0) as [-> ->] by (split; nra). subst A B C. nra.
      * apply (FIN (4*(w-y))); try ring; [|nra].
        intro h. exfalso. assert (w = y) by lra. subst y. nra.
    + destruct (Rleb_spec 0 (4*w*z)) as [l3|l3].
      * apply (FIN (4*(w+z))); try ring; [|nra].
        intro h. assert (w = 0 /\ z = 0) as [-> ->] by (split; nra). subst A B C. nra.
      * apply (FIN (4*(w-z))); try ring; [|nra].
        intro h. exfalso. assert (w = z) by lra. subst z. nra.
Qed.

Lemma C13_quaternion_from_transform_proof : forall t : Transform R, rigid t ->
  let q := quaternionFromTransform t in
  unitq q /\ 0 <= q_w q /\ rotationFromQuaternion q = rotationFromTransform t.
Proof.
  intros [a b c px d e f py g h i pz] H. apply rigid_mk in H.
  destruct (so3_quat_exists _ _ _ _ _ _ _ _ _ H) as (w&x&y&z&hu&hq).
  apply (qft_quat w x y z a b c d e f g h i px py pz hu hq
    (fun q => unitq q /\ 0 <= q_w q /\ rotationFromQuaternion q = _)).
  intros w' x' y' z' hu' hw' hc.
  split; [exact hu'|]. split; [exact hw'|].
  destruct hq as (->&->&->&->&->&->&->&->&->).
  unr. destruct hc as [(->&->&->&->)|(->&->&->&->)]; rec_eq; ring.
Qed.


Lemma C13_quaternion_recovered_proof : forall q : Quaternion R, unitq q ->
  quaternionFromTransform (transformFromQuaternion q) = q \/
  quaternionFromTransform (transformFromQuaternion q) = qneg q.
Proof.
  intros [w x y z] hu. unr in hu.
  refine (qft_quat w x y z _ _ _ _ _ _ _ _ _ _ _ _ hu _ (fun p => p = _ \/ p = _) _).
  - repeat split.
  - intros w' x' y' z' _ _ [(->&->&->&->)|(->&->&->&->)]; [left|right]; reflexivity.
Qed.


Lemma C13_quaternion_double_cover_proof : forall p q : Quaternion R, unitq p -> unitq q ->
  rotationFromQuaternion p = rotationFromQuaternion q -> p = q \/ p = qneg q.
Proof.
  intros p q hp hq e.
  assert (E : transformFromQuaternion p = transformFromQuaternion q).
  { rewrite (proj1 (proj2 (proj2 (proj2 (proj2 (proj2 (C13_homomorphism_proof p p hp hp))))))).
    rewrite (proj1 (proj2 (proj2 (proj2 (proj2 (proj2 (C13_homomorphism_proof q q hq hq))))))).
    rewrite e. reflexivity. }
  assert (NN : forall a, qneg (qneg a) = a) by (intros []; unr; rec_eq; ring).
  generalize (C13_quaternion_recovered_proof p hp) (C13_quaternion_recovered_proof q hq). rewrite E.
  intros [h1|h1] [h2|h2]; rewrite h1 in h2.
  - left; exact h2.
  - right; exact h2.
  - right. rewrite <- h2, NN. reflexivity.
  - left. rewrite <- (NN p), h2, NN. reflexivity.
Qed.




Lemma C14_from_angle_axis_proof : forall a x y z : R, x*x+y*y+z*z = 1 ->
  exists q, q_fromAngleAndAxis a x y z = Ok q /\ unitq q /\
  (forall p, p3v (q_apply q p) = rodrigues a (x, y, z) (p3v p)) /\
  (forall p, p3v (m_mul_p3 (rotationFromQuaternion q) p) = rodrigues a (x, y, z) (p3v p)).
Proof.
  intros a x y z h.
  assert (C : cos a = cos (1/2*a) * cos (1/2*a) - sin (1/2*a) * sin (1/2*a)).
  { replace a with (2*(1/2*a)) at 1 by field. rewrite cos_2a. reflexivity. }
  assert (D : sin a = 2 * sin (1/2*a) * cos (1/2*a)).
  { replace a with (2*(1/2*a)) at 1 by field. rewrite sin_2a. reflexivity. }
  assert (E := cs2 (1/2*a)).
  set (q := mkQuaternion (cos (1/2*a)) (x * sin (1/2*a)) (y * sin (1/2*a)) (z * sin (1/2*a))).
  assert (U : unitq q).
  { unfold unitq, qnorm2, q. cbn -[cos sin]. revert E. generalize (cos (1/2*a)) (sin (1/2*a)). intros. nsatz. }
  assert (A : forall p, p3v (q_apply q p) = rodrigues a (x, y, z) (p3v p)).
  { intros [px py pz]. unfold q. unr. rewrite C, D. revert E.
    generalize (cos (1/2*a)) (sin (1/2*a)). intros c s E. pair_eq; nsatz. }
  exists q. split; [|split; [exact U|split; [exact A|]]].
  - unfold q_fromAngleAndAxis. cbv zeta.
    change (rbind (q_normalize q) (fun _ => Ok q) = Ok q).
    destruct (C12_normalize_proof q) as [_ N]. destruct N as (k&_&e&_).
    { intro e. rewrite e in U. unfold unitq, qnorm2 in U. cbn in U. lra. }
    rewrite e. reflexivity.
  - intros p. rewrite <- C13_apply_proof by exact U. apply A.
Qed.



Lemma C14_non_unit_axis_refuted_proof : exists q, q_fromAngleAndAxis PI 2 0 0 = Ok q /\
  ~ unitq q /\ ~ is_rot (rotationFromQuaternion q).
Proof.
  set (q := mkQuaternion (cos (1/2*PI)) (2 * sin (1/2*PI)) (0 * sin (1/2*PI)) (0 * sin (1/2*PI))).
  assert (Eq : q = mkQuaternion 0 2 0 0).
  { unfold q. replace (1/2*PI) with (PI/2) by field. rewrite cos_PI2, sin_PI2. rec_eq; ring. }
  exists q. split; [|split].
  - unfold q_fromAngleAndAxis. cbv zeta.
    change (rbind (q_normalize q) (fun _ => Ok q) = Ok q).
    destruct (C12_normalize_proof q) as [_ N]. destruct N as (k&_&e&_).
    { rewrite Eq. intro h. injection h. lra. }
    rewrite e. reflexivity.
  - rewrite Eq. unfold unitq, qnorm2. cbn. lra.
  - rewrite Eq. unfold rotationFromQuaternion, s_pow2. cbn. intro h. apply is_rot_mk in h.
    destruct h as [(h1&h2&_) _]. lra.
Qed.


Lemma C14_from_angle_axis_any_proof : forall a x y z : R,
  let q := mkQuaternion (cos (a/2)) (x * sin (a/2)) (y * sin (a/2)) (z * sin (a/2)) in
  (q <> mkQuaternion 0 0 0 0 -> q_fromAngleAndAxis a x y z = Ok q) /\
  (q = mkQuaternion 0 0 0 0 -> q_fromAngleAndAxis a x y z = Throw).
Proof.
  intros a x y z q. unfold q_fromAngleAndAxis. cbv zeta.
  replace (s_mul (s_frac 1 2) a) with (a/2) by (cbn; field).
  change (s_cos (a/2)) with (cos (a/2)). change (s_sin (a/2)) with (sin (a/2)).
  change ((q <> mkQuaternion 0 0 0 0 -> rbind (q_normalize q) (fun _ => Ok q) = Ok q) /\
          (q = mkQuaternion 0 0 0 0 -> rbind (q_normalize q) (fun _ => Ok q) = Throw)).
  destruct (C12_normalize_proof q) as [H N]. split; intro h.
  - destruct (N h) as (k&_&e&_). rewrite e. reflexivity.
  - apply H in h. rewrite h. reflexivity.
Qed.


Lemma acos_cos_half : forall a, 0 <= a <= 2*PI -> 2 * acos (cos (1/2*a)) = a.
Proof. intros a h. rewrite acos_cos by lra. field. Qed.

(** angleAndAxis of a unit quaternion, the two branches that matter. *)
Lemma q_normalize_unit : forall q : Quaternion R, unitq q -> exists p, q_normalize q = Ok p.
Proof.
  intros q U. destruct (C12_normalize_proof q) as [_ N]. destruct N as (k&_&e&_); eauto.
  intro e. rewrite e in U. unfold unitq, qnorm2 in U. cbn in U. lra.
Qed.

Lemma C14_angle_axis_recovered_proof : forall a x y z : R,
  x*x+y*y+z*z = 1 -> 0 <= a <= 2*PI -> 5/10000 <= sin (a/2) ->
  exists q, q_fromAngleAndAxis a x y z = Ok q /\ q_angleAndAxis q = Ok (a, x, y, z).
Proof.
  intros a x y z h ha hs.
  destruct (C14_from_angle_axis_proof a x y z h) as (q&eq&U&_).
  exists q. split; [exact eq|].
  destruct (C14_from_angle_axis_any_proof a x y z) as [A B]. cbv zeta in A, B.
  set (q0 := mkQuaternion (cos (a/2)) (x * sin (a/2)) (y * sin (a/2)) (z * sin (a/2))) in *.
  assert (Q : q = q0).
  { destruct (Req_EM_T (qnorm2 q0) 0) as [e|n].
    - exfalso. unfold qnorm2, q0 in e. cbn in e.
      assert (cos (a/2) * cos (a/2) + sin (a/2) * sin (a/2) * (x*x+y*y+z*z) = 0) by (rewrite <- e; ring).
      rewrite h in H. generalize (cs2 (a/2)). lra.
    - rewrite A in eq; [congruence|]. intro e. rewrite e in n. apply n. unfold qnorm2. cbn. ring. }
  subst q.
  destruct (q_normalize_unit q0 U) as (p&ep).
  unfold q_angleAndAxis. rewrite ep. cbn [rbind]. unfold s_pow2. subst q0. cbn -[cos sin PI acos].
  assert (E : sqrt (1 - cos (a/2) * cos (a/2)) = sin (a/2)).
  { apply sqrt_unique'; [lra|]. generalize (cs2 (a/2)). lra. }
  rewrite E. rewrite (Rabs_right (sin (a/2))) by lra.
  rewrite (Rltb_false (sin (a/2))) by lra.
  assert (D : forall t, t * sin (a/2) / sin (a/2) = t) by (intro t; field; lra).
  rewrite !D, h, sqrt_1. rewrite Rltb_false by lra.
  replace (a/2) with (1/2*a) by field. rewrite acos_cos_half by lra. reflexivity.
Qed.



Lemma C14_quaternion_recovered_proof : forall q : Quaternion R, unitq q ->
  5/10000 <= sqrt (q_x q * q_x q + q_y q * q_y q + q_z q * q_z q) ->
  exists a x y z, q_angleAndAxis q = Ok (a, x, y, z) /\ x*x+y*y+z*z = 1 /\ 0 <= a <= 2*PI /\
  q_fromAngleAndAxis a x y z = Ok q.
Proof.
  intros [w x y z] U h. cbn in h. assert (U' := U). unfold unitq, qnorm2 in U'. cbn in U'.
  destruct (sqrt_ex (x*x+y*y+z*z)) as (s&es&hs&ss); [apply sum3sq_pos|]. rewrite es in h.
  assert (es' : sqrt (1 - w*w) = s).
  { apply sqrt_unique'; lra. }
  assert (hw : -1 <= w <= 1).
  { split; nra. }
  exists (2 * acos w), (x/s), (y/s), (z/s).
  assert (UN : x/s*(x/s)+y/s*(y/s)+z/s*(z/s) = 1) by (apply unit_quot; lra).
  split; [|split; [exact UN|split]].
  - destruct (q_normalize_unit _ U) as (p&ep). unfold q_angleAndAxis. rewrite ep. cbn [rbind].
    unfold s_pow2. cbn -[acos]. rewrite es'. rewrite (Rabs_right s) by lra.
    rewrite (Rltb_false s) by lra. rewrite UN, sqrt_1. rewrite Rltb_false by lra. reflexivity.
  - generalize (acos_bound w). lra.
  - destruct (C14_from_angle_axis_any_proof (2 * acos w) (x/s) (y/s) (z/s)) as [A _].
    cbv zeta in A. replace (2 * acos w / 2) with (acos w) in A by field.
    rewrite cos_acos in A by lra. rewrite sin_acos in A by lra.
    change (w²) with (w*w) in A. rewrite es' in A.
    assert (D : forall t, t / s * s = t) by (intro t; field; lra). rewrite !D in A.
    rewrite A; [reflexivity|]. intro e. injection e. intros. subst. lra.
Qed.


Lemma C14_small_angle_axis_refuted_proof : exists q : Quaternion R, unitq q /\
  exists a, q_angleAndAxis q = Ok (a, 3/10000, 0, 0).
Proof.
  set (w := sqrt (1 - (3/10000)*(3/10000))).
  assert (hw : w*w = 1 - (3/10000)*(3/10000)) by (apply sqrt_sqrt; lra).
  exists (mkQuaternion w (3/10000) 0 0).
  assert (U : unitq (mkQuaternion w (3/10000) 0 0)).
  { unfold unitq, qnorm2. cbn. lra. }
  split; [exact U|]. exists (2 * acos w).
  destruct (q_normalize_unit _ U) as (p&ep). unfold q_angleAndAxis. rewrite ep. cbn [rbind].
  unfold s_pow2. cbn -[acos].
  assert (E : sqrt (1 - w*w) = 3/10000) by (apply sqrt_unique'; lra).
  rewrite E. rewrite (Rabs_right (3/10000)) by lra. rewrite (Rltb_true (3/10000) (5/10000)) by lra.
  replace (3/10000/1) with (3/10000) by field. replace (0/1) with 0 by field.
  replace (3/10000*(3/10000)+0*0+0*0) with (3/10000*(3/10000)) by ring.
  rewrite sqrt_square by lra. rewrite Rltb_false by lra. reflexivity.
Qed.


Lemma quat_eq_dec0 : forall q : Quaternion R, q = mkQuaternion 0 0 0 0 \/ q <> mkQuaternion 0 0 0 0.
Proof.
  intros [w x y z]. destruct (Req_dec (w*w+x*x+y*y+z*z) 0) as [e|e].
  - left. assert (w = 0) by nra. assert (x = 0) by nra. assert (y = 0) by nra. assert (z = 0) by nra. subst. reflexivity.
  - right. intro k. injection k. intros. subst. apply e. ring.
Qed.

Lemma C14_from_angle_axis_exact_proof : forall a x y z : R,
  ((exists q, q_fromAngleAndAxis a x y z = Ok q /\ unitq q) <-> (x*x+y*y+z*z = 1 \/ sin (a/2) = 0)) /\
  (forall q, q_fromAngleAndAxis a x y z = Ok q -> unitq q ->
   forall p, p3v (q_apply q p) = rodrigues a (x, y, z) (p3v p)).
Proof.
  intros a x y z. destruct (C14_from_angle_axis_any_proof a x y z) as [A B]. cbv zeta in A, B.
  set (q0 := mkQuaternion (cos (a/2)) (x * sin (a/2)) (y * sin (a/2)) (z * sin (a/2))) in *.
  assert (Z := cs2 (a/2)).
  assert (U : unitq q0 <-> (x*x+y*y+z*z = 1 \/ sin (a/2) = 0)).
  { unfold unitq, qnorm2, q0. cbn [q_w q_x q_y q_z s_add s_mul RScalar]. split.
    - intro h. destruct (Req_dec (sin (a/2)) 0) as [|n]; [tauto|left].
      assert (e : sin (a/2) * sin (a/2) * (x*x+y*y+z*z - 1) = 0) by lra.
      apply Rmult_integral in e. destruct e as [e|e]; [|lra]. apply Rmult_integral in e. tauto.
    - intros [h|h]; [|rewrite h in *; lra].
      transitivity (cos (a/2)*cos (a/2) + sin (a/2)*sin (a/2)*(x*x+y*y+z*z)); [ring|]. rewrite h. lra. }
  assert (N : unitq q0 -> q0 <> mkQuaternion 0 0 0 0).
  { intros h e. rewrite e in h. unfold unitq, qnorm2 in h. cbn in h. lra. }
  assert (E : forall q, q_fromAngleAndAxis a x y z = Ok q -> q = q0).
  { intros q h. destruct (quat_eq_dec0 q0) as [e|e]; [rewrite (B e) in h; discriminate|].
    rewrite (A e) in h. congruence. }
  split.
  - rewrite <- U. split.
    + intros (q&h&hq). rewrite <- (E q h). exact hq.
    + intro h. exists q0. split; [apply A, N, h|exact h].
  - intros q h hq. rewrite (E q h) in *. apply U in hq. destruct hq as [hq|hq].
    + destruct (C14_from_angle_axis_proof a x y z hq) as (q'&h'&_&F&_). rewrite <- (E q' h'). exact F.
    + intros [px py pz].
      assert (C : cos a = cos (a/2) * cos (a/2) - sin (a/2) * sin (a/2)).
      { replace a with (2*(a/2)) at 1 by field. rewrite cos_2a. reflexivity. }
      assert (D : sin a = 2 * sin (a/2) * cos (a/2)).
      { replace a with (2*(a/2)) at 1 by field. rewrite sin_2a. reflexivity. }
      rewrite hq in *. unfold q0. unr. rewrite C, D. revert Z. generalize (cos (a/2)). intros c Z. pair_eq; nsatz.
Qed.


Lemma C14_angle_axis_all_proof : forall q : Quaternion R, unitq q ->
  let s := sqrt (q_x q * q_x q + q_y q * q_y q + q_z q * q_z q) in
  let a := 2 * acos (q_w q) in
  (5/10000 <= s -> q_angleAndAxis q = Ok (a, q_x q/s, q_y q/s, q_z q/s)) /\
  (1/10000 <= s < 5/10000 -> q_angleAndAxis q = Ok (a, q_x q, q_y q, q_z q)) /\
  (s < 1/10000 -> q_angleAndAxis q = Ok (a, 1, 0, 0)).
Proof.
  intros [w x y z] U s a. cbn [q_w q_x q_y q_z] in *. assert (U' := U). unfold unitq, qnorm2 in U'. cbn in U'.
  destruct (sqrt_ex (x*x+y*y+z*z)) as (n&es&hs&ss); [apply sum3sq_pos|]. subst s. rewrite es.
  assert (es' : sqrt (1 - w*w) = n) by (apply sqrt_unique'; lra).
  destruct (q_normalize_unit _ U) as (p&ep). unfold q_angleAndAxis. rewrite ep. cbn [rbind].
  unfold s_pow2. cbn -[acos]. rewrite es'. rewrite (Rabs_right n) by lra. fold a.
  repeat split; intro h.
  - rewrite (Rltb_false n) by lra. rewrite unit_quot by lra. rewrite sqrt_1, Rltb_false by lra. reflexivity.
  - rewrite (Rltb_true n) by lra. replace (x/1) with x by field. replace (y/1) with y by field. replace (z/1) with z by field.
    rewrite es, Rltb_false by lra. reflexivity.
  - rewrite (Rltb_true n) by lra. replace (x/1) with x by field. replace (y/1) with y by field. replace (z/1) with z by field.
    rewrite es, Rltb_true by lra. reflexivity.
Qed.


Lemma C14_angle_axis_exact_proof : forall a x y z : R,
  x*x+y*y+z*z = 1 -> 0 <= a <= 2*PI ->
  exists q, q_fromAngleAndAxis a x y z = Ok q /\
  (q_angleAndAxis q = Ok (a, x, y, z) <->
   (5/10000 <= sin (a/2) \/ (sin (a/2) < 1/10000 /\ x = 1))).
Proof.
  intros a x y z h ha.
  destruct (C14_from_angle_axis_proof a x y z h) as (q&eq&U&_). exists q. split; [exact eq|].
  assert (P := PI_RGT_0). assert (s0 : 0 <= sin (a/2)) by (apply sin_ge_0; lra).
  assert (Q : q = mkQuaternion (cos (a/2)) (x * sin (a/2)) (y * sin (a/2)) (z * sin (a/2))).
  { destruct (C14_from_angle_axis_any_proof a x y z) as [A B]. cbv zeta in A, B.
    destruct (quat_eq_dec0 (mkQuaternion (cos (a/2)) (x * sin (a/2)) (y * sin (a/2)) (z * sin (a/2)))) as [e|e];
      [rewrite (B e) in eq; discriminate|]. rewrite (A e) in eq. congruence. }
  destruct (C14_angle_axis_all_proof q U) as (A1&A2&A3). rewrite Q in A1, A2, A3. cbn [q_w q_x q_y q_z] in A1, A2, A3.
  rewrite <- Q in A1, A2, A3.
  replace (sqrt _) with (sin (a/2)) in A1, A2, A3.
  2:{ symmetry. apply sqrt_unique'; [exact s0|]. transitivity (sin (a/2)*sin (a/2)*(x*x+y*y+z*z)); [rewrite h; ring|ring]. }
  assert (AC : 2 * acos (cos (a/2)) = a) by (replace (a/2) with (1/2*a) by field; apply acos_cos_half; exact ha).
  rewrite AC in A1, A2, A3. set (s := sin (a/2)) in *.
  destruct (Rle_lt_dec (5/10000) s) as [b|b].
  { split; [tauto|]. intros _. rewrite A1 by lra.
    assert (D : forall t, t * s / s = t) by (intro t; field; lra). rewrite !D. reflexivity. }
  destruct (Rle_lt_dec (1/10000) s) as [c|c].
  - rewrite A2 by lra. split; [|intros [k|[k _]]; lra]. intro E. exfalso. injection E as e1 e2 e3.
    assert (K : forall t, t * s = t -> t = 0) by (intros t k; assert (k2 : (s-1)*t = 0) by lra; apply Rmult_integral in k2; lra).
    rewrite (K x e1), (K y e2), (K z e3) in h. lra.
  - rewrite A3 by lra. split.
    + intro E. injection E as e1 e2 e3. right. split; [exact c|congruence].
    + intros [k|[_ k]]; [lra|]. subst x. assert (y*y+z*z = 0) by lra. assert (y = 0) by nra. assert (z = 0) by nra. subst. reflexivity.
Qed.


Lemma C14_quaternion_exact_proof : forall q : Quaternion R, unitq q ->
  let s := sqrt (q_x q * q_x q + q_y q * q_y q + q_z q * q_z q) in
  exists a x y z, q_angleAndAxis q = Ok (a, x, y, z) /\ 0 <= a <= 2*PI /\
  (q_fromAngleAndAxis a x y z = Ok q <->
   (5/10000 <= s \/ (s < 1/10000 /\ q_y q = 0 /\ q_z q = 0 /\ 0 <= q_x q))).
Proof.
  intros q U s. destruct (C14_angle_axis_all_proof q U) as (A1&A2&A3). cbv zeta in A1, A2, A3. fold s in A1, A2, A3.
  assert (s0 : 0 <= s) by apply sqrt_pos.
  assert (ss : s*s = q_x q * q_x q + q_y q * q_y q + q_z q * q_z q) by (apply sqrt_sqrt; apply sum3sq_pos).
  destruct (Rle_lt_dec (5/10000) s) as [b|b].
  { destruct (C14_quaternion_recovered_proof q U b) as (a&x&y&z&e1&_&e2&e3).
    exists a, x, y, z. split; [exact e1|]. split; [exact e2|]. tauto. }
  clearbody s. destruct q as [w x y z]. cbn [q_w q_x q_y q_z] in *. assert (U' := U). unfold unitq, qnorm2 in U'. cbn in U'.
  assert (hw : -1 <= w <= 1) by (split; nra).
  assert (SW : sin (acos w) = s).
  { rewrite sin_acos by lra. change (w²) with (w*w). apply sqrt_unique'; lra. }
  assert (F : forall x' y' z', q_fromAngleAndAxis (2 * acos w) x' y' z' = Ok (mkQuaternion w x y z) <-> (x' * s = x /\ y' * s = y /\ z' * s = z)).
  { intros x' y' z'. destruct (C14_from_angle_axis_any_proof (2*acos w) x' y' z') as [A B]. cbv zeta in A, B.
    replace (2 * acos w / 2) with (acos w) in A, B by field. rewrite cos_acos in A, B by lra. rewrite SW in A, B.
    assert (w0 : w <> 0) by (intro k; subst w; nra).
    rewrite A; [|intro e; injection e; intros; contradiction]. split.
    - intro e. injection e as e1 e2 e3. auto.
    - intros (<-&<-&<-). reflexivity. }
  assert (AB : 0 <= 2 * acos w <= 2*PI) by (generalize (acos_bound w); lra).
  destruct (Rle_lt_dec (1/10000) s) as [c|c].
  - exists (2*acos w), x, y, z. split; [apply A2; lra|]. split; [exact AB|]. rewrite F.
    split; [|intros [k|[k _]]; lra]. intros (e1&e2&e3). exfalso.
    assert (K : forall t, t * s = t -> t = 0) by (intros t k; assert (k2 : (s-1)*t = 0) by lra; apply Rmult_integral in k2; lra).
    rewrite (K x e1), (K y e2), (K z e3) in ss. nra.
  - exists (2*acos w), 1, 0, 0. split; [apply A3; lra|]. split; [exact AB|]. rewrite F. split.
    + intros (e1&e2&e3). right. repeat split; lra.
    + intros [k|(_&->&->&k)]; [lra|]. assert (s = x) by (apply (Rsqr_inj s x s0 k); unfold Rsqr; lra). repeat split; lra.
Qed.



Lemma C15_throws_iff_proof : forall a x y z : R,
  m_fromAngleDirection a x y z = Throw <->
  (x*x+y*y+z*z < 99999/100000 \/ 100001/100000 < x*x+y*y+z*z).
Proof.
  intros. unfold m_fromAngleDirection. cbn [s_add s_mul s_ltb s_frac RScalar].
  destruct (Rltb_spec (100001/100000) (x*x+y*y+z*z)); [tauto|].
  destruct (Rltb_spec (x*x+y*y+z*z) (99999/100000)); [tauto|].
  cbn [orb]. split; [discriminate|]. intros [h|h]; lra.
Qed.


Lemma C15_rodrigues_proof : forall a b x y z : R, x*x+y*y+z*z = 1 ->
  exists r s t, m_fromAngleDirection a x y z = Ok r /\ m_fromAngleDirection b x y z = Ok s /\
  m_fromAngleDirection (a+b) x y z = Ok t /\
  (forall p, p3v (m_mul_p3 r p) = rodrigues a (x,y,z) (p3v p)) /\
  m_mul_p3 r (mkPosition3D x y z) = mkPosition3D x y z /\
  m_mul r s = t.
Proof.
  intros a b x y z h.
  assert (E : forall c, m_fromAngleDirection c x y z =
    Ok (mkRotation (cos c + (1 - cos c)*(x*x)) ((1-cos c)*x*y - sin c * z) ((1-cos c)*x*z + sin c * y)
          ((1-cos c)*x*y + sin c * z) (cos c + (1 - cos c)*(y*y)) ((1-cos c)*y*z - sin c * x)
          ((1-cos c)*x*z - sin c * y) ((1-cos c)*y*z + sin c * x) (cos c + (1 - cos c)*(z*z)))).
  { intro c. unfold m_fromAngleDirection. cbn [s_add s_mul s_ltb s_frac RScalar]. rewrite h.
    rewrite !Rltb_false by lra. reflexivity. }
  do 3 eexists. split; [apply E|]. split; [apply E|]. split; [apply E|].
  split; [|split].
  - intros [px py pz]. unr. gen_cs. pair_eq; nsatz.
  - unr. gen_cs. rec_eq; nsatz.
  - rewrite m_mul_mk. rewrite cos_plus, sin_plus.
    generalize (cs2 a) (cs2 b). generalize (cos a) (sin a) (cos b) (sin b). intros ca sa cb sb ha hb.
    rec_eq; nsatz.
Qed.



Lemma C15_transformFromRotVec_proof : forall (axis : Z) (a : R) (p : Position3D R),
  let tr := transformFromPosition3D p in
  (axis = 1%Z -> exists r, m_fromAngleDirection a 1 0 0 = Ok r /\
     transformFromRotVec axis a p = t_mul tr (transformFromRotation r)) /\
  (axis = 2%Z -> exists r, m_fromAngleDirection a 0 1 0 = Ok r /\
     transformFromRotVec axis a p = t_mul tr (transformFromRotation r)) /\
  (axis = 4%Z -> exists r, m_fromAngleDirection a 0 0 1 = Ok r /\
     transformFromRotVec axis a p = t_mul tr (transformFromRotation r)) /\
  (axis <> 1%Z -> axis <> 2%Z -> axis <> 4%Z -> transformFromRotVec axis a p = tr) /\
  transformFromRotVecA axis a = transformFromRotVec axis a (mkPosition3D 0 0 0) /\
  transformFromRotVecP p = tr.
Proof.
  intros axis a [x y z] tr.
  assert (E : forall u v w, u*u+v*v+w*w = 1 -> exists r, m_fromAngleDirection a u v w = Ok r /\
    r = mkRotation (cos a + (1 - cos a)*(u*u)) ((1-cos a)*u*v - sin a * w) ((1-cos a)*u*w + sin a * v)
          ((1-cos a)*u*v + sin a * w) (cos a + (1 - cos a)*(v*v)) ((1-cos a)*v*w - sin a * u)
          ((1-cos a)*u*w - sin a * v) ((1-cos a)*v*w + sin a * u) (cos a + (1 - cos a)*(w*w))).
  { intros u v w h. eexists. split; [|reflexivity].
    unfold m_fromAngleDirection. cbn [s_add s_mul s_ltb s_frac RScalar]. rewrite h.
    rewrite !Rltb_false by lra. reflexivity. }
  split; [|split; [|split; [|split; [|split]]]].
  - intros ->. destruct (E 1 0 0) as (r&er&->); [ring|]. eexists; split; [exact er|].
    unr. rec_eq; ring.
  - intros ->. destruct (E 0 1 0) as (r&er&->); [ring|]. eexists; split; [exact er|].
    unr. rec_eq; ring.
  - intros ->. destruct (E 0 0 1) as (r&er&->); [ring|]. eexists; split; [exact er|].
    unr. rec_eq; ring.
  - intros h1 h2 h3. unfold transformFromRotVec.
    apply Z.eqb_neq in h1, h2, h3. rewrite h1, h2, h3. reflexivity.
  - reflexivity.
  - unfold transformFromRotVecP. reflexivity.
Qed.



Lemma C20_displacement_homomorphism_proof : forall a b : Displacement R, unitq (d_Q a) -> unitq (d_Q b) ->
  transformFromDisplacement (d_mul a b) = t_mul (transformFromDisplacement a) (transformFromDisplacement b) /\
  unitq (d_Q (d_mul a b)) /\
  transformFromDisplacement (@d_default R _) = t_id.
Proof.
  intros [[px py pz] [w x y z]] [[px' py' pz'] [w' x' y' z']] ha hb.
  unr in ha. unr in hb. split; [|split].
  - unfold transformFromDisplacement.
    match goal with |- _ = t_mul ?A ?B =>
      let A' := eval cbv -[Rplus Rminus Rmult Ropp IZR] in A in
      let B' := eval cbv -[Rplus Rminus Rmult Ropp IZR] in B in
      change (t_mul A B) with (t_mul A' B') end.
    rewrite t_mul_mk. unr. rec_eq; nsatz.
  - unr. nsatz.
  - unr. rec_eq; ring.
Qed.


Lemma C20_displacement_round_trip_proof : forall t : Transform R, rigid t ->
  transformFromDisplacement (displacementFromTransform t) = t /\ unitq (d_Q (displacementFromTransform t)).
Proof.
  intros t h. destruct (C13_quaternion_from_transform_proof t h) as (U&_&E).
  split; [|exact U].
  unfold transformFromDisplacement, displacementFromTransform. cbn [d_P d_Q].
  rewrite (proj1 (proj2 (proj2 (proj2 (proj2 (proj2 (C13_homomorphism_proof _ _ U U))))))).
  rewrite E. destruct t. reflexivity.
Qed.


Lemma C20_displacement_algebra_proof : forall a b c : Displacement R,
  (unitq (d_Q a) -> d_P (displacementFromTransform (transformFromDisplacement a)) = d_P a /\
     (d_Q (displacementFromTransform (transformFromDisplacement a)) = d_Q a \/
      d_Q (displacementFromTransform (transformFromDisplacement a)) = qneg (d_Q a))) /\
  d_mul (d_mul a b) c = d_mul a (d_mul b c) /\
  d_mul d_default a = a /\ d_mul a d_default = a.
Proof.
  intros a b c. split; [|split; [|split]].
  - intro h. destruct a as [[px py pz] q]. cbn in h. split; [reflexivity|].
    unfold displacementFromTransform. cbn [d_Q].
    replace (quaternionFromTransform (transformFromDisplacement (mkDisplacement (mkPosition3D px py pz) q)))
      with (quaternionFromTransform (transformFromQuaternion q)).
    + apply C13_quaternion_recovered_proof. exact h.
    + destruct q. reflexivity.
  - drec. unr. rec_eq; rec_eq; ring.
  - drec. unr. rec_eq; rec_eq; ring.
  - drec. unr. rec_eq; rec_eq; ring.
Qed.
