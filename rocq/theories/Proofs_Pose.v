(** * Lemmas for Props_Pose *)

From Coq Require Import Reals List Lra Lia Psatz Nsatz Bool Arith.
Import ListNotations.
From Verif Require Import Scalar RInst RLemmas Model_Base Model_Vec Model_Rigid Model_Average Model_Pose
  Spec_Geom Spec_Average Spec_Pose SO3 SO3Quat Proofs_Geom Proofs_Quat Proofs_Average.
Local Open Scope R_scope.

(** ** The matrix of the three angles *)

Definition euler_tf (x y z : R) (p : vec3) : Transform R :=
  mkTransform (cos z * cos y) (cos z * sin y * sin x - sin z * cos x) (cos z * sin y * cos x + sin z * sin x) (vx p)
              (sin z * cos y) (sin z * sin y * sin x + cos z * cos x) (sin z * sin y * cos x - cos z * sin x) (vy p)
              (- sin y) (cos y * sin x) (cos y * cos x) (vz p).

Lemma euler_tf_mat : forall x y z p, meq (tmat (euler_tf x y z p)) (rpy_mat (x, y, z)).
Proof.
  intros x y z p i j hi hj. unfold euler_tf. rewrite tmat_mk.
  destruct i as [|[|[|i]]]; try lia; destruct j as [|[|[|j]]]; try lia;
  cbv [rpy_mat mmul sum3 RX RY RZ of_rows vx vy vz fst snd]; ring.
Qed.

Lemma half_angle : forall a, cos a = cos (1/2*a) * cos (1/2*a) - sin (1/2*a) * sin (1/2*a) /\
  sin a = 2 * (sin (1/2*a) * cos (1/2*a)) /\ cos (1/2*a) * cos (1/2*a) + sin (1/2*a) * sin (1/2*a) = 1.
Proof.
  intros a. split; [|split].
  - replace a with (2*(1/2*a)) at 1 by field. rewrite cos_2a. reflexivity.
  - replace a with (2*(1/2*a)) at 1 by field. rewrite sin_2a. ring.
  - apply cs2.
Qed.

Lemma quat_of_rpy_of : forall rpy p, quaternion_of (quat_of_rpy rpy) (euler_tf (vx rpy) (vy rpy) (vz rpy) p).
Proof.
  intros [[x y] z] p. unfold vx, vy, vz. cbn [fst snd].
  destruct (half_angle x) as (cx&sx&ux), (half_angle y) as (cy&sy&uy), (half_angle z) as (cz&sz&uz).
  assert (Z : quaternion_of (mkQuaternion (cos (1/2*z)) 0 0 (sin (1/2*z)))
                (mkTransform (cos z) (- sin z) 0 0 (sin z) (cos z) 0 0 0 0 1 0)).
  { apply quaternion_of_mk. unfold quat9_of, quat9. cbn [q_w q_x q_y q_z]. rewrite cz, sz.
    revert uz. generalize (cos (1/2*z)) (sin (1/2*z)). intros c s u. repeat split; nra. }
  assert (Y : quaternion_of (mkQuaternion (cos (1/2*y)) 0 (sin (1/2*y)) 0)
                (mkTransform (cos y) 0 (sin y) 0 0 1 0 0 (- sin y) 0 (cos y) 0)).
  { apply quaternion_of_mk. unfold quat9_of, quat9. cbn [q_w q_x q_y q_z]. rewrite cy, sy.
    revert uy. generalize (cos (1/2*y)) (sin (1/2*y)). intros c s u. repeat split; nra. }
  assert (X : quaternion_of (mkQuaternion (cos (1/2*x)) (sin (1/2*x)) 0 0)
                (mkTransform 1 0 0 0 0 (cos x) (- sin x) 0 0 (sin x) (cos x) 0)).
  { apply quaternion_of_mk. unfold quat9_of, quat9. cbn [q_w q_x q_y q_z]. rewrite cx, sx.
    revert ux. generalize (cos (1/2*x)) (sin (1/2*x)). intros c s u. repeat split; nra. }
  pose proof (quaternion_of_mul _ _ _ _ (quaternion_of_mul _ _ _ _ Z Y) X) as H.
  rewrite !t_mul_mk in H.
  replace (quat_of_rpy (x, y, z)) with
    (q_mul (q_mul (mkQuaternion (cos (1/2*z)) 0 0 (sin (1/2*z))) (mkQuaternion (cos (1/2*y)) 0 (sin (1/2*y)) 0))
       (mkQuaternion (cos (1/2*x)) (sin (1/2*x)) 0 0)).
  - eapply quaternion_of_meq; [exact H|]. unfold euler_tf. rewrite !tmat_mk.
    intros i j hi hj. destruct i as [|[|[|i]]]; try lia; destruct j as [|[|[|j]]]; try lia;
    cbv [of_rows]; ring.
  - unfold quat_of_rpy. cbv zeta. cbv [a0 a1 a2 fst snd s_frac s_mul s_cos s_sin s_ofZ RScalar].
    replace (IZR 1 / IZR (Z.pos 2)) with (1/2) by reflexivity. rewrite !Rmult_0_r, !Rmult_1_r. reflexivity.
Qed.

Lemma toTransform_mat : forall q p t, quaternion_of q t ->
  meq (tmat (eq_toTransform q p)) (tmat t).
Proof.
  intros q p t h. apply (quaternion_of_same q); [|exact h]. apply toTransform_of, h.
Qed.

Lemma toEigenTransform_eq : forall p, toEigenTransform p =
  euler_tf (vx (p_rpy p)) (vy (p_rpy p)) (vz (p_rpy p)) (p_xyz p).
Proof.
  intros p. apply transform_ext.
  - apply toTransform_mat, quat_of_rpy_of.
  - reflexivity.
Qed.

Lemma mapply_meq : forall A B v, meq A B -> mapply A v = mapply B v.
Proof.
  intros A B v h. unfold mapply. rewrite !h by lia. reflexivity.
Qed.

Lemma motion_pose : forall p v, motion (toEigenTransform p) v = pose_motion p v.
Proof.
  intros p v. rewrite toEigenTransform_eq. unfold motion, pose_motion.
  rewrite (mapply_meq _ _ v (euler_tf_mat _ _ _ _)).
  destruct p as [[[x y] z] [[r q] s]]. reflexivity.
Qed.

(** ** Angles of a matrix *)

Lemma euler_gen : forall a b c d e f g h i, so3 a b c d e f g h i ->
  forall C D r, C*C+D*D = 1 -> a = r*C -> d = r*D ->
  a = C * r /\ b = C * - g * (D * c - C * f) - D * (C * e - D * b) /\
  c = C * - g * (C * e - D * b) + D * (D * c - C * f) /\
  d = D * r /\ e = D * - g * (D * c - C * f) + C * (C * e - D * b) /\
  f = D * - g * (C * e - D * b) - C * (D * c - C * f) /\
  h = r * (D * c - C * f) /\ i = r * (C * e - D * b) /\
  (C * e - D * b)*(C * e - D * b) + (D * c - C * f)*(D * c - C * f) = 1 /\ r*r + g*g = 1.
Proof.
  intros * S C D r Z ha hd.
  destruct (so3_full _ _ _ _ _ _ _ _ _ S) as [(r1&r2&r3&r4&r5&r6) (k1&k2&k3&k4&k5&k6&k7&k8&k9)].
  destruct S as [(h1&h2&h3&h4&h5&h6) h7].
  repeat split; try lra; nsatz.
Qed.

Lemma rpy_of_matrix_eq : forall m, rigid m -> let e := rpy_of_matrix m in
  m = euler_tf (vx e) (vy e) (vz e) (tpos m).
Proof.
  intros [a b c x d e f y g h i z] rm. apply rigid_mk in rm.
  unfold rpy_of_matrix.
  cbn [t_r1c1 t_r1c2 t_r1c3 t_r2c1 t_r2c2 t_r2c3 t_r3c1 t_r3c2 t_r3c3].
  cbv [s_atan2 s_sqrt s_mul s_add s_sub s_ltb s_pi s_neg s_sin s_cos s_ofZ RScalar].
  destruct (Ratan2_any d a) as (r&hr&rr&ha&hd).
  set (w := Ratan2 d a) in *.
  pose proof (cs2 w) as Z.
  destruct (euler_gen _ _ _ _ _ _ _ _ _ rm (cos w) (sin w) r Z ha hd) as (e1&e2&e3&e4&e5&e6&e7&e8&e9&e10).
  assert (Es : sqrt (i*i+h*h) = r).
  { apply sqrt_unique'; [exact hr|]. destruct (so3_full _ _ _ _ _ _ _ _ _ rm) as [(_&_&r3&_) _]. lra. }
  rewrite Es. cbv zeta. destruct (Rltb_spec w 0) as [neg|pos].
  - rewrite neg_cos, neg_sin.
    destruct (Ratan2_unit (- r) (- g)) as [cy sy]; [lra|].
    set (wy := Ratan2 (- g) (- r)) in *.
    destruct (Ratan2_unit (- cos w * e - - sin w * b) (- sin w * c - - cos w * f)) as [cx sx]; [nra|].
    set (wx := Ratan2 _ (- cos w * e - - sin w * b)) in *.
    clearbody w wy wx. unfold euler_tf, tpos, vx, vy, vz. cbn [fst snd t_r1c4 t_r2c4 t_r3c4].
    rewrite neg_cos, neg_sin, cy, sy, cx, sx.
    rec_eq; try reflexivity; lra.
  - destruct (Ratan2_unit r (- g)) as [cy sy]; [lra|].
    set (wy := Ratan2 (- g) r) in *.
    destruct (Ratan2_unit (cos w * e - sin w * b) (sin w * c - cos w * f)) as [cx sx]; [lra|].
    set (wx := Ratan2 _ (cos w * e - sin w * b)) in *.
    clearbody w wy wx. unfold euler_tf, tpos, vx, vy, vz. cbn [fst snd t_r1c4 t_r2c4 t_r3c4].
    rewrite cy, sy, cx, sx.
    rec_eq; try reflexivity; lra.
Qed.

Lemma C50_transform_proof : forall (p : Pose R) (v : vec3),
  motion (toEigenTransform p) v = pose_motion p v /\ rigid (toEigenTransform p).
Proof.
  intros p v. split; [apply motion_pose|]. rewrite toEigenTransform_eq.
  eapply quaternion_of_rigid, quat_of_rpy_of.
Qed.


Lemma C50_angles_proof : forall m : Transform R, rigid m ->
  meq (rpy_mat (rpy_of_matrix m)) (tmat m) /\ 0 <= vz (rpy_of_matrix m) <= PI.
Proof.
  intros m rm. split.
  - pose proof (rpy_of_matrix_eq m rm) as E. cbv zeta in E. set (e := rpy_of_matrix m) in *.
    clearbody e. intros i j hi hj. rewrite E at 1.
    rewrite (euler_tf_mat _ _ _ _ i j hi hj). destruct e as [[x y] z]. reflexivity.
  - destruct m as [a b c x d e f y g h i z]. unfold rpy_of_matrix, vz.
    cbn [t_r1c1 t_r1c2 t_r1c3 t_r2c1 t_r2c2 t_r2c3 t_r3c1 t_r3c2 t_r3c3 snd].
    cbv [s_atan2 s_ltb s_pi s_add s_ofZ RScalar].
    pose proof (Ratan2_range d a). destruct (Rltb_spec (Ratan2 d a) 0); lra.
Qed.


Lemma is_zero_iff : forall v : vec3, is_zero (v : Array3d R) = true <-> v = (0,0,0).
Proof.
  intros [[x y] z]. unfold is_zero, a0, a1, a2. cbv [s_eqb s_ofZ RScalar fst snd].
  rewrite !andb_true_iff, !Reqb_iff. split.
  - intros ((->&->)&->). reflexivity.
  - intros E. inversion E. auto.
Qed.

Lemma rpy_mat_0 : forall v, mapply (rpy_mat (0,0,0)) v = v.
Proof.
  intros [[x y] z]. unfold mapply, rpy_mat, mmul, sum3, RX, RY, RZ, of_rows, vx, vy, vz.
  cbn [fst snd]. rewrite cos_0, sin_0. pair_eq; ring.
Qed.

Lemma rpy_mat_of : forall q t rpy, quaternion_of q t -> rpy = rpy_of_matrix (eq_matrix q) ->
  forall v, mapply (rpy_mat rpy) v = mapply (tmat t) v.
Proof.
  intros q t rpy h -> v. apply mapply_meq.
  assert (hr : quaternion_of q (eq_matrix q)) by (apply toTransform_of, h).
  intros i j hi hj.
  rewrite (proj1 (C50_angles_proof _ (quaternion_of_rigid _ _ hr)) i j hi hj).
  exact (quaternion_of_same q _ _ hr h i j hi hj).
Qed.

Lemma eq_vec_apply : forall q t v, quaternion_of q t -> eq_vec q (v : Array3d R) = mapply (tmat t) v.
Proof.
  intros q t v h. rewrite <- (mapply_meq _ _ v (proj2 h)). destruct h as [u _].
  destruct q as [w x y z], v as [[v0 v1] v2]. unfold unitq, qnorm2 in u. cbn [q_w q_x q_y q_z] in u.
  unfold eq_vec, mapply, qmat, of_rows, vx, vy, vz, a0, a1, a2. cbn [fst snd q_w q_x q_y q_z].
  cbv [s_add s_mul s_sub RScalar]. pair_eq; ring.
Qed.

Lemma euler_apply : forall rpy p v, mapply (tmat (euler_tf (vx rpy) (vy rpy) (vz rpy) p)) v = mapply (rpy_mat rpy) v.
Proof.
  intros rpy p v. rewrite (mapply_meq _ _ v (euler_tf_mat _ _ _ _)). destruct rpy as [[x y] z]. reflexivity.
Qed.

Lemma mapply_vadd : forall M u v, mapply M (vadd u v) = vadd (mapply M u) (mapply M v).
Proof.
  intros M [[? ?] ?] [[? ?] ?]. unfold mapply, vadd, vx, vy, vz. cbn [fst snd]. pair_eq; ring.
Qed.

Lemma vadd_assoc : forall u v w, vadd (vadd u v) w = vadd u (vadd v w).
Proof. intros [[? ?] ?] [[? ?] ?] [[? ?] ?]. unfold vadd, vx, vy, vz. cbn [fst snd]. pair_eq; ring. Qed.
Lemma vadd_comm : forall u v, vadd u v = vadd v u.
Proof. intros [[? ?] ?] [[? ?] ?]. unfold vadd, vx, vy, vz. cbn [fst snd]. pair_eq; ring. Qed.
Lemma vadd_0_r : forall u, vadd u (0,0,0) = u.
Proof. intros [[? ?] ?]. unfold vadd, vx, vy, vz. cbn [fst snd]. pair_eq; ring. Qed.
Lemma vadd_0_l : forall u, vadd (0,0,0) u = u.
Proof. intros. rewrite vadd_comm. apply vadd_0_r. Qed.

Lemma mul_xyz : forall p q : Pose R,
  p_xyz (pose_mul p q) = vadd (p_xyz p) (mapply (rpy_mat (p_rpy p)) (p_xyz q)).
Proof.
  intros p q. unfold pose_mul. cbn [p_xyz].
  rewrite (eq_vec_apply _ _ (p_xyz q) (quat_of_rpy_of (p_rpy p) (0,0,0))), euler_apply.
  reflexivity.
Qed.

Lemma mul_rpy : forall (p q : Pose R) v,
  mapply (rpy_mat (p_rpy (pose_mul p q))) v = mapply (rpy_mat (p_rpy p)) (mapply (rpy_mat (p_rpy q)) v).
Proof.
  intros p q v. unfold pose_mul. cbv zeta. cbn [p_rpy].
  destruct (is_zero (p_rpy p)) eqn:zp.
  { apply is_zero_iff in zp. rewrite zp, rpy_mat_0. reflexivity. }
  destruct (is_zero (p_rpy q)) eqn:zq.
  { apply is_zero_iff in zq. rewrite zq, rpy_mat_0. reflexivity. }
  rewrite (rpy_mat_of _ _ _ (quaternion_of_mul _ _ _ _ (quat_of_rpy_of (p_rpy p) (0,0,0))
     (quat_of_rpy_of (p_rpy q) (0,0,0))) eq_refl).
  rewrite <- (euler_apply (p_rpy p) (0,0,0)), <- (euler_apply (p_rpy q) (0,0,0)).
  generalize (euler_tf (vx (p_rpy p)) (vy (p_rpy p)) (vz (p_rpy p)) (0, 0, 0))
             (euler_tf (vx (p_rpy q)) (vy (p_rpy q)) (vz (p_rpy q)) (0, 0, 0)).
  intros [a b c x d e f y g h i z] [a' b' c' x' d' e' f' y' g' h' i' z']. rewrite t_mul_mk, !tmat_mk.
  destruct v as [[v0 v1] v2]. unfold mapply, of_rows, vx, vy, vz. cbn [fst snd]. pair_eq; ring.
Qed.

Lemma C50_product_proof : forall (p q : Pose R) (v : vec3),
  pose_motion (pose_mul p q) v = pose_motion p (pose_motion q v).
Proof.
  intros p q v. unfold pose_motion. rewrite mul_xyz, mul_rpy, mapply_vadd, vadd_assoc.
  f_equal. apply vadd_comm.
Qed.


Lemma inverse_of : forall q t, quaternion_of q t ->
  quaternion_of (eq_inverse q) (t_inverse t).
Proof.
  intros q [a b c x d e f y g h i z] hq.
  assert (u : unitq q) by apply hq. rewrite t_inverse_mk.
  apply quaternion_of_mk in hq. apply quaternion_of_mk.
  unfold eq_inverse. rewrite eq_dot_qdot. change (qdot q q) with (qnorm2 q). rewrite u.
  cbv [s_ltb s_ofZ s_div s_neg RScalar]. rewrite Rltb_true by lra.
  destruct q as [w qx qy qz], hq as [n (e1&e2&e3&e4&e5&e6&e7&e8&e9)].
  unfold quat9_of, quat9. cbn [q_w q_x q_y q_z] in *. unfold Rdiv. rewrite Rinv_1, !Rmult_1_r.
  subst. repeat split; lra.
Qed.

Lemma inverse_mat : forall t v, rigid t -> mapply (tmat (t_inverse t)) (mapply (tmat t) v) = v /\
  mapply (tmat t) (mapply (tmat (t_inverse t)) v) = v.
Proof.
  intros [a b c x d e f y g h i z] [[v0 v1] v2] r. apply rigid_mk in r.
  destruct (so3_full _ _ _ _ _ _ _ _ _ r) as [(r1&r2&r3&r4&r5&r6) _].
  destruct r as [(h1&h2&h3&h4&h5&h6) _].
  rewrite t_inverse_mk, !tmat_mk. unfold mapply, of_rows, vx, vy, vz. cbn [fst snd].
  split; pair_eq; nsatz.
Qed.

(** A rotation part and the part of its inverse. *)
Lemma inverse_rpy : forall (p : Pose R) v,
  mapply (rpy_mat (p_rpy (pose_inverse p))) (mapply (rpy_mat (p_rpy p)) v) = v /\
  mapply (rpy_mat (p_rpy p)) (mapply (rpy_mat (p_rpy (pose_inverse p))) v) = v.
Proof.
  intros p v. unfold pose_inverse. destruct (is_zero (p_rpy p)) eqn:zp.
  - apply is_zero_iff in zp. cbn [p_rpy]. rewrite zp. change (@a_zero R RScalar) with (0,0,0).
    rewrite !rpy_mat_0. split; reflexivity.
  - cbv zeta. cbn [p_rpy].
    pose proof (quat_of_rpy_of (p_rpy p) (0,0,0)) as Q.
    pose proof (inverse_of _ _ Q) as I.
    rewrite !(rpy_mat_of _ _ _ I eq_refl). rewrite <- !(euler_apply (p_rpy p) (0,0,0)).
    apply inverse_mat. eapply quaternion_of_rigid, Q.
Qed.

Definition vneg (v : vec3) : vec3 := (- vx v, - vy v, - vz v).

Lemma inverse_xyz : forall p : Pose R,
  p_xyz (pose_inverse p) = vneg (mapply (rpy_mat (p_rpy (pose_inverse p))) (p_xyz p)).
Proof.
  intros p. unfold pose_inverse. destruct (is_zero (p_rpy p)) eqn:zp.
  - cbn [p_rpy p_xyz]. change (@a_zero R RScalar) with (0,0,0). rewrite rpy_mat_0. reflexivity.
  - cbv zeta. cbn [p_rpy p_xyz].
    pose proof (quat_of_rpy_of (p_rpy p) (0,0,0)) as Q.
    pose proof (inverse_of _ _ Q) as I.
    rewrite (rpy_mat_of _ _ _ I eq_refl).
    destruct (is_zero (p_xyz p)) eqn:zx.
    + apply is_zero_iff in zx. rewrite zx. unfold vneg, mapply, vx, vy, vz. cbn [fst snd].
      unfold a_zero. cbv [s_ofZ RScalar]. pair_eq; ring.
    + rewrite <- (mapply_meq _ _ (p_xyz p) (toTransform_mat _ (mkPosition3D 0 0 0) _ I)).
      unfold eq_matrix. change (@s_ofZ R RScalar 0) with 0.
      generalize (eq_toTransform (eq_inverse (quat_of_rpy (p_rpy p))) (mkPosition3D 0 0 0)).
      intros [a b c x d e f y g h i z]. rewrite tmat_mk. destruct (p_xyz p) as [[v0 v1] v2].
      unfold mat_vec, vneg, mapply, of_rows, vx, vy, vz, a0, a1, a2.
      cbn [fst snd t_r1c1 t_r1c2 t_r1c3 t_r2c1 t_r2c2 t_r2c3 t_r3c1 t_r3c2 t_r3c3].
      cbv [s_add s_mul s_neg RScalar]. reflexivity.
Qed.

Lemma mapply_vneg : forall M u, mapply M (vneg u) = vneg (mapply M u).
Proof. intros M [[? ?] ?]. unfold mapply, vneg, vx, vy, vz. cbn [fst snd]. pair_eq; ring. Qed.
Lemma vadd_vneg : forall u v, vadd (vadd u v) (vneg v) = u.
Proof. intros [[? ?] ?] [[? ?] ?]. unfold vadd, vneg, vx, vy, vz. cbn [fst snd]. pair_eq; ring. Qed.
Lemma vadd_vneg' : forall u v, vadd (vadd u (vneg v)) v = u.
Proof. intros [[? ?] ?] [[? ?] ?]. unfold vadd, vneg, vx, vy, vz. cbn [fst snd]. pair_eq; ring. Qed.

Lemma C50_inverse_proof : forall (p : Pose R) (v : vec3),
  pose_motion (pose_inverse p) (pose_motion p v) = v /\
  pose_motion p (pose_motion (pose_inverse p) v) = v.
Proof.
  intros p v. unfold pose_motion. rewrite inverse_xyz, !mapply_vadd, mapply_vneg.
  rewrite (proj1 (inverse_rpy p v)), (proj2 (inverse_rpy p v)), (proj2 (inverse_rpy p (p_xyz p))).
  split; [apply vadd_vneg|apply vadd_vneg'].
Qed.


Lemma C50_group_proof : forall p q r : Pose R,
  same_motion (pose_mul (pose_mul p q) r) (pose_mul p (pose_mul q r)) /\
  same_motion (pose_mul p (pose_inverse p)) pose_id /\
  same_motion (pose_mul (pose_inverse p) p) pose_id /\
  same_motion (pose_inverse (pose_mul p q)) (pose_mul (pose_inverse q) (pose_inverse p)) /\
  same_motion (pose_inverse (pose_inverse p)) p.
Proof.
  assert (Id : forall v, pose_motion pose_id v = v).
  { intros v. unfold pose_motion, pose_id. cbn [p_rpy p_xyz]. change (@a_zero R RScalar) with (0,0,0).
    rewrite rpy_mat_0. apply vadd_0_r. }
  assert (U : forall p u v, pose_motion p u = v -> u = pose_motion (pose_inverse p) v).
  { intros p u v <-. symmetry. apply (C50_inverse_proof p u). }
  intros p q r. unfold same_motion. repeat apply conj; intros v; rewrite ?C50_product_proof, ?Id.
  - reflexivity.
  - apply (C50_inverse_proof p v).
  - apply (C50_inverse_proof p v).
  - symmetry. apply U. rewrite C50_product_proof.
    rewrite (proj2 (C50_inverse_proof q _)). apply (C50_inverse_proof p v).
  - symmetry. apply U. apply (C50_inverse_proof p v).
Qed.


Lemma C50_neutral_proof : forall p : Pose R,
  pose_mul p pose_id = p /\ pose_mul pose_id p = p /\ pose_inverse pose_id = pose_id.
Proof.
  intros [xyz rpy]. assert (Z : is_zero (@a_zero R RScalar) = true) by (apply is_zero_iff; reflexivity).
  split; [|split].
  - assert (E1 : p_rpy (pose_mul (mkPose xyz rpy) pose_id) = rpy).
    { unfold pose_mul, pose_id. cbv zeta. cbn [p_rpy]. rewrite Z.
      destruct (is_zero rpy) eqn:zr; [|reflexivity]. apply is_zero_iff in zr. symmetry. exact zr. }
    assert (E2 : p_xyz (pose_mul (mkPose xyz rpy) pose_id) = xyz).
    { rewrite mul_xyz. cbn [p_xyz p_rpy pose_id]. change (@a_zero R RScalar) with (0,0,0).
      replace (mapply (rpy_mat rpy) (0,0,0)) with (0,0,0) by
        (unfold mapply, vx, vy, vz; cbn [fst snd]; pair_eq; ring).
      apply vadd_0_r. }
    destruct (pose_mul _ _) as [x r]. cbn [p_rpy p_xyz] in *. congruence.
  - assert (E1 : p_rpy (pose_mul pose_id (mkPose xyz rpy)) = rpy).
    { unfold pose_mul, pose_id. cbv zeta. cbn [p_rpy]. rewrite Z. reflexivity. }
    assert (E2 : p_xyz (pose_mul pose_id (mkPose xyz rpy)) = xyz).
    { rewrite mul_xyz. cbn [p_xyz p_rpy pose_id]. change (@a_zero R RScalar) with (0,0,0).
      rewrite rpy_mat_0. apply vadd_0_l. }
    destruct (pose_mul _ _) as [x r]. cbn [p_rpy p_xyz] in *. congruence.
  - unfold pose_inverse, pose_id. cbn [p_rpy p_xyz]. rewrite Z. unfold a_zero, a0, a1, a2.
    cbv [s_neg s_ofZ RScalar fst snd]. rewrite Ropp_0. reflexivity.
Qed.


Lemma unsigned_zero_id : forall a : Array3d R, unsigned_zero a = a.
Proof. intros a. unfold unsigned_zero. destruct (is_zero a) eqn:z; [|reflexivity]. apply is_zero_iff in z. now subst. Qed.
Lemma pose_to_R : forall p : Pose R, pose_to p = if is_zero (p_xyz p) && is_zero (p_rpy p) then None else Some p.
Proof. intros [x r]. unfold pose_to. cbn [p_xyz p_rpy]. now rewrite !unsigned_zero_id. Qed.

Lemma C50_origin_element_proof : forall p : Pose R,
  pose_from (pose_to p) = p /\ (pose_to p = None <-> p = pose_id).
Proof.
  intros [xyz rpy]. unfold pose_to. cbn [p_xyz p_rpy]. rewrite !unsigned_zero_id.
  destruct (is_zero xyz) eqn:zx; cbn [andb].
  - apply is_zero_iff in zx. destruct (is_zero rpy) eqn:zr.
    + apply is_zero_iff in zr. subst. split; [reflexivity|split; reflexivity].
    + split; [reflexivity|]. split; [discriminate|]. intros E. inversion E. subst.
      assert (is_zero (@a_zero R RScalar) = true) by (apply is_zero_iff; reflexivity). congruence.
  - split; [reflexivity|]. split; [discriminate|]. intros E. inversion E. subst.
    assert (is_zero (@a_zero R RScalar) = true) by (apply is_zero_iff; reflexivity). congruence.
Qed.
