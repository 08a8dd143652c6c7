(** * Lemmas for Props_Squash *)

From Coq Require Import String List Bool Relations Permutation Lia Arith ZArith Reals Lra Nsatz.
Import ListNotations.
From Verif Require Import Scalar RInst RLemmas Model_Base Model_Vec Model_Rigid Model_Average Model_Pose Model_Urdf Model_Squash
  Spec_Geom Spec_Average Spec_Pose Spec_Urdf Spec_Reroot Spec_Squash SO3 SO3Quat Proofs_Geom Proofs_Quat Proofs_Average Proofs_Pose Proofs_Transform
  Proofs_Urdf Proofs_Walk Proofs_Reroot.
From Verif Require Props_Urdf.
Local Open Scope R_scope.

(** ** Vectors *)
Ltac vexp := unfold norm2, vdot, vcross, vsub, vadd, vscale, mapply, mtrans, vx, vy, vz; cbn [fst snd].

Lemma lagrange : forall a b, norm2 (vcross a b) = norm2 a * norm2 b - vdot a b * vdot a b.
Proof. intros [[a1 a2] a3] [[b1 b2] b3]. vexp. ring. Qed.
Lemma vdot_adj : forall M u v, vdot u (mapply M v) = vdot (mapply (mtrans M) u) v.
Proof. intros M [[a1 a2] a3] [[b1 b2] b3]. vexp. ring. Qed.

Lemma trans_dot : forall t u v, rigid t -> vdot (mapply (mtrans (tmat t)) u) (mapply (mtrans (tmat t)) v) = vdot u v.
Proof.
  intros [a b c x d e f y g h i z] [[u1 u2] u3] [[v1 v2] v3] r. apply rigid_mk in r.
  destruct (so3_full _ _ _ _ _ _ _ _ _ r) as [(r1&r2&r3&r4&r5&r6) _].
  rewrite tmat_mk. unfold of_rows. vexp. clear r. nsatz.
Qed.
Lemma mat_dot : forall t u v, rigid t -> vdot (mapply (tmat t) u) (mapply (tmat t) v) = vdot u v.
Proof.
  intros [a b c x d e f y g h i z] [[u1 u2] u3] [[v1 v2] v3] r. apply rigid_mk in r.
  destruct r as [(h1&h2&h3&h4&h5&h6) _].
  rewrite tmat_mk. unfold of_rows. vexp. nsatz.
Qed.
Lemma trans_cross : forall t u v, rigid t ->
  norm2 (vcross (mapply (mtrans (tmat t)) u) (mapply (mtrans (tmat t)) v)) = norm2 (vcross u v).
Proof. intros t u v r. rewrite !lagrange. unfold norm2. now rewrite !trans_dot. Qed.
Lemma mat_cross : forall t u v, rigid t ->
  norm2 (vcross (mapply (tmat t) u) (mapply (tmat t) v)) = norm2 (vcross u v).
Proof. intros t u v r. rewrite !lagrange. unfold norm2. now rewrite !mat_dot. Qed.
Lemma mat_trans : forall t u, rigid t -> mapply (tmat t) (mapply (mtrans (tmat t)) u) = u.
Proof.
  intros [a b c x d e f y g h i z] [[u1 u2] u3] r. apply rigid_mk in r.
  destruct (so3_full _ _ _ _ _ _ _ _ _ r) as [(r1&r2&r3&r4&r5&r6) _].
  rewrite tmat_mk. unfold of_rows. vexp. clear r. pair_eq; nsatz.
Qed.

Lemma motion_sub : forall t a b, vsub (motion t a) (motion t b) = mapply (tmat t) (vsub a b).
Proof. intros t [[a1 a2] a3] [[b1 b2] b3]. unfold motion. vexp. pair_eq; ring. Qed.
Lemma along_motion : forall t u, along (motion t) u = mapply (mtrans (tmat t)) u.
Proof.
  intros t [[u1 u2] u3]. unfold along. rewrite !motion_sub. vexp. pair_eq; ring.
Qed.
Lemma along_ext : forall G H u, (forall v, G v = H v) -> along G u = along H u.
Proof. intros G H u h. unfold along. now rewrite !h. Qed.
Lemma axial_ext : forall G H i o u, (forall v, G v = H v) -> axial_moment G i o u = axial_moment H i o u.
Proof. intros G H i o u h. unfold axial_moment. now rewrite (along_ext G H u h), h. Qed.
Lemma axial_coef : forall G i i' o u,
  (i_mass i, i_ixx i, i_ixy i, i_ixz i, i_iyy i, i_iyz i, i_izz i) =
  (i_mass i', i_ixx i', i_ixy i', i_ixz i', i_iyy i', i_iyz i', i_izz i') ->
  axial_moment G i o u = axial_moment G i' o u.
Proof. intros G i i' o u h. injection h as a b c d e f g. unfold axial_moment, quad. now rewrite a, b, c, d, e, f, g. Qed.

Lemma motion_surj : forall t o, rigid t -> exists o', motion t o' = o.
Proof.
  intros t o r. exists (mapply (mtrans (tmat t)) (vsub o (tpos t))). unfold motion. rewrite mat_trans by assumption.
  destruct o as [[o1 o2] o3], (tpos t) as [[t1 t2] t3]. vexp. pair_eq; ring.
Qed.
(** The moment about an axis does not depend on the frame in which it is computed. *)
Lemma axial_moved : forall g o u, rigid_motion g -> exists o' u', forall G,
  along (fun v => g (G v)) u = along G u' /\
  forall i, axial_moment (fun v => g (G v)) i o u = axial_moment G i o' u'.
Proof.
  intros g o u [tg [rg hg]]. destruct (motion_surj tg o rg) as [o' ho]. exists o', (mapply (mtrans (tmat tg)) u).
  intros G. assert (ea : along (fun v => g (G v)) u = along G (mapply (mtrans (tmat tg)) u)).
  { unfold along. rewrite !hg, !motion_sub, !vdot_adj. reflexivity. }
  split; [assumption|]. intros i. unfold axial_moment. rewrite ea. f_equal.
  f_equal. rewrite hg, <- ho, motion_sub. rewrite <- (mat_cross tg (mapply (mtrans (tmat tg)) u)) by assumption.
  now rewrite mat_trans.
Qed.

(** ** Two bodies *)
Definition mat_of (m : Mat3 R) : mat3 :=
  of_rows (x00 m) (x01 m) (x02 m) (x10 m) (x11 m) (x12 m) (x20 m) (x21 m) (x22 m).
Lemma mat_linear : forall t, mat_of (linear t) = tmat t.
Proof. reflexivity. Qed.

(** The quadratic form of a matrix, read as the coefficients of an inertial are. *)
Definition quad3 (m : Mat3 R) (w : vec3) : R :=
  x00 m * vx w * vx w + x11 m * vy w * vy w + x22 m * vz w * vz w +
  2 * (x01 m * vx w * vy w + x02 m * vx w * vz w + x12 m * vy w * vz w).
Lemma quad3_add : forall m p M w, quad3 (addPointMassInertia m p M) w = quad3 M w + m * norm2 (vcross w p).
Proof.
  intros m [[p1 p2] p3] [a b c d e f g h i] [[w1 w2] w3]. unfold quad3, addPointMassInertia, a0, a1, a2.
  cbn [x00 x01 x02 x10 x11 x12 x20 x21 x22 fst snd]. cbv [s_add s_mul s_neg RScalar]. vexp. ring.
Qed.
Lemma quad3_conj : forall i Q M w, quad3 (m3_add M (m3_mul (m3_mul (m3_trans Q) (toEigenMatrix3 i)) Q)) w =
  quad3 M w + quad i (mapply (mat_of Q) w).
Proof.
  intros [o m i1 i2 i3 i4 i5 i6] [a b c d e f g h i] [A B C D E F G H I] [[w1 w2] w3].
  destruct (m3_mul (m3_trans (mkMat3 a b c d e f g h i)) (toEigenMatrix3 (mkInertial o m i1 i2 i3 i4 i5 i6))) as [p1 p2 p3 p4 p5 p6 p7 p8 p9] eqn:eP.
  unfold m3_mul, m3_trans, toEigenMatrix3 in eP. cbn [x00 x01 x02 x10 x11 x12 x20 x21 x22 i_ixx i_ixy i_ixz i_iyy i_iyz i_izz] in eP.
  cbv [s_add s_mul RScalar] in eP. injection eP as e1 e2 e3 e4 e5 e6 e7 e8 e9.
  unfold quad3, quad, m3_add, m3_mul, mat_of, of_rows.
  cbn [x00 x01 x02 x10 x11 x12 x20 x21 x22 i_ixx i_ixy i_ixz i_iyy i_iyz i_izz]. cbv [s_add s_mul RScalar]. vexp.
  subst p1 p2 p3 p4 p5 p6 p7 p8 p9. ring.
Qed.

Definition inertial_of (o : option (Pose R)) (m : R) (i : Mat3 R) : Inertial R :=
  mkInertial o m (x00 i) (x01 i) (x02 i) (x11 i) (x12 i) (x22 i).
Lemma quad_of : forall o m i w, quad (inertial_of o m i) w = quad3 i w.
Proof. reflexivity. Qed.

(** The orientation of [b] seen from [a]. *)
Definition relative (a b : Transform R) : mat3 := mmul (mtrans (tmat a)) (tmat b).
Lemma relative_eq : forall a b w, mapply (mat_of (m3_mul (m3_trans (linear a)) (linear b))) w = mapply (relative a b) w.
Proof.
  intros [a11 a12 a13 a14 a21 a22 a23 a24 a31 a32 a33 a34] [b11 b12 b13 b14 b21 b22 b23 b24 b31 b32 b33 b34] w.
  unfold relative, mmul, sum3, m3_mul, m3_trans, linear, mat_of, tmat, of_rows.
  cbn [x00 x01 x02 x10 x11 x12 x20 x21 x22 t_r1c1 t_r1c2 t_r1c3 t_r2c1 t_r2c2 t_r2c3 t_r3c1 t_r3c2 t_r3c3].
  cbv [s_add s_mul RScalar]. vexp. reflexivity.
Qed.
Lemma m3_vec_trans : forall (a : Transform R) (v : vec3), m3_vec (m3_trans (linear a)) v = mapply (mtrans (tmat a)) v.
Proof. intros [a11 a12 a13 a14 a21 a22 a23 a24 a31 a32 a33 a34] [[v1 v2] v3]. reflexivity. Qed.
Lemma of_parts_mat : forall (a : Transform R) (v : vec3), tmat (of_parts (linear a) v) = tmat a.
Proof. intros [a11 a12 a13 a14 a21 a22 a23 a24 a31 a32 a33 a34] v. reflexivity. Qed.
Lemma of_parts_linear : forall (a : Transform R) (v : vec3), linear (of_parts (linear a) v) = linear a.
Proof. intros [a11 a12 a13 a14 a21 a22 a23 a24 a31 a32 a33 a34] v. reflexivity. Qed.
Lemma motion_0 : forall t, motion t (0,0,0) = tpos t.
Proof. intros t. unfold motion. vexp. destruct (tpos t) as [[x y] z]. cbn [fst snd]. pair_eq; ring. Qed.

Lemma parallel_axes : forall ma mb a b c o u, ma + mb <> 0 ->
  vscale (ma + mb) c = vadd (vscale ma a) (vscale mb b) ->
  ma * norm2 (vcross u (vsub a o)) + mb * norm2 (vcross u (vsub b o)) =
  (ma + mb) * norm2 (vcross u (vsub c o)) + ma * norm2 (vcross u (vsub c a)) + mb * norm2 (vcross u (vsub c b)).
Proof.
  intros ma mb [[a1 a2] a3] [[b1 b2] b3] [[c1 c2] c3] [[o1 o2] o3] [[u1 u2] u3] hm h.
  unfold vscale, vadd, vx, vy, vz in h. cbn [fst snd] in h. injection h as h1 h2 h3.
  vexp. nsatz.
Qed.

(** What squashInertial computes: the masses are added, the centre of mass is that of the two
    bodies, and the moments of inertia are added, but the inertia of [b] is turned by the
    inverse of the rotation it should be turned by. *)
Lemma squash_two : forall (ia ib : Inertial R) (a b : Transform R) m c i, i_mass ia + i_mass ib <> 0 -> rigid a -> rigid b ->
  squashInertial (i_mass ia) a (toEigenMatrix3 ia) (i_mass ib) b (toEigenMatrix3 ib) = (m, c, i) ->
  m = i_mass ia + i_mass ib /\ rigid c /\ tmat c = tmat a /\
  vscale m (tpos c) = vadd (vscale (i_mass ia) (tpos a)) (vscale (i_mass ib) (tpos b)) /\
  forall o o' u, axial_moment (motion c) (inertial_of o' m i) o u =
    axial_moment (motion a) ia o u + axial_moment (motion b) ib o u +
    (quad ib (mapply (relative a b) (mapply (mtrans (tmat a)) u)) -
     quad ib (mapply (mtrans (relative a b)) (mapply (mtrans (tmat a)) u))).
Proof.
  intros ia ib a b m c i hm ra rb h. unfold squashInertial in h. cbv zeta in h. injection h as h1 h2 h3.
  change (@s_add R RScalar) with Rplus in *. change (@s_mul R RScalar) with Rmult in *. change (@s_div R RScalar) with Rdiv in *.
  set (ma := i_mass ia) in *. set (mb := i_mass ib) in *.
  match type of h2 with of_parts _ ?v = _ => set (tc := v) in * end.
  assert (htc : tpos c = tc) by (subst c; reflexivity).
  assert (hc : tmat c = tmat a) by (subst c; apply of_parts_mat).
  assert (hcm : vscale m tc = vadd (vscale ma (tpos a)) (vscale mb (tpos b))).
  { subst m tc. destruct a as [a11 a12 a13 a14 a21 a22 a23 a24 a31 a32 a33 a34], b as [b11 b12 b13 b14 b21 b22 b23 b24 b31 b32 b33 b34].
    unfold tpos, translation, a0, a1, a2. vexp. cbn [t_r1c4 t_r2c4 t_r3c4 fst snd]. pair_eq; field; assumption. }
  split; [now symmetry|]. split; [unfold rigid; now rewrite hc|]. split; [assumption|]. rewrite htc. split; [assumption|].
  intros o o' u. unfold axial_moment. rewrite !along_motion, !motion_0, quad_of, hc, htc. cbn [i_mass inertial_of].
  rewrite <- h3, of_parts_linear, quad3_add, quad3_conj, quad3_add, relative_eq.
  rewrite !m3_vec_trans, !trans_cross by assumption.
  assert (eb : mapply (mtrans (relative a b)) (mapply (mtrans (tmat a)) u) = mapply (mtrans (tmat b)) u).
  { rewrite <- (mat_trans a u ra) at 2. generalize (mapply (mtrans (tmat a)) u). intros [[w1 w2] w3].
    unfold relative, mmul, sum3. vexp. pair_eq; ring. }
  rewrite eb.
  assert (es : forall x y : vec3, a_sub (x : Array3d R) y = vsub x y) by (intros [[x1 x2] x3] [[y1 y2] y3]; reflexivity).
  change (translation a) with (tpos a). change (translation b) with (tpos b). rewrite (es tc (tpos a)), (es tc (tpos b)).
  rewrite <- h1 in hcm |- *. pose proof (parallel_axes ma mb (tpos a) (tpos b) tc o u hm hcm) as P.
  change (quad3 (toEigenMatrix3 ia) (mapply (mtrans (tmat a)) u)) with (quad ia (mapply (mtrans (tmat a)) u)).
  fold ma mb. lra.
Qed.

(** ** The origin written back *)
Lemma rpy_zero_mat : forall m, rigid m -> (forall v, mapply (tmat m) v = v) -> p_rpy (mkPose (0,0,0) (rpy_of_matrix m)) = (0,0,0).
Proof. intros m r h. cbn [p_rpy]. now apply rpy_of_id. Qed.
Lemma is_identity_iff : forall t : Transform R, is_identity (linear t) = true <-> forall v, mapply (tmat t) v = v.
Proof.
  intros [a b c x d e f y g h i z]. unfold is_identity, linear. cbn [x00 x01 x02 x10 x11 x12 x20 x21 x22
    t_r1c1 t_r1c2 t_r1c3 t_r2c1 t_r2c2 t_r2c3 t_r3c1 t_r3c2 t_r3c3]. cbv [s_eqb s_ofZ RScalar].
  rewrite !andb_true_iff, !Reqb_iff. split.
  - intros ((((((((->&->)&->)&->)&->)&->)&->)&->)&->) [[v1 v2] v3]. rewrite tmat_mk. unfold of_rows. vexp. pair_eq; ring.
  - intros hv. pose proof (hv (1,0,0)) as m1. pose proof (hv (0,1,0)) as m2. pose proof (hv (0,0,1)) as m3.
    rewrite tmat_mk in m1, m2, m3. unfold mapply, of_rows, vx, vy, vz in m1, m2, m3. cbn [fst snd] in m1, m2, m3.
    injection m1 as a1 a2 a3. injection m2 as b1 b2 b3. injection m3 as c1 c2 c3.
    rewrite ?Rmult_1_r, ?Rmult_0_r, ?Rplus_0_r, ?Rplus_0_l in *. tauto.
Qed.

Lemma rpy_of_acts : forall t, rigid t -> forall v, mapply (rpy_mat (rpy_of_matrix t)) v = mapply (tmat t) v.
Proof. intros t r v. apply mapply_meq. apply (proj1 (C50_angles_proof t r)). Qed.

(** The written origin is the pose, unless an attribute of the old one is kept by mistake. *)
Lemma put_origin_motion : forall old t, rigid t ->
  (tpos t = (0,0,0) -> p_xyz (pose_from old) = (0,0,0)) ->
  ((forall v, mapply (tmat t) v = v) -> forall v, mapply (rpy_mat (p_rpy (pose_from old))) v = v) ->
  forall v, pose_motion (pose_from (put_origin old t)) v = motion t v.
Proof.
  intros old t r hx hr v. unfold put_origin. cbv zeta.
  set (o := if is_zero (translation t) then old else Some (mkPose (translation t) (p_rpy (pose_from old)))).
  assert (ox : p_xyz (pose_from o) = tpos t).
  { unfold o. destruct (is_zero (translation t)) eqn:z; [|reflexivity]. apply (is_zero_iff (tpos t)) in z. rewrite z. now apply hx. }
  assert (orp : p_rpy (pose_from o) = p_rpy (pose_from old)).
  { unfold o. destruct (is_zero (translation t)); reflexivity. }
  destruct (is_identity (linear t)) eqn:e.
  - assert (hi := proj1 (is_identity_iff t) e). unfold pose_motion, motion. rewrite ox, orp, (hr hi), hi. reflexivity.
  - unfold pose_motion, motion. cbn [pose_from p_xyz p_rpy]. now rewrite ox, rpy_of_acts.
Qed.
Lemma put_fresh : forall t, rigid t -> forall v, pose_motion (pose_from (put_origin None t)) v = motion t v.
Proof.
  intros t r. apply put_origin_motion; [assumption|reflexivity|]. intros _ v. apply rpy_mat_0.
Qed.

(** ** One joint *)
Definition child_pose (j : Joint R) (ci : Inertial R) : Transform R :=
  t_mul (toEigenTransform (pose_from (j_origin j))) (toEigenTransform (pose_from (i_origin ci))).
Lemma rigid_eigen : forall p, rigid (toEigenTransform p).
Proof. intros p. exact (proj2 (C50_transform_proof p (0,0,0))). Qed.
Lemma child_rigid : forall j ci, rigid (child_pose j ci).
Proof. intros j ci. apply rigid_mul; apply rigid_eigen. Qed.
Lemma child_motion : forall j ci v, motion (child_pose j ci) v =
  pose_motion (pose_from (j_origin j)) (pose_motion (pose_from (i_origin ci)) v).
Proof.
  intros j ci v. unfold child_pose. rewrite <- !motion_pose.
  generalize (toEigenTransform (pose_from (j_origin j))), (toEigenTransform (pose_from (i_origin ci))).
  intros [a11 a12 a13 a14 a21 a22 a23 a24 a31 a32 a33 a34] [b11 b12 b13 b14 b21 b22 b23 b24 b31 b32 b33 b34].
  destruct v as [[v1 v2] v3]. rewrite t_mul_mk. unfold motion. rewrite !tmat_mk. unfold tpos, of_rows.
  cbn [t_r1c4 t_r2c4 t_r3c4]. vexp. pair_eq; ring.
Qed.

Lemma eigen_acts : forall p v, mapply (tmat (toEigenTransform p)) v = mapply (rpy_mat (p_rpy p)) v.
Proof.
  intros p v. pose proof (motion_pose p v) as h1. pose proof (motion_pose p (0,0,0)) as h0.
  assert (h : vsub (motion (toEigenTransform p) v) (motion (toEigenTransform p) (0,0,0)) = vsub (pose_motion p v) (pose_motion p (0,0,0))) by now rewrite h1, h0.
  rewrite motion_sub in h. assert (v0 : vsub v (0,0,0) = v) by (destruct v as [[x y] z]; vexp; pair_eq; ring).
  rewrite v0 in h. rewrite h. unfold pose_motion. destruct v as [[x y] z]. vexp. pair_eq; ring.
Qed.

Definition val (f : Inertial R -> R) (i : option (Inertial R)) : R := match i with Some i => f i | None => 0 end.

Lemma squashed_mass : forall j pi ci, i_mass (squashed j pi ci) = val (@i_mass R) pi + i_mass ci.
Proof.
  intros j [p|] ci; [reflexivity|]. cbn. ring.
Qed.

Lemma meq_acts : forall A B, (forall v, mapply A v = mapply B v) -> meq A B.
Proof.
  intros A B h. generalize (h (1,0,0)) (h (0,1,0)) (h (0,0,1)). unfold mapply, vx, vy, vz. cbn [fst snd].
  rewrite ?Rmult_1_r, ?Rmult_0_r, ?Rplus_0_r, ?Rplus_0_l. intros h1 h2 h3.
  injection h1 as a1 a2 a3. injection h2 as b1 b2 b3. injection h3 as c1 c2 c3.
  intros [|[|[|i]]] [|[|[|k]]] hi hk; try assumption; exfalso; lia.
Qed.
Lemma meq_mul : forall A A' B B', meq A A' -> meq B B' -> meq (mmul A B) (mmul A' B').
Proof. intros A A' B B' h k i l hi hl. unfold mmul, sum3. rewrite !h, !k by lia. reflexivity. Qed.
Lemma meq_trans : forall A B, meq A B -> meq (mtrans A) (mtrans B).
Proof. intros A B h i l hi hl. unfold mtrans. now apply h. Qed.
Lemma meq_comp : forall A B C, meq A B -> meq B C -> meq A C.
Proof. intros A B C h k i l hi hl. now rewrite h, k. Qed.
Lemma tmat_mul : forall a b : Transform R, meq (tmat (t_mul a b)) (mmul (tmat a) (tmat b)).
Proof.
  intros [a11 a12 a13 a14 a21 a22 a23 a24 a31 a32 a33 a34] [b11 b12 b13 b14 b21 b22 b23 b24 b31 b32 b33 b34].
  rewrite t_mul_mk, !tmat_mk. intros [|[|[|i]]] [|[|[|k]]] hi hk; try (exfalso; lia); unfold mmul, sum3, of_rows; ring.
Qed.
Lemma eigen_meq : forall p, meq (tmat (toEigenTransform p)) (rpy_mat (p_rpy p)).
Proof. intros p. apply meq_acts. apply eigen_acts. Qed.

Section Physics.
Variable place : string -> vec3 -> vec3.
Variable j : Joint R.
Hypothesis hg : rigid_motion (place (j_parent j)).
Hypothesis hc : forall v, place (j_child j) v = place (j_parent j) (pose_motion (pose_from (j_origin j)) v).
Variable ci : Inertial R.
Variable pi : option (Inertial R).
Hypothesis hm : mergeable j pi ci.

(** The frame of inertia of the compound body. *)
Lemma squashed_frame : exists c, rigid c /\
  (forall v, pose_motion (pose_from (i_origin (squashed j pi ci))) v = motion c v) /\
  match pi with
  | None => (forall v, motion c v = motion (child_pose j ci) v) /\
      (i_mass (squashed j pi ci), i_ixx (squashed j pi ci), i_ixy (squashed j pi ci), i_ixz (squashed j pi ci),
       i_iyy (squashed j pi ci), i_iyz (squashed j pi ci), i_izz (squashed j pi ci)) =
      (i_mass ci, i_ixx ci, i_ixy ci, i_ixz ci, i_iyy ci, i_iyz ci, i_izz ci)
  | Some p => let a := toEigenTransform (pose_from (i_origin p)) in let b := child_pose j ci in
      tmat c = tmat a /\
      vscale (i_mass (squashed j pi ci)) (tpos c) = vadd (vscale (i_mass p) (tpos a)) (vscale (i_mass ci) (tpos b)) /\
      forall o u, axial_moment (motion c) (squashed j pi ci) o u =
        axial_moment (motion a) p o u + axial_moment (motion b) ci o u +
        (quad ci (mapply (relative a b) (mapply (mtrans (tmat a)) u)) -
         quad ci (mapply (mtrans (relative a b)) (mapply (mtrans (tmat a)) u)))
  end.
Proof.
  destruct pi as [p|].
  - cbn [mergeable] in hm. unfold squashed. fold (child_pose j ci).
    destruct (squashInertial (i_mass p) (toEigenTransform (pose_from (i_origin p))) (toEigenMatrix3 p) (i_mass ci) (child_pose j ci) (toEigenMatrix3 ci))
      as [[m c] i] eqn:e.
    destruct (squash_two p ci _ _ m c i hm (rigid_eigen _) (child_rigid j ci) e) as [h1 [h2 [h3 [h4 h5]]]].
    exists c. split; [assumption|]. split; [cbn [i_origin]; now apply put_fresh|]. cbv zeta. split; [assumption|]. split.
    + cbn [i_mass]. exact h4.
    + intros o u. apply (h5 o (put_origin None c) u).
  - exists (child_pose j ci). split; [apply child_rigid|]. split; [|split; reflexivity].
    unfold squashed. fold (child_pose j ci). cbn [i_origin]. destruct hm as [h1 h2].
    apply put_origin_motion; [apply child_rigid| |].
    + intros h. apply h1. rewrite <- h, <- (motion_0 (child_pose j ci)), child_motion. f_equal.
      unfold pose_motion. rewrite (proj1 (conj (ltac:(unfold mapply, vx, vy, vz; cbn [fst snd]; pair_eq; ring) : mapply (rpy_mat (p_rpy (pose_from (i_origin ci)))) (0,0,0) = (0,0,0)) I)).
      destruct (p_xyz (pose_from (i_origin ci))) as [[x y] z]. vexp. pair_eq; ring.
    + intros h. apply h2. intros v. rewrite <- (h v) at 2. symmetry.
      pose proof (child_motion j ci v) as e1. pose proof (child_motion j ci (0,0,0)) as e0.
      rewrite <- !motion_pose in e1, e0.
      assert (ee : vsub (motion (child_pose j ci) v) (motion (child_pose j ci) (0,0,0)) =
        vsub (motion (toEigenTransform (pose_from (j_origin j))) (motion (toEigenTransform (pose_from (i_origin ci))) v))
             (motion (toEigenTransform (pose_from (j_origin j))) (motion (toEigenTransform (pose_from (i_origin ci))) (0,0,0))))
        by now rewrite e1, e0.
      rewrite !motion_sub in ee.
      assert (v0 : vsub v (0,0,0) = v) by (destruct v as [[x y] z]; vexp; pair_eq; ring).
      rewrite v0 in ee. rewrite ee. unfold toEigenTransform.
      pose proof (eigen_acts (pose_from (j_origin j))) as q1. pose proof (eigen_acts (pose_from (i_origin ci))) as q2.
      unfold toEigenTransform in q1, q2. now rewrite q1, q2.
Qed.

Lemma child_meq : meq (tmat (child_pose j ci))
  (mmul (rpy_mat (p_rpy (pose_from (j_origin j)))) (rpy_mat (p_rpy (pose_from (i_origin ci))))).
Proof.
  unfold child_pose. apply meq_comp with (1 := tmat_mul _ _). apply meq_mul; apply eigen_meq.
Qed.
Lemma acts_relative : forall p w, mapply (relative (toEigenTransform (pose_from (i_origin p))) (child_pose j ci)) w = mapply (orientation j p ci) w /\
  mapply (mtrans (relative (toEigenTransform (pose_from (i_origin p))) (child_pose j ci))) w = mapply (mtrans (orientation j p ci)) w.
Proof.
  intros p w.
  assert (h : meq (relative (toEigenTransform (pose_from (i_origin p))) (child_pose j ci)) (orientation j p ci)).
  { apply meq_mul; [apply meq_trans, eigen_meq|apply child_meq]. }
  split; apply mapply_meq; [assumption|now apply meq_trans].
Qed.

Lemma squashed_first : first_moment (frame_of place (j_parent j) (squashed j pi ci)) (squashed j pi ci) =
  vadd (match pi with Some p => first_moment (frame_of place (j_parent j) p) p | None => (0,0,0) end)
       (first_moment (frame_of place (j_child j) ci) ci).
Proof.
  destruct squashed_frame as [c [rc [hf h]]]. destruct hg as [tg [rg eg]].
  unfold first_moment, frame_of. rewrite hf, hc, motion_0, <- (child_motion j ci), motion_0.
  destruct pi as [p|].
  - cbv zeta in h. destruct h as [_ [h _]]. rewrite squashed_mass in *. cbn [val] in *. rewrite <- motion_pose, motion_0, !eg.
    revert h. generalize (tpos c), (tpos (toEigenTransform (pose_from (i_origin p)))), (tpos (child_pose j ci)).
    intros [[c1 c2] c3] [[a1 a2] a3] [[b1 b2] b3] h. unfold vscale, vadd, vx, vy, vz in h. cbn [fst snd] in h. injection h as h1 h2 h3.
    unfold motion. destruct (tpos tg) as [[t1 t2] t3]. vexp. generalize (tmat tg). intros M. pair_eq; nsatz.
  - destruct h as [h _]. rewrite squashed_mass. cbn [val]. rewrite Rplus_0_l, <- (motion_0 c), h, motion_0, !eg.
    destruct (motion tg (tpos (child_pose j ci))) as [[x y] z]. vexp. pair_eq; ring.
Qed.

Lemma squashed_axial : forall o u, axial_moment (frame_of place (j_parent j) (squashed j pi ci)) (squashed j pi ci) o u =
  match pi with
  | Some p => axial_moment (frame_of place (j_parent j) p) p o u +
      (quad ci (mapply (orientation j p ci) (along (frame_of place (j_parent j) p) u)) -
       quad ci (mapply (mtrans (orientation j p ci)) (along (frame_of place (j_parent j) p) u)))
  | None => 0
  end + axial_moment (frame_of place (j_child j) ci) ci o u.
Proof.
  intros o u. destruct squashed_frame as [c [rc [hf h]]]. 
  unfold frame_of.
  rewrite (axial_ext (fun v => place (j_parent j) (pose_motion (pose_from (i_origin (squashed j pi ci))) v)) (fun v => place (j_parent j) (motion c v)))
    by (intros v; now rewrite hf).
  rewrite (axial_ext (fun v => place (j_child j) (pose_motion (pose_from (i_origin ci)) v)) (fun v => place (j_parent j) (motion (child_pose j ci) v)))
    by (intros v; now rewrite hc, child_motion).
  destruct (axial_moved _ o u hg) as [o' [u' hm']].
  rewrite (proj2 (hm' (motion c))), (proj2 (hm' (motion (child_pose j ci)))).
  destruct pi as [p|].
  - cbv zeta in h. destruct h as [_ [_ h]]. rewrite h.
    rewrite (along_ext (fun v => place (j_parent j) (pose_motion (pose_from (i_origin p)) v)) (fun v => place (j_parent j) (motion (toEigenTransform (pose_from (i_origin p))) v)))
      by (intros v; now rewrite motion_pose).
    rewrite (axial_ext (fun v => place (j_parent j) (pose_motion (pose_from (i_origin p)) v)) (fun v => place (j_parent j) (motion (toEigenTransform (pose_from (i_origin p))) v)))
      by (intros v; now rewrite motion_pose).
    rewrite (proj1 (hm' (motion (toEigenTransform (pose_from (i_origin p)))))), (proj2 (hm' (motion (toEigenTransform (pose_from (i_origin p)))))).
    rewrite along_motion, (proj1 (acts_relative p _)), (proj2 (acts_relative p _)). ring.
  - destruct h as [h e]. rewrite (axial_ext (motion c) _ _ _ _ h), (axial_coef _ _ _ o' u' e). ring.
Qed.
End Physics.

(** ** The document *)
Definition set_at (n : string) (i : option (Inertial R)) (l : Link R) : Link R :=
  if (l_name l =? n)%string then set_inertial i l else l.
Lemma links_upd : forall (d : list (elem R)) n i, links (upd_link d n (set_inertial i)) = map (set_at n i) (links d).
Proof.
  intros d n i. unfold upd_link, links. induction d as [|[l|k|s] d IH]; cbn; [reflexivity| |assumption|assumption].
  unfold set_at at 1. destruct (l_name l =? n)%string; cbn; now rewrite IH.
Qed.
Lemma bare_upd : forall (d : list (elem R)) n i, map bare (upd_link d n (set_inertial i)) = map bare d.
Proof.
  intros d n i. unfold upd_link. rewrite map_map. apply map_ext. intros [l|k|s]; try reflexivity.
  destruct (l_name l =? n)%string; reflexivity.
Qed.
Lemma joints_bare : forall d : list (elem R), joints (map bare d) = joints d.
Proof. unfold joints. induction d as [|[l|k|s] d IH]; cbn; [reflexivity|assumption|now rewrite IH|assumption]. Qed.
Lemma names_bare : forall d : list (elem R), link_names (map bare d) = link_names d.
Proof. unfold link_names, links. induction d as [|[l|k|s] d IH]; cbn; [reflexivity|now rewrite IH|assumption|assumption]. Qed.
Lemma bare_joints : forall d d' : list (elem R), map bare d = map bare d' -> joints d = joints d'.
Proof. intros d d' h. rewrite <- (joints_bare d), h. apply joints_bare. Qed.
Lemma bare_names : forall d d' : list (elem R), map bare d = map bare d' -> link_names d = link_names d'.
Proof. intros d d' h. rewrite <- (names_bare d), h. apply names_bare. Qed.
Lemma bare_wc : forall d d' : list (elem R), map bare d = map bare d' -> well_connected d -> well_connected d'.
Proof.
  intros d d' h w. pose proof (bare_joints _ _ h) as hj. pose proof (bare_names _ _ h) as hl.
  destruct w as [w1 w2 w3 w4]. unfold joint_names in w2. rewrite hj in w2, w3, w4. rewrite hl in w1, w4. now constructor.
Qed.
Lemma bare_sg : forall d d' : list (elem R), map bare d = map bare d' -> same_graph d d'.
Proof. intros d d' h. unfold same_graph. now rewrite (bare_joints _ _ h). Qed.

Lemma at_upd : forall (d : list (elem R)) n i m, In n (link_names d) ->
  inertial_at (upd_link d n (set_inertial i)) m = if (m =? n)%string then i else inertial_at d m.
Proof.
  intros d n i m hn. unfold inertial_at. rewrite links_upd. unfold link_names in hn.
  induction (links d) as [|l ls IH]; [contradiction|]. cbn [map find]. 
  assert (en : l_name (set_at n i l) = l_name l) by (unfold set_at; destruct (l_name l =? n)%string; reflexivity). rewrite en.
  destruct (l_name l =? m)%string eqn:e.
  - apply String.eqb_eq in e. unfold set_at. rewrite e. destruct (m =? n)%string; reflexivity.
  - destruct hn as [hn|hn]; [|now apply IH]. subst n. clear IH.
    assert (ed : (m =? l_name l)%string = false) by now rewrite String.eqb_sym.
    rewrite ed. induction ls as [|k ls IH]; [reflexivity|]. cbn [map find].
    assert (en' : l_name (set_at (l_name l) i k) = l_name k) by (unfold set_at; destruct (l_name k =? l_name l)%string; reflexivity).
    rewrite en'. destruct (l_name k =? m)%string eqn:e'; [|assumption].
    apply String.eqb_eq in e'. unfold set_at. rewrite e'. now rewrite ed.
Qed.
Lemma find_at : forall (d : list (elem R)) n, In n (link_names d) -> exists l, find_link d n = Some l /\ l_inertial l = inertial_at d n.
Proof.
  intros d n h. unfold find_link, inertial_at. unfold link_names in h. apply in_map_iff in h. destruct h as [l [<- hl]].
  destruct (find (fun l0 => (l_name l0 =? l_name l)%string) (links d)) as [k|] eqn:e.
  - now exists k.
  - exfalso. apply (find_none _ _ e) in hl. cbn in hl. rewrite String.eqb_refl in hl. discriminate.
Qed.

(** The sum over the links. *)
Definition rsum (g : string -> R) (ns : list string) : R := fold_right (fun n s => g n + s) 0 ns.
Lemma rsum_ext : forall g g' ns, (forall n, In n ns -> g n = g' n) -> rsum g ns = rsum g' ns.
Proof.
  intros g g' ns. induction ns as [|n ns IH]; intros h; [reflexivity|]. cbn. rewrite (h n (or_introl eq_refl)). f_equal.
  apply IH. intros m hm. apply h. now right.
Qed.
Lemma total_at : forall f (d : list (elem R)), NoDup (link_names d) ->
  total f d = rsum (fun n => val (f n) (inertial_at d n)) (link_names d).
Proof.
  intros f d. unfold total, link_names, inertial_at. induction (links d) as [|l ls IH]; intros h; [reflexivity|].
  inversion h as [|? ? hn hd]; subst. cbn [map rsum fold_right find]. rewrite String.eqb_refl. rewrite (IH hd). f_equal.
  apply rsum_ext. intros n hin. assert (e : (l_name l =? n)%string = false) by (apply String.eqb_neq; intros <-; contradiction).
  now rewrite e.
Qed.
Lemma rsum_one : forall g g' a ns, NoDup ns -> In a ns -> (forall n, In n ns -> n <> a -> g' n = g n) ->
  rsum g' ns = rsum g ns + (g' a - g a).
Proof.
  intros g g' a ns hd. induction hd as [|n ns hn hd IH]; intros ha h; [contradiction|]. cbn [rsum fold_right].
  fold (rsum g ns). fold (rsum g' ns). destruct ha as [->|ha].
  - rewrite (rsum_ext g' g ns); [ring|]. intros m hm. apply h; [now right|]. intros ->. contradiction.
  - rewrite (IH ha (fun m hm => h m (or_intror hm))). rewrite (h n (or_introl eq_refl)); [ring|]. intros ->. contradiction.
Qed.
Lemma rsum_two : forall g g' a b ns, NoDup ns -> In a ns -> In b ns -> a <> b -> (forall n, In n ns -> n <> a -> n <> b -> g' n = g n) ->
  rsum g' ns = rsum g ns + (g' a - g a) + (g' b - g b).
Proof.
  intros g g' a b ns hd ha hb hab h. 
  rewrite (rsum_one (fun n => if (n =? a)%string then g' n else g n) g' b ns hd hb).
  - rewrite (rsum_one g (fun n => if (n =? a)%string then g' n else g n) a ns hd ha).
    + rewrite String.eqb_refl. assert (e : (b =? a)%string = false) by (apply String.eqb_neq; congruence). rewrite e. ring.
    + intros n hn hna. cbv beta. apply String.eqb_neq in hna. now rewrite hna.
  - intros n hn hnb. cbv beta. destruct (n =? a)%string eqn:e; [reflexivity|]. apply String.eqb_neq in e. now apply h.
Qed.

(** What squashing a joint does to the document. *)
Definition merged (d : list (elem R)) (j : Joint R) (n : string) : option (Inertial R) :=
  match inertial_at d (j_child j) with
  | None => inertial_at d n
  | Some ci => if (n =? j_child j)%string then None
               else if (n =? j_parent j)%string then Some (squashed j (inertial_at d (j_parent j)) ci)
               else inertial_at d n
  end.
Lemma squash_step : forall d j, well_connected d -> In j (joints d) -> j_parent j <> j_child j ->
  exists d', squash_joint d j = Ok d' /\ map bare d' = map bare d /\ (forall n, inertial_at d' n = merged d j n) /\
    forall f, total f d' = total f d +
      match inertial_at d (j_child j) with
      | None => 0
      | Some ci => f (j_parent j) (squashed j (inertial_at d (j_parent j)) ci) -
                   (val (f (j_parent j)) (inertial_at d (j_parent j)) + f (j_child j) ci)
      end.
Proof.
  intros d j w hj hne. destruct (wc_ends d w j hj) as [hp hc]. unfold squash_joint, merged.
  destruct (find_at d _ hc) as [c [ec ic]]. rewrite ec, ic. destruct (inertial_at d (j_child j)) as [ci|] eqn:eci.
  2: { exists d. split; [reflexivity|]. split; [reflexivity|]. split; [reflexivity|]. intros f. ring. }
  destruct (find_at d _ hp) as [p [ep ip]]. rewrite ep, ip. eexists. split; [reflexivity|].
  match goal with |- map bare ?D = _ /\ _ => set (d' := D) end.
  assert (hb : map bare d' = map bare d) by (unfold d'; now rewrite !bare_upd).
  assert (hat : forall n, inertial_at d' n = if (n =? j_child j)%string then None
               else if (n =? j_parent j)%string then Some (squashed j (inertial_at d (j_parent j)) ci) else inertial_at d n).
  { intros n. unfold d'. rewrite at_upd, at_upd; [reflexivity|assumption|].
    rewrite (bare_names _ d (bare_upd _ _ _)). assumption. }
  split; [assumption|]. split; [assumption|]. intros f.
  rewrite !total_at; [|apply (wc_links d w)|rewrite (bare_names _ d hb); apply (wc_links d w)].
  rewrite (bare_names _ d hb).
  rewrite (rsum_two (fun n => val (f n) (inertial_at d n)) _ (j_parent j) (j_child j)); try assumption; [|apply (wc_links d w)|].
  - rewrite !hat, !String.eqb_refl. assert (e : (j_parent j =? j_child j)%string = false) by now apply String.eqb_neq.
    rewrite e, eci. cbn [val]. ring.
  - intros n _ h1 h2. rewrite hat. apply String.eqb_neq in h1, h2. now rewrite h1, h2.
Qed.

Lemma step_mass : forall d j d', well_connected d -> In j (joints d) -> j_parent j <> j_child j -> squash_joint d j = Ok d' ->
  total_mass d' = total_mass d.
Proof.
  intros d j d' w hj hne e. destruct (squash_step d j w hj hne) as [d1 [e1 [_ [_ h]]]]. rewrite e in e1. injection e1 as <-.
  unfold total_mass. rewrite h. destruct (inertial_at d (j_child j)) as [ci|]; [|ring]. rewrite squashed_mass. 
  destruct (inertial_at d (j_parent j)); cbn [val]; ring.
Qed.
Lemma step_first : forall place d j d', well_connected d -> In j (joints d) -> j_parent j <> j_child j -> squash_joint d j = Ok d' ->
  holds place j -> (forall ci, inertial_at d (j_child j) = Some ci -> mergeable j (inertial_at d (j_parent j)) ci) ->
  total_first place d' = total_first place d.
Proof.
  intros place d j d' w hj hne e [hg hc] hm. destruct (squash_step d j w hj hne) as [d1 [e1 [_ [_ h]]]]. rewrite e in e1. injection e1 as <-.
  unfold total_first. rewrite !h. destruct (inertial_at d (j_child j)) as [ci|]; [|pair_eq; ring].
  rewrite (squashed_first place j hg hc ci _ (hm ci eq_refl)). 
  destruct (inertial_at d (j_parent j)) as [p|]; cbn [val].
  - destruct (first_moment (frame_of place (j_parent j) p) p) as [[x y] z], (first_moment (frame_of place (j_child j) ci) ci) as [[x' y'] z'].
    vexp. pair_eq; ring.
  - destruct (first_moment (frame_of place (j_child j) ci) ci) as [[x' y'] z']. vexp. pair_eq; ring.
Qed.
(** The error on the moments of inertia. *)
Definition twist (place : string -> vec3 -> vec3) (d : list (elem R)) (j : Joint R) (u : vec3) : R :=
  match inertial_at d (j_parent j), inertial_at d (j_child j) with
  | Some p, Some ci =>
      quad ci (mapply (orientation j p ci) (along (frame_of place (j_parent j) p) u)) -
      quad ci (mapply (mtrans (orientation j p ci)) (along (frame_of place (j_parent j) p) u))
  | _, _ => 0
  end.
Lemma step_axial : forall place d j d', well_connected d -> In j (joints d) -> j_parent j <> j_child j -> squash_joint d j = Ok d' ->
  holds place j -> (forall ci, inertial_at d (j_child j) = Some ci -> mergeable j (inertial_at d (j_parent j)) ci) ->
  forall o u, total_axial place d' o u = total_axial place d o u + twist place d j u.
Proof.
  intros place d j d' w hj hne e [hg hc] hm o u. destruct (squash_step d j w hj hne) as [d1 [e1 [_ [_ h]]]]. rewrite e in e1. injection e1 as <-.
  unfold total_axial, twist. rewrite !h. destruct (inertial_at d (j_child j)) as [ci|]; [|destruct (inertial_at d (j_parent j)); ring].
  rewrite (squashed_axial place j hg hc ci _ (hm ci eq_refl)). 
  destruct (inertial_at d (j_parent j)) as [p|]; cbn [val]; ring.
Qed.

(** ** Unturned frames *)
Lemma rpy0_ident : forall A w, (forall v, mapply A v = v) -> mapply (mtrans A) w = w.
Proof.
  intros A w h. assert (hm : meq A mident).
  { apply meq_acts. intros v. rewrite h. destruct v as [[x y] z]. unfold mapply, mident, vx, vy, vz. cbn. pair_eq; ring. }
  rewrite (mapply_meq (mtrans A) (mtrans mident)) by now apply meq_trans.
  destruct w as [[x y] z]. unfold mapply, mtrans, mident, vx, vy, vz. cbn. pair_eq; ring.
Qed.
Lemma mmul_acts : forall A B v, mapply (mmul A B) v = mapply A (mapply B v).
Proof. intros A B [[x y] z]. unfold mmul, sum3. vexp. pair_eq; ring. Qed.
Lemma orientation_id : forall j p ci, p_rpy (pose_from (i_origin p)) = (0,0,0) -> p_rpy (pose_from (j_origin j)) = (0,0,0) ->
  p_rpy (pose_from (i_origin ci)) = (0,0,0) -> forall w, mapply (orientation j p ci) w = w.
Proof.
  intros j p ci h1 h2 h3 w. unfold orientation. rewrite !mmul_acts, h1, h2, h3, !rpy_mat_0. apply rpy0_ident. apply rpy_mat_0.
Qed.
Lemma squashed_rpy : forall j pi ci, (forall p, pi = Some p -> p_rpy (pose_from (i_origin p)) = (0,0,0)) -> 
  p_rpy (pose_from (j_origin j)) = (0,0,0) -> p_rpy (pose_from (i_origin ci)) = (0,0,0) ->
  p_rpy (pose_from (i_origin (squashed j pi ci))) = (0,0,0).
Proof.
  assert (hp : forall old (t : Transform R), (forall v, mapply (tmat t) v = v) -> p_rpy (pose_from (put_origin old t)) = p_rpy (pose_from old)).
  { intros old t h. apply is_identity_iff in h. unfold put_origin. rewrite h. destruct (is_zero (translation t)); reflexivity. }
  intros j [p|] ci h1 h2 h3.
  - unfold squashed. fold (child_pose j ci). unfold squashInertial. cbv zeta. cbn [i_origin]. rewrite hp; [reflexivity|].
    intros v. rewrite of_parts_mat, eigen_acts, (h1 p eq_refl). apply rpy_mat_0.
  - unfold squashed. fold (child_pose j ci). cbn [i_origin]. rewrite hp; [assumption|].
    intros v. rewrite (mapply_meq _ _ v (child_meq j ci)), mmul_acts, h2, h3, !rpy_mat_0. reflexivity.
Qed.

(** ** Retyped documents *)
Definition rt (L : list string) (j : Joint R) : Joint R := if mem (j_name j) L then set_type j "fixed" else j.
Lemma joints_retype : forall L d, joints (retype L d) = map (rt L) (joints d).
Proof.
  intros L d. unfold joints, retype. induction d as [|[l|j|s] d IH]; cbn; [reflexivity|assumption| |assumption].
  rewrite <- IH. unfold rt. now destruct (mem (j_name j) L).
Qed.
Lemma retype_nil : forall d, retype [] d = d.
Proof. intros d. unfold retype. rewrite <- (map_id d) at 2. apply map_ext. now intros [l|j|s]. Qed.
Lemma links_retype : forall L d, links (retype L d) = links d.
Proof.
  intros L d. unfold links, retype. induction d as [|[l|j|s] d IH]; cbn; [reflexivity|now rewrite IH| |assumption].
  rewrite <- IH. now destruct (mem (j_name j) L).
Qed.
Lemma retype_snoc : forall L n d, upd_joint (retype L d) n (fun k => set_type k "fixed") = retype (L ++ [n]) d.
Proof.
  intros L n d. unfold upd_joint, retype. rewrite map_map. apply map_ext. intros [l|j|s]; try reflexivity.
  rewrite Proofs_Walk.mem_app. destruct (mem (j_name j) L) eqn:e; cbn [orb].
  - cbn [j_name]. destruct (j_name j =? n)%string; reflexivity.
  - cbn. rewrite orb_false_r. destruct (j_name j =? n)%string; reflexivity.
Qed.
Lemma bare_upd_joint : forall (d : list (elem R)) n f, map bare (upd_joint d n f) = upd_joint (map bare d) n f.
Proof.
  intros d n f. unfold upd_joint. rewrite !map_map. apply map_ext. intros [l|j|s]; try reflexivity. cbn.
  destruct (j_name j =? n)%string; reflexivity.
Qed.
Lemma links_upd_joint : forall (d : list (elem R)) n f, links (upd_joint d n f) = links d.
Proof.
  intros d n f. unfold links, upd_joint. induction d as [|[l|j|s] d IH]; cbn; [reflexivity|now rewrite IH| |assumption].
  rewrite <- IH. now destruct (j_name j =? n)%string.
Qed.
Lemma rt_facts : forall L j, j_name (rt L j) = j_name j /\ j_parent (rt L j) = j_parent j /\ j_child (rt L j) = j_child j.
Proof. intros L j. unfold rt. now destruct (mem (j_name j) L). Qed.
Lemma retype_sg : forall L d D, map bare D = map bare (retype L d) -> same_graph d D.
Proof.
  intros L d D h. unfold same_graph. rewrite (bare_joints _ _ h), joints_retype, map_map. apply map_ext. intros j.
  destruct (rt_facts L j) as [-> [-> ->]]. reflexivity.
Qed.
Lemma retype_wc : forall L d D, map bare D = map bare (retype L d) -> well_connected d -> well_connected D.
Proof.
  intros L d D h w. apply bare_wc with (1 := eq_sym h). destruct w as [w1 w2 w3 w4].
  assert (hn : joint_names (retype L d) = joint_names d).
  { unfold joint_names. rewrite joints_retype, map_map. apply map_ext. intros j. apply rt_facts. }
  assert (hc : map (@j_child R) (joints (retype L d)) = map (@j_child R) (joints d)).
  { rewrite joints_retype, map_map. apply map_ext. intros j. apply rt_facts. }
  assert (hl : link_names (retype L d) = link_names d) by (unfold link_names; now rewrite links_retype).
  constructor; rewrite ?hn, ?hc, ?hl; try assumption.
  intros j hj. rewrite joints_retype in hj. apply in_map_iff in hj. destruct hj as [k [<- hk]].
  destruct (rt_facts L k) as [_ [-> ->]]. now apply w4.
Qed.

(** ** Traversals *)
Lemma runs_inv : forall {V} (doc : V -> list (elem R)) disc fin (P : list string -> V -> Prop),
  (forall rem v j v' b, P rem v -> disc v j = Ok (v', b) -> P rem v') ->
  (forall rem v j v', P (j_name j :: rem) v -> In j (joints (doc v)) -> fin v j = Ok v' -> P rem v') ->
  forall v h v', runs doc disc fin v h v' -> P (finished h) v -> P [] v'.
Proof.
  intros V doc disc fin P hd hf v h v' H. induction H as [v|v n j v1 b h v' hj hn e H IH|v n j v1 h v' hj hn e H IH]; intros hp.
  - exact hp.
  - apply IH. exact (hd _ _ _ _ _ hp e).
  - subst n. apply IH. apply (hf _ v j v1); assumption.
Qed.

Section Tree.
Variable t : tree R.
Notation d := (t_doc t).
Notation root := (t_root t).
Hypothesis hs : sound t.
(** Whether massless joints are to be fixed. *)
Variable mm : bool.

Definition is_fixed (j : Joint R) : Prop := type_of (j_type j) = Some fixed.

(** One call of [finish]: from the document [D] and the names [L] to [D'] and [L']. *)
Definition step (D : list (elem R)) (L : list string) (j : Joint R) (D' : list (elem R)) (L' : list string) : Prop :=
  (is_fixed j /\ squash_joint D j = Ok D' /\ L' = L) \/
  (~ is_fixed j /\ (mm = true -> inertial_at D (j_child j) <> None) /\ D' = D /\ L' = L) \/
  (~ is_fixed j /\ mm = true /\ inertial_at D (j_child j) = None /\
   D' = upd_joint D (j_name j) (fun k => set_type k "fixed") /\ L' = L ++ [j_name j]).

Definition physics (rem : list string) (D : list (elem R)) : Prop :=
  (forall j, In j (joints d) -> is_fixed j -> In (j_name j) rem -> inertial_at D (j_parent j) <> None) /\
  (forall n i, inertial_at D n = Some i -> 0 < i_mass i) /\
  (forall place, allowed d place -> total_first place D = total_first place d) /\
  (unturned d -> (forall n i, inertial_at D n = Some i -> p_rpy (pose_from (i_origin i)) = (0,0,0)) /\
     forall place, allowed d place -> forall o u, total_axial place D o u = total_axial place d o u).

Record Pinv (rem : list string) (D : list (elem R)) (L : list string) : Prop := {
  i_doc : map bare D = map bare (retype L d);
  i_names : forall n, In n L -> ~ In n rem /\ exists j, attached d root j /\ ~ is_fixed j /\ j_name j = n;
  i_ord : forall a k b j, rem = a ++ j_name k :: b -> In k (joints d) -> In j (joints d) -> j_parent j = j_child k -> ~ In (j_name j) b;
  i_closed : forall k j, In k (joints d) -> attached d root j -> In (j_name k) rem -> j_parent k = j_child j -> In (j_name j) rem;
  i_attached : forall n, In n rem -> exists j, attached d root j /\ j_name j = n;
  i_nodup : NoDup rem;
  i_once : NoDup L;
  i_total : total_mass D = total_mass d;
  i_done : forall j, attached d root j -> ~ In (j_name j) rem ->
    (is_fixed j -> inertial_at D (j_child j) = None) /\
    (mm = true -> ~ is_fixed j -> (In (j_name j) L <-> inertial_at D (j_child j) = None));
  i_else : forall n, (forall j, attached d root j -> is_fixed j -> n <> j_parent j /\ n <> j_child j) ->
    inertial_at D n = inertial_at d n;
  i_physics : heavy d -> physics rem D
}.

Lemma attached_in : forall j, attached d root j -> In j (joints d).
Proof. intros j [p h]. apply path_snoc_inv in h. tauto. Qed.
Lemma attached_ends : forall j, attached d root j -> j_parent j <> j_child j.
Proof.
  intros j [p h] e. pose proof h as h'. apply path_snoc_inv in h'. destruct h' as [_ [_ h']]. rewrite e in h'.
  pose proof (path_unique d root (sd_doc t hs) (is_root_t t hs) _ _ _ h h') as ee.
  apply (f_equal (@length _)) in ee. rewrite app_length in ee. cbn in ee. lia.
Qed.

Lemma upd_at : forall D n f m, inertial_at (upd_joint D n f) m = inertial_at D m.
Proof. intros D n f m. unfold inertial_at. now rewrite links_upd_joint. Qed.
Lemma upd_total : forall g D n f, total g (upd_joint D n f) = total g D.
Proof. intros g D n f. unfold total. now rewrite links_upd_joint. Qed.

Lemma step_inv : forall rem D L j D' L', Pinv (j_name j :: rem) D L -> In j (joints D) -> step D L j D' L' -> Pinv rem D' L'.
Proof.
  intros rem D L j D' L' [hd hn ho hc ha hnd hln ht hdone hel hph] hj hstep. pose proof (sd_doc t hs) as w.
  pose proof (retype_wc L d D hd w) as wD.
  (* the joint of the document *)
  destruct (ha (j_name j) (or_introl eq_refl)) as [j0 [at0 en]]. pose proof (attached_in j0 at0) as hj0.
  assert (j = j0).
  { assert (hj1 : In j0 (joints D)).
    { rewrite (bare_joints _ _ hd), joints_retype. apply in_map_iff. exists j0. split; [|assumption]. unfold rt.
      destruct (mem (j_name j0) L) eqn:e; [|reflexivity]. apply mem_in in e. exfalso. apply (proj1 (hn _ e)). left. now symmetry. }
    apply (name_inj D); [assumption|assumption|assumption|now symmetry]. }
  subst j0. clear en. pose proof (attached_ends j at0) as hne.
  inversion hnd as [|? ? hnj hnd']; subst.
  (* the joints already finished *)
  assert (hbelow : forall k, In k (joints d) -> j_parent k = j_child j -> ~ In (j_name k) rem).
  { intros k hk ek. apply (ho [] j rem k eq_refl); assumption. }
  assert (hclosed : forall k k', In k (joints d) -> attached d root k' -> In (j_name k) rem -> j_parent k = j_child k' -> In (j_name k') rem).
  { intros k k' hk hk' hin ek. destruct (hc k k' hk hk' (or_intror hin) ek) as [e|h]; [|assumption].
    exfalso. assert (j = k') by (apply (name_inj d); try assumption; now apply attached_in). subst k'. exact (hbelow k hk ek hin). }
  assert (hord : forall a k b x, rem = a ++ j_name k :: b -> In k (joints d) -> In x (joints d) -> j_parent x = j_child k -> ~ In (j_name x) b).
  { intros a k b x e. apply (ho (j_name j :: a) k b x). cbn. now rewrite e. }
  assert (hrem : forall n, In n rem -> exists k, attached d root k /\ j_name k = n) by (intros n h; apply ha; now right).
  (* the body of a finished joint is not changed any more *)
  assert (hkeep : forall k, attached d root k -> ~ In (j_name k) (j_name j :: rem) -> j_child k <> j_child j /\ j_child k <> j_parent j).
  { intros k hk hni. split; intros e.
    - apply hni. left. f_equal. apply (child_inj d); try assumption; [now apply attached_in|now symmetry].
    - apply hni. apply (hc j k); try assumption; [now left|now symmetry]. }
  destruct hstep as [[hfx [e ->]]|[[hfx [hmass [-> ->]]]|[hfx [hmm [hi [-> ->]]]]]].
  - (* a fixed joint *)
    destruct (squash_step D j wD hj hne) as [D1 [e1 [hb [hat _]]]]. rewrite e in e1. injection e1 as <-.
    constructor; try assumption.
    + now rewrite hb.
    + intros n h. destruct (hn n h) as [h1 h2]. split; [|assumption]. intros h3. apply h1. now right.
    + rewrite (step_mass D j D' wD hj hne e). assumption.
    + intros k hk hni. destruct (string_dec (j_name k) (j_name j)) as [ek|ek].
      * assert (k = j) by (apply (name_inj d); try assumption; now apply attached_in). subst k. split; [|intros _ h; contradiction].
        intros _. rewrite hat. unfold merged. destruct (inertial_at D (j_child j)); [now rewrite String.eqb_refl|reflexivity].
      * assert (hni' : ~ In (j_name k) (j_name j :: rem)) by (intros [h|h]; [now apply ek|contradiction]).
        destruct (hkeep k hk hni') as [n1 n2].
        assert (es : inertial_at D' (j_child k) = inertial_at D (j_child k)).
        { rewrite hat. unfold merged. destruct (inertial_at D (j_child j)); [|reflexivity].
          apply String.eqb_neq in n1, n2. now rewrite n1, n2. }
        rewrite es. apply hdone; assumption.
    + intros n h. rewrite <- hel by assumption. rewrite hat. unfold merged. destruct (inertial_at D (j_child j)); [|reflexivity].
      destruct (h j at0 hfx) as [n1 n2]. apply String.eqb_neq in n1, n2. now rewrite n1, n2.
    + intros hh. destruct (hph hh) as [p1 [p2 [p3 p4]]].
      assert (hpar : inertial_at D (j_parent j) <> None) by (apply p1; [assumption|assumption|now left]).
      assert (hmg : forall ci, inertial_at D (j_child j) = Some ci -> mergeable j (inertial_at D (j_parent j)) ci).
      { intros ci eci. destruct (inertial_at D (j_parent j)) as [p|] eqn:epi; [|contradiction].
        cbn. pose proof (p2 _ _ eci). pose proof (p2 _ _ epi). lra. }
      split; [|split; [|split]].
      * intros k hk hkf hin. rewrite hat. unfold merged. destruct (inertial_at D (j_child j)) as [ci|]; [|apply p1; [assumption|assumption|now right]].
        destruct (j_parent k =? j_child j)%string eqn:e1.
        -- exfalso. apply String.eqb_eq in e1. exact (hbelow k hk e1 hin).
        -- destruct (j_parent k =? j_parent j)%string; [discriminate|]. apply p1; [assumption|assumption|now right].
      * intros n i. rewrite hat. unfold merged. destruct (inertial_at D (j_child j)) as [ci|] eqn:eci; [|apply p2].
        destruct (n =? j_child j)%string; [discriminate|]. destruct (n =? j_parent j)%string; [|apply p2].
        intros ei. injection ei as <-. rewrite squashed_mass. pose proof (p2 _ _ eci).
        destruct (inertial_at D (j_parent j)) as [p|] eqn:epi; cbn [val]; [pose proof (p2 _ _ epi)|]; lra.
      * intros place hpl. rewrite (step_first place D j D' wD hj hne e (hpl j hj0 hfx) hmg). now apply p3.
      * intros hu. destruct (p4 hu) as [q1 q2]. split.
        -- intros n i. rewrite hat. unfold merged. destruct (inertial_at D (j_child j)) as [ci|] eqn:eci; [|apply q1].
           destruct (n =? j_child j)%string; [discriminate|]. destruct (n =? j_parent j)%string; [|apply q1].
           intros ei. injection ei as <-. apply squashed_rpy; [|now apply (proj1 hu)|exact (q1 _ _ eci)].
           intros p ep. exact (q1 _ _ ep).
        -- intros place hpl o u. rewrite (step_axial place D j D' wD hj hne e (hpl j hj0 hfx) hmg). rewrite (q2 place hpl).
           unfold twist. destruct (inertial_at D (j_parent j)) as [p|] eqn:epi; [|ring].
           destruct (inertial_at D (j_child j)) as [ci|] eqn:eci; [|ring].
           assert (hid := orientation_id j p ci (q1 _ _ epi) (proj1 hu j hj0 hfx) (q1 _ _ eci)).
           rewrite hid, rpy0_ident by assumption. ring.
  - (* another joint *)
    constructor; try assumption.
    + intros n h. destruct (hn n h) as [h1 h2]. split; [|assumption]. intros h3. apply h1. now right.
    + intros k hk hni. destruct (string_dec (j_name k) (j_name j)) as [ek|ek].
      * assert (k = j) by (apply (name_inj d); try assumption; now apply attached_in). subst k. split; [intros h; contradiction|].
        intros hmm _. specialize (hmass hmm). split; [|intros h; contradiction].
        intros h. exfalso. apply (proj1 (hn _ h)). now left.
      * apply hdone; [assumption|]. intros [h|h]; [now apply ek|contradiction].
    + intros hh. destruct (hph hh) as [p1 p2]. split; [|assumption]. intros k hk hkf hin. apply p1; [assumption|assumption|now right].
  - (* a massless joint *)
    assert (hnL : ~ In (j_name j) L) by (intros h; apply (proj1 (hn _ h)); now left).
    constructor; try assumption.
    + rewrite bare_upd_joint, hd, <- bare_upd_joint, retype_snoc. reflexivity.
    + intros n h. apply in_app_or in h. destruct h as [h|[<-|[]]].
      * destruct (hn n h) as [h1 h2]. split; [|assumption]. intros h3. apply h1. now right.
      * split; [assumption|]. exists j. now split.
    + apply (Permutation_NoDup (Permutation_cons_append L (j_name j))). now constructor.
    + unfold total_mass. rewrite upd_total. exact ht.
    + intros k hk hni. rewrite upd_at. destruct (string_dec (j_name k) (j_name j)) as [ek|ek].
      * assert (k = j) by (apply (name_inj d); try assumption; now apply attached_in). subst k. split; [intros h; contradiction|].
        intros _ _. split; [intros _; assumption|intros _; apply in_or_app; right; now left].
      * assert (hni' : ~ In (j_name k) (j_name j :: rem)) by (intros [h|h]; [now apply ek|contradiction]).
        destruct (hdone k hk hni') as [h1 h2]. split; [assumption|]. intros hm hf. rewrite <- (h2 hm hf).
        split; [|intros h; apply in_or_app; now left]. intros h. apply in_app_or in h. destruct h as [h|[h|[]]]; [assumption|].
        exfalso. apply ek. now symmetry.
    + intros n h. rewrite upd_at. now apply hel.
    + intros hh. destruct (hph hh) as [p1 [p2 [p3 p4]]]. split; [|split; [|split]].
      * intros k hk hkf hin. rewrite upd_at. apply p1; [assumption|assumption|now right].
      * intros n i. rewrite upd_at. apply p2.
      * intros place hpl. unfold total_first. rewrite !upd_total. exact (p3 place hpl).
      * intros hu. destruct (p4 hu) as [q1 q2]. split.
        -- intros n i. rewrite upd_at. apply q1.
        -- intros place hpl o u. unfold total_axial. rewrite upd_total. exact (q2 place hpl o u).
Qed.

Lemma start_inv : forall h : list event,
  NoDup (finished h) -> 
  (forall n, In n (finished h) <-> exists j, attached d root j /\ j_name j = n) ->
  (forall a k b j, finished h = a ++ j_name k :: b -> In k (joints d) -> In j (joints d) -> j_parent j = j_child k -> ~ In (j_name j) b) ->
  Pinv (finished h) d [].
Proof.
  intros h hn ha ho. constructor; try assumption; try reflexivity.
  - now rewrite retype_nil.
  - intros n [].
  - intros k j _ hj _ _. apply ha. now exists j.
  - intros n. apply ha.
  - constructor.
  - intros j hj hni. exfalso. apply hni. apply ha. now exists j.
  - intros [h1 h2]. split; [|split; [|split]].
    + intros j hj hf _. now apply h1.
    + assumption.
    + reflexivity.
    + intros [_ hu]. split; [assumption|reflexivity].
Qed.

Lemma hist_inv : forall {V} (doc : V -> list (elem R)) fin (names : V -> list string) v v',
  doc v = d -> names v = [] ->
  (forall u j u', same_graph d (doc u) -> fin u j = Ok u' -> same_graph d (doc u')) ->
  (forall u j u', fin u j = Ok u' -> step (doc u) (names u) j (doc u') (names u')) ->
  traverse_joints t doc (fun u _ => Ok (u, true)) fin v = Ok v' -> Pinv [] (doc v') (names v').
Proof.
  intros V doc fin names v v' ev en hg hst e.
  destruct (C46_once_proof t doc (fun u _ => Ok (u, true)) fin v v' hs) as [h [hR [nd [pf [hw [hp [_ ho]]]]]]]; try assumption.
  { intros u j u' b hu eu. injection eu as <- _. assumption. }
  { rewrite ev. apply sg_refl. }
  assert (hdisc : forall v h v', runs doc (fun u (_ : Joint R) => Ok (u, true)) fin v h v' -> forall n, In n (discovered h) -> In (Disc n true) h).
  { intros u g u' R'. induction R' as [u|u n j u1 b g u' hi hnn eu R' IH|u n j u1 g u' hi hnn eu R' IH]; intros m hm; [contradiction| |].
    - injection eu as <- <-. destruct hm as [<-|hm]; [now left|]. right. now apply IH.
    - right. now apply IH. }
  assert (hall : forall p l, path d root p l -> forall k, In k p -> In (j_name k) (discovered h)).
  { induction p as [|x q IH] using rev_ind; intros l hq k hk; [contradiction|].
    pose proof hq as hq'. apply path_snoc_inv in hq'. destruct hq' as [-> [_ hq']].
    apply in_app_or in hk. destruct hk as [hk|[<-|[]]]; [exact (IH _ hq' k hk)|].
    apply (hw q x hq). intros y hy. apply (hdisc _ _ _ hR). exact (IH _ hq' y hy). }
  apply (runs_inv doc (fun u (_ : Joint R) => Ok (u, true)) fin (fun rem u => Pinv rem (doc u) (names u))) with (v := v) (h := h).
  - intros rem u j u' b hu eu. injection eu as <- _. assumption.
  - intros rem u j u' hu hj eu. apply step_inv with (D := doc u) (L := names u) (j := j); [assumption|assumption|now apply hst].
  - assumption.
  - rewrite ev, en. apply start_inv.
    + apply (Permutation_NoDup (Permutation_sym pf)). assumption.
    + intros n. split.
      * intros hn. apply (Permutation_in _ pf) in hn. destruct (hp n hn) as [p [j [h1 h2]]]. exists j. split; [now exists p|assumption].
      * intros [j [[p h1] <-]]. apply (Permutation_in _ (Permutation_sym pf)). apply (hall (p ++ [j]) (j_child j) h1).
        apply in_or_app. right. now left.
    + exact ho.
Qed.

Lemma squash_bare : forall (u : list (elem R)) j u', squash_joint u j = Ok u' -> map bare u' = map bare u.
Proof.
  intros u j u' e. unfold squash_joint in e. destruct (find_link u (j_child j)) as [c|]; [|discriminate].
  destruct (l_inertial c); [|now injection e as <-]. destruct (find_link u (j_parent j)); [|discriminate].
  injection e as <-. now rewrite !bare_upd.
Qed.
Lemma sg_trans : forall a b c : list (elem R), same_graph a b -> same_graph b c -> same_graph a c.
Proof. unfold same_graph. congruence. Qed.
Lemma sg_upd : forall (u : list (elem R)) n, same_graph u (upd_joint u n (fun k => set_type k "fixed")).
Proof.
  intros u n. unfold same_graph, joints, upd_joint. induction u as [|[l|j|s] u IH]; cbn; [reflexivity|assumption| |assumption].
  rewrite map_app. destruct (j_name j =? n)%string; cbn; now rewrite IH.
Qed.
End Tree.

Lemma sf_total : forall t : tree R, sound t -> (forall j, attached (t_doc t) (t_root t) j -> type_of (j_type j) <> None) ->
  exists D, traverse_joints t (fun D => D) (fun D _ => Ok (D, true)) sf_finish (t_doc t) = Ok D /\ map bare D = map bare (t_doc t).
Proof.
  intros t hs hty. unfold traverse_joints.
  refine (walk_total t _ (fun D : list (elem R) => D) (fun D _ => Ok (D, true)) sf_finish hs (fun _ D => map bare D = map bare (t_doc t))
    _ _ _ (Datatypes.S (length (joints (t_doc t)))) nil (t_root t) (t_doc t) _ _ _); [| | |constructor|cbn; lia|reflexivity].
  - intros p D h. apply bare_sg. now symmetry.
  - intros p D j j' _ h _ _. exists D, true. now split.
  - intros p D j j' hp h hj' en.
    assert (wD : well_connected D) by (apply bare_wc with (1 := eq_sym h); apply (sd_doc t hs)).
    assert (hat : attached (t_doc t) (t_root t) j) by now exists p.
    assert (j' = j).
    { apply (name_inj D); try assumption. rewrite (bare_joints _ _ h). now apply (attached_in t). }
    subst j'. unfold sf_finish. specialize (hty j hat). destruct (type_of (j_type j)) as [[]|]; try contradiction; try (now exists D).
    destruct (squash_step D j wD hj' (attached_ends t hs j hat)) as [D' [e [hb _]]]. exists D'. split; [assumption|now rewrite hb].
Qed.
Lemma sf_step : forall (D : list (elem R)) j D', sf_finish D j = Ok D' -> step false D [] j D' [].
Proof.
  intros D j D' e. unfold sf_finish in e. unfold step, is_fixed.
  destruct (type_of (j_type j)) as [[]|] eqn:et; try discriminate;
    try (injection e as <-; right; left; split; [discriminate|]; split; [discriminate|]; now split).
  left. now repeat split.
Qed.

Lemma mm_total : forall t : tree R, sound t -> (forall j, attached (t_doc t) (t_root t) j -> type_of (j_type j) <> None) ->
  exists v, traverse_joints t fst (fun v _ => Ok (v, true)) mm_finish (t_doc t, []) = Ok v /\
    map bare (fst v) = map bare (retype (snd v) (t_doc t)).
Proof.
  intros t hs hty. unfold traverse_joints.
  refine (walk_total t _ (@fst (list (elem R)) (list string)) (fun v _ => Ok (v, true)) mm_finish hs
    (fun _ v => map bare (fst v) = map bare (retype (snd v) (t_doc t)))
    _ _ _ (Datatypes.S (length (joints (t_doc t)))) nil (t_root t) (t_doc t, nil) _ _ _); [| | |constructor|cbn; lia|cbn; now rewrite retype_nil].
  - intros p v h. now apply (retype_sg (snd v)).
  - intros p v j j' _ h _ _. exists v, true. now split.
  - intros p [D L] j j' hp h hj' en. cbn [fst snd] in *.
    pose proof (retype_wc L _ D h (sd_doc t hs)) as wD.
    assert (hat : attached (t_doc t) (t_root t) j) by now exists p.
    assert (ej : j' = rt L j).
    { apply (name_inj D); try assumption; [|now rewrite (proj1 (rt_facts L j))].
      rewrite (bare_joints _ _ h), joints_retype. apply in_map. now apply (attached_in t). }
    destruct (rt_facts L j) as [_ [r2 r3]]. rewrite <- ej in r2, r3.
    assert (hne : j_parent j' <> j_child j') by (rewrite r2, r3; now apply (attached_ends t hs)).
    assert (hty' : type_of (j_type j') <> None).
    { rewrite ej. unfold rt. destruct (mem (j_name j) L); [discriminate|now apply hty]. }
    unfold mm_finish. cbn [fst snd].
    destruct (squash_step D j' wD hj' hne) as [D' [e [hb _]]].
    destruct (find_at D _ (proj2 (wc_ends D wD j' hj'))) as [c [ec ic]].
    destruct (type_of (j_type j')) as [[]|]; try contradiction;
      try (rewrite ec; destruct (l_inertial c); [exists (D, L); now split|];
           eexists; split; [reflexivity|]; cbn [fst snd]; rewrite bare_upd_joint, h, <- bare_upd_joint, retype_snoc; reflexivity).
    rewrite e. cbn [rbind]. exists (D', L). split; [reflexivity|]. cbn [fst snd]. now rewrite hb.
Qed.
Lemma mm_step : forall (v : list (elem R) * list string) j v', mm_finish v j = Ok v' -> step true (fst v) (snd v) j (fst v') (snd v').
Proof.
  intros [D L] j [D' L'] e. unfold mm_finish in e. cbn [fst snd] in *. unfold step, is_fixed.
  destruct (type_of (j_type j)) as [[]|] eqn:et; try discriminate;
  try (unfold find_link in e; unfold inertial_at; destruct (find (fun l => (l_name l =? j_child j)%string) (links D)) as [c|]; [|discriminate];
    destruct (l_inertial c); [right; left|right; right]; injection e as <- <-;
    (split; [discriminate|]); repeat split; discriminate).
  left. destruct (squash_joint D j) as [D1| | |]; try discriminate. cbn [rbind] in e. injection e as <- <-. now repeat split.
Qed.

Lemma mmul_acts_t : forall A B v, mapply (mtrans (mmul A B)) v = mapply (mtrans B) (mapply (mtrans A) v).
Proof. intros A B [[x y] z]. unfold mmul, sum3. vexp. pair_eq; ring. Qed.
Lemma trans_mat : forall t u, rigid t -> mapply (mtrans (tmat t)) (mapply (tmat t) u) = u.
Proof.
  intros [a b c x d e f y g h i z] [[u1 u2] u3] r. apply rigid_mk in r. destruct r as [(h1&h2&h3&h4&h5&h6) _].
  rewrite tmat_mk. unfold of_rows. vexp. pair_eq; nsatz.
Qed.
Lemma along_onto : forall place n p w, rigid_motion (place n) -> exists u, along (frame_of place n p) u = w.
Proof.
  intros place n p w [tg [rg hg]]. pose proof (rigid_eigen (pose_from (i_origin p))) as ra.
  set (a := toEigenTransform (pose_from (i_origin p))) in *.
  exists (mapply (tmat tg) (mapply (tmat a) w)).
  rewrite (along_ext _ (fun v => motion tg (motion a v))) by (intros v; unfold frame_of; now rewrite hg, <- motion_pose).
  unfold along. rewrite !motion_sub, !vdot_adj, !trans_mat by assumption. destruct w as [[x y] z]. vexp. pair_eq; ring.
Qed.
Lemma joint_squash : forall (t : tree R) j, sound t -> In j (joints (t_doc t)) -> 
  squashJointMass t (j_name j) = rbind (squash_joint (t_doc t) j) (fun d => Ok (mkTree d (t_ix t) (t_root t))).
Proof.
  intros t j hs hj. unfold squashJointMass. assert (e : find_joint (t_doc t) (j_name j) = Some j) by (apply find_joint_iff; [apply (sd_doc t hs)|now split]).
  now rewrite e.
Qed.

(** A robot with one joint. *)
Definition duo (bi ai : option (Inertial R)) (o : option (Pose R)) : list (elem R) :=
  [ELink (mkLink "base" bi [] []); ELink (mkLink "a" ai [] []); EJoint (mkJoint "j" "fixed" "base" "a" o None None)].
Definition duo_tree bi ai o : tree R := mkTree (duo bi ai o) ["j"%string] "base".
Lemma duo_ok : forall bi ai o, ctor (duo bi ai o) = Ok (duo_tree bi ai o).
Proof. intros. vm_compute. reflexivity. Qed.
Lemma duo_sound : forall bi ai o, sound (duo_tree bi ai o).
Proof.
  intros bi ai o. destruct (C44_or_throws_proof (duo bi ai o)) as [[_ [t' [e' [_ [_ h]]]]]|[_ e']]; rewrite duo_ok in e'; [|discriminate].
  now injection e' as <-.
Qed.
Definition duo_place (o : option (Pose R)) (n : string) (v : vec3) : vec3 :=
  if (n =? "a")%string then pose_motion (pose_from o) v else v.
Lemma duo_holds : forall o, holds (duo_place o) (mkJoint "j" "fixed" "base" "a" o None None).
Proof.
  intros o. split; [|reflexivity]. exists (mkTransform 1 0 0 0 0 1 0 0 0 0 1 0). split.
  - apply rigid_mk. cbn. unfold so3. repeat split; ring.
  - intros [[x y] z]. unfold duo_place. cbn. unfold motion. rewrite tmat_mk. unfold tpos, of_rows. vexp. cbn [t_r1c4 t_r2c4 t_r3c4]. pair_eq; ring.
Qed.

(** ** Properties *)

Lemma C49_joint_mass_proof : forall (t : tree R) j, sound t -> In j (joints (t_doc t)) -> j_parent j <> j_child j ->
  exists t', squashJointMass t (j_name j) = Ok t' /\ t_root t' = t_root t /\ sound t' /\
    map bare (t_doc t') = map bare (t_doc t) /\
    inertial_at (t_doc t') (j_child j) = None /\
    (inertial_at (t_doc t') (j_parent j) = None <->
       inertial_at (t_doc t) (j_parent j) = None /\ inertial_at (t_doc t) (j_child j) = None) /\
    (forall n, n <> j_parent j -> n <> j_child j -> inertial_at (t_doc t') n = inertial_at (t_doc t) n) /\
    total_mass (t_doc t') = total_mass (t_doc t).
Proof.
  intros t j hs hj hne. destruct (squash_step _ j (sd_doc t hs) hj hne) as [d' [e [hb [hat _]]]].
  rewrite joint_squash, e by assumption. cbn [rbind]. eexists. split; [reflexivity|]. cbn [t_root t_doc]. split; [reflexivity|].
  split; [|split; [assumption|split; [|split; [|split]]]].
  - destruct hs as [h1 h2 h3]. constructor; cbn [t_doc t_root t_ix].
    + apply bare_wc with (1 := eq_sym hb). assumption.
    + intros r. rewrite <- h2. unfold is_root. now rewrite (bare_names _ _ hb), (bare_joints _ _ hb).
    + unfold joint_names. now rewrite (bare_joints _ _ hb).
  - rewrite hat. unfold merged. destruct (inertial_at (t_doc t) (j_child j)); [now rewrite String.eqb_refl|reflexivity].
  - rewrite hat. unfold merged. destruct (inertial_at (t_doc t) (j_child j)) as [ci|]; [|tauto].
    apply String.eqb_neq in hne. rewrite hne, String.eqb_refl. split; [discriminate|]. intros [_ h]. discriminate.
  - intros n h1 h2. rewrite hat. unfold merged. destruct (inertial_at (t_doc t) (j_child j)) as [ci|]; [|reflexivity].
    apply String.eqb_neq in h1, h2. now rewrite h1, h2.
  - exact (step_mass _ j d' (sd_doc t hs) hj hne e).
Qed.


Lemma C49_joint_centre_proof : forall (t t' : tree R) j place, sound t -> In j (joints (t_doc t)) -> j_parent j <> j_child j ->
  squashJointMass t (j_name j) = Ok t' -> holds place j ->
  (forall ci, inertial_at (t_doc t) (j_child j) = Some ci -> mergeable j (inertial_at (t_doc t) (j_parent j)) ci) ->
  total_first place (t_doc t') = total_first place (t_doc t).
Proof.
  intros t t' j place hs hj hne e hh hm. rewrite joint_squash in e by assumption.
  destruct (squash_joint (t_doc t) j) as [d'| | |] eqn:e'; try discriminate. injection e as <-.
  exact (step_first place _ j d' (sd_doc t hs) hj hne e' hh hm).
Qed.


Lemma C49_joint_inertia_proof : forall (t t' : tree R) j place, sound t -> In j (joints (t_doc t)) -> j_parent j <> j_child j ->
  squashJointMass t (j_name j) = Ok t' -> holds place j ->
  (forall ci, inertial_at (t_doc t) (j_child j) = Some ci -> mergeable j (inertial_at (t_doc t) (j_parent j)) ci) ->
  ((forall o u, total_axial place (t_doc t') o u = total_axial place (t_doc t) o u) <->
   (forall ci, inertial_at (t_doc t) (j_child j) = Some ci -> turns_alike j (inertial_at (t_doc t) (j_parent j)) ci)).
Proof.
  intros t t' j place hs hj hne e hh hm. rewrite joint_squash in e by assumption.
  destruct (squash_joint (t_doc t) j) as [d'| | |] eqn:e'; try discriminate. injection e as <-. cbn [t_doc].
  pose proof (step_axial place _ j d' (sd_doc t hs) hj hne e' hh hm) as hx. split.
  - intros h ci eci p epi w. destruct (along_onto place (j_parent j) p w (proj1 hh)) as [u <-].
    specialize (hx (0,0,0) u). rewrite h in hx. unfold twist in hx. rewrite eci, epi in hx. lra.
  - intros h o u. rewrite hx. unfold twist. destruct (inertial_at (t_doc t) (j_parent j)) as [p|]; [|ring].
    destruct (inertial_at (t_doc t) (j_child j)) as [ci|]; [|ring]. rewrite (h ci eq_refl p eq_refl). ring.
Qed.


Lemma C49_alike_proof : forall j p ci,
  (forall w, mapply (orientation j p ci) w = mapply (mtrans (orientation j p ci)) w) \/
  (i_ixx ci = i_iyy ci /\ i_iyy ci = i_izz ci /\ i_ixy ci = 0 /\ i_ixz ci = 0 /\ i_iyz ci = 0) ->
  turns_alike j (Some p) ci.
Proof.
  intros j p ci [h|[h1 [h2 [h3 [h4 h5]]]]] q eq w; injection eq as <-; [now rewrite h|].
  destruct (acts_relative j ci p w) as [<- <-].
  assert (hq : forall v, quad ci v = i_ixx ci * vdot v v).
  { intros [[x y] z]. unfold quad. rewrite <- h2, <- h1, h3, h4, h5. vexp. ring. }
  rewrite !hq. f_equal. unfold relative.
  assert (hr : rigid (child_pose j ci)) by apply child_rigid. assert (ha := rigid_eigen (pose_from (i_origin p))).
  set (a := toEigenTransform (pose_from (i_origin p))) in *. set (b := child_pose j ci) in *.
  rewrite mmul_acts, trans_dot, mat_dot by assumption.
  assert (ht : mapply (mtrans (mmul (mtrans (tmat a)) (tmat b))) w = mapply (mtrans (tmat b)) (mapply (tmat a) w)).
  { destruct w as [[x y] z]. unfold mmul, sum3. vexp. pair_eq; ring. }
  now rewrite ht, trans_dot, mat_dot.
Qed.


Lemma C49_turned_refuted_proof : exists (t t' : tree R) j place o u, ctor (t_doc t) = Ok t /\ joints (t_doc t) = cons j nil /\
  j_parent j <> j_child j /\ squashJointMass t (j_name j) = Ok t' /\ holds place j /\
  (forall n i, inertial_at (t_doc t) n = Some i -> i_mass i = 1 /\ pose_from (i_origin i) = mkPose (0,0,0) (0,0,0)) /\
  total_axial place (t_doc t') o u <> total_axial place (t_doc t) o u.
Proof.
  pose (pi := mkInertial (@None (Pose R)) 1 0 0 0 0 0 0). pose (ci := mkInertial (@None (Pose R)) 1 1 0 0 2 0 3).
  pose (o := Some (mkPose (0,0,0) (PI/2,0,PI/2))). pose (t := duo_tree (Some pi) (Some ci) o).
  pose (j := mkJoint "j" "fixed" "base" "a" o (@None (Array3d R)) None).
  assert (hs : sound t) by apply duo_sound. assert (hj : In j (joints (t_doc t))) by now left.
  assert (hne : j_parent j <> j_child j) by discriminate.
  destruct (C49_joint_mass_proof t j hs hj hne) as [t' [e _]].
  exists t, t', j, (duo_place o), (0,0,0), (1,0,0). split; [apply duo_ok|]. split; [reflexivity|]. split; [assumption|]. split; [assumption|].
  split; [apply duo_holds|]. split.
  { intros n i. unfold inertial_at, t, duo_tree, duo, links. cbn [t_doc flat_map app find l_name].
    destruct ("base" =? n)%string; [cbn [l_inertial]; intros h; injection h as <-; now split|].
    destruct ("a" =? n)%string; [cbn [l_inertial]; intros h; injection h as <-; now split|]. discriminate. }
  assert (hm : forall ci', inertial_at (t_doc t) (j_child j) = Some ci' -> mergeable j (inertial_at (t_doc t) (j_parent j)) ci').
  { intros ci' h. injection h as <-. cbn. lra. }
  rewrite joint_squash in e by assumption. destruct (squash_joint (t_doc t) j) as [d'| | |] eqn:e'; try discriminate. injection e as <-. cbn [t_doc].
  rewrite (step_axial (duo_place o) _ j d' (sd_doc t hs) hj hne e' (duo_holds o) hm).
  unfold twist. change (inertial_at (t_doc t) (j_parent j)) with (Some pi). change (inertial_at (t_doc t) (j_child j)) with (Some ci).
  cbv beta iota.
  assert (ea : along (frame_of (duo_place o) (j_parent j) pi) (1,0,0) = (1,0,0)).
  { unfold along, frame_of, duo_place. cbn [j_parent j String.eqb Ascii.eqb Bool.eqb]. unfold pose_motion. cbn [i_origin pi pose_from pose_id p_rpy p_xyz].
    rewrite !rpy_mat_0. vexp. pair_eq; ring. }
  rewrite ea.
  assert (e1 : mapply (orientation j pi ci) (1,0,0) = (0,1,0)).
  { unfold orientation. rewrite !mmul_acts. cbn [i_origin pi ci pose_from pose_id p_rpy p_xyz j_origin j o]. rewrite rpy_mat_0, rpy0_ident by apply rpy_mat_0.
    unfold rpy_mat. rewrite !mmul_acts. unfold RX, RY, RZ, vx, vy, vz. cbn [fst snd]. rewrite cos_PI2, sin_PI2, cos_0, sin_0. unfold of_rows. vexp. pair_eq; ring. }
  assert (e2 : mapply (mtrans (orientation j pi ci)) (1,0,0) = (0,0,1)).
  { unfold orientation. rewrite !mmul_acts_t. cbn [i_origin pi ci pose_from pose_id p_rpy p_xyz j_origin j o].
    rewrite (rpy0_ident (rpy_mat (0,0,0))) by apply rpy_mat_0.
    rewrite (rpy0_ident (mtrans (rpy_mat (0,0,0)))) by (intros v; apply rpy0_ident; apply rpy_mat_0).
    unfold rpy_mat. rewrite !mmul_acts_t. unfold RX, RY, RZ, vx, vy, vz. cbn [fst snd]. rewrite cos_PI2, sin_PI2, cos_0, sin_0. unfold of_rows. vexp. pair_eq; ring. }
  rewrite e1, e2. unfold quad. cbn [i_ixx i_ixy i_ixz i_iyy i_iyz i_izz ci]. vexp. lra.
Qed.


Lemma C49_moved_refuted_proof : exists (t t' : tree R) j place, ctor (t_doc t) = Ok t /\ joints (t_doc t) = cons j nil /\
  j_parent j <> j_child j /\ squashJointMass t (j_name j) = Ok t' /\ holds place j /\
  total_mass (t_doc t) = 1 /\ total_first place (t_doc t) = (0,0,0) /\ total_first place (t_doc t') = (-1,0,0).
Proof.
  pose (ci := mkInertial (Some (mkPose (-1,0,0) (0,0,0))) 1 1 0 0 1 0 1).
  pose (o := Some (mkPose (1,0,0) (0,0,0))). pose (t := duo_tree None (Some ci) o).
  pose (j := mkJoint "j" "fixed" "base" "a" o (@None (Array3d R)) None).
  assert (hs : sound t) by apply duo_sound. assert (hj : In j (joints (t_doc t))) by now left.
  assert (hne : j_parent j <> j_child j) by discriminate.
  destruct (C49_joint_mass_proof t j hs hj hne) as [t' [e _]].
  exists t, t', j, (duo_place o). split; [apply duo_ok|]. split; [reflexivity|]. split; [assumption|]. split; [assumption|].
  split; [apply duo_holds|].
  assert (hf : forall p : Pose R, p_rpy p = (0,0,0) -> pose_motion p (0,0,0) = p_xyz p).
  { intros p h. unfold pose_motion. rewrite h, rpy_mat_0. destruct (p_xyz p) as [[x y] z]. vexp. pair_eq; ring. }
  split; [unfold total_mass, total, t, duo_tree, duo, links; cbn [t_doc flat_map app fold_right l_inertial l_name i_mass ci]; ring|].
  rewrite joint_squash in e by assumption.
  destruct (squash_step _ j (sd_doc t hs) hj hne) as [d' [e' [_ [_ ht]]]]. rewrite e' in e. injection e as <-. cbn [t_doc].
  assert (h0 : total_first (duo_place o) (t_doc t) = (0,0,0)).
  { unfold total_first, total, t, duo_tree, duo, links. cbn [t_doc flat_map app fold_right l_inertial l_name].
    unfold first_moment, frame_of, duo_place. cbn [String.eqb Ascii.eqb Bool.eqb i_origin i_mass ci pose_from].
    rewrite (hf (mkPose (-1,0,0) (0,0,0)) eq_refl). unfold pose_motion. cbn [p_rpy p_xyz pose_from o]. rewrite rpy_mat_0. vexp. pair_eq; ring. }
  split; [assumption|]. unfold total_first in *.
  pose proof (f_equal vx h0) as h1. pose proof (f_equal vy h0) as h2. pose proof (f_equal vz h0) as h3. clear h0.
  unfold vx at 1 3 in h1. unfold vy at 1 3 in h2. unfold vz at 1 3 in h3. cbn [fst snd] in h1, h2, h3. rewrite !ht, h1, h2, h3.
  change (t_doc t) with (duo None (Some ci) o).
  change (inertial_at (duo None (Some ci) o) (j_parent j)) with (@None (Inertial R)).
  change (inertial_at (duo None (Some ci) o) (j_child j)) with (Some ci). cbv beta iota. cbn [val].
  assert (ho : i_origin (squashed j None ci) = Some (mkPose (-1,0,0) (0,0,0))).
  { unfold squashed. fold (child_pose j ci). cbn [i_origin]. unfold put_origin.
    assert (hi : is_identity (linear (child_pose j ci)) = true).
    { apply is_identity_iff. intros v. rewrite (mapply_meq _ _ v (child_meq j ci)), mmul_acts. cbn [j_origin j o i_origin ci pose_from p_rpy]. now rewrite !rpy_mat_0. }
    assert (hz : is_zero (translation (child_pose j ci)) = true).
    { apply (is_zero_iff (tpos (child_pose j ci))). rewrite <- motion_0, child_motion. cbn [j_origin j o i_origin ci pose_from].
      rewrite (hf (mkPose (-1,0,0) (0,0,0)) eq_refl). unfold pose_motion. cbn [p_rpy p_xyz]. rewrite rpy_mat_0. vexp. pair_eq; ring. }
    now rewrite hi, hz. }
  unfold first_moment, frame_of. rewrite ho. unfold duo_place. cbn [String.eqb Ascii.eqb Bool.eqb j_parent j_child j pose_from i_origin ci].
  rewrite (hf (mkPose (-1,0,0) (0,0,0)) eq_refl). unfold pose_motion. cbn [p_rpy p_xyz pose_from o]. rewrite rpy_mat_0.
  assert (hm : i_mass (squashed j None ci) = 1) by reflexivity.
  assert (hm' : i_mass ci = 1) by reflexivity.
  rewrite hm, hm'. vexp. pair_eq; ring.
Qed.


Lemma C49_self_refuted_proof : exists (t t' : tree R), ctor (t_doc t) = Ok t /\ squashJointMass t "j" = Ok t' /\
  total_mass (t_doc t) = 1 /\ total_mass (t_doc t') = 0.
Proof.
  assert (h : forall i : Inertial R, exists t t', t_doc t = 
    [ELink (mkLink "base" None [] []); ELink (mkLink "a" (Some i) [] []); EJoint (mkJoint "j" "fixed" "a" "a" None None None)] /\
    ctor (t_doc t) = Ok t /\ squashJointMass t "j" = Ok t' /\ t_doc t' =
    [ELink (mkLink "base" None [] []); ELink (mkLink "a" None [] []); EJoint (mkJoint "j" "fixed" "a" "a" None None None)]).
  { intros i. eexists (mkTree _ ["j"%string] "base"), _. cbn [t_doc]. split; [reflexivity|]. split; [vm_compute; reflexivity|].
    split; [|shelve]. unfold squashJointMass, squash_joint, find_link, find_joint, joints, links.
    cbn [t_doc t_ix t_root flat_map app find j_name j_child j_parent l_name l_inertial String.eqb Ascii.eqb Bool.eqb rbind]. reflexivity. Unshelve. reflexivity. }
  destruct (h (mkInertial None 1 1 0 0 1 0 1)) as [t [t' [e1 [e2 [e3 e4]]]]]. exists t, t'. split; [assumption|]. split; [assumption|].
  rewrite e1, e4. unfold total_mass, total, links. cbn [flat_map app fold_right l_inertial i_mass]. split; ring.
Qed.


Lemma C49_fixed_proof : forall t : tree R, sound t ->
  (forall j, attached (t_doc t) (t_root t) j -> type_of (j_type j) <> None) ->
  exists t', squashFixedJointsMass t = Ok t' /\ t_root t' = t_root t /\ t_ix t' = t_ix t /\
    map bare (t_doc t') = map bare (t_doc t) /\
    total_mass (t_doc t') = total_mass (t_doc t) /\
    (forall j, attached (t_doc t) (t_root t) j -> type_of (j_type j) = Some fixed ->
       inertial_at (t_doc t') (j_child j) = None) /\
    (forall n, (forall j, attached (t_doc t) (t_root t) j -> type_of (j_type j) = Some fixed -> n <> j_parent j /\ n <> j_child j) ->
       inertial_at (t_doc t') n = inertial_at (t_doc t) n).
Proof.
  intros t hs hty. destruct (sf_total t hs hty) as [D [e hb]].
  pose proof (hist_inv t hs false (fun D : list (elem R) => D) sf_finish (fun _ => nil) (t_doc t) D eq_refl eq_refl) as hp.
  destruct hp as [_ _ _ _ _ _ _ ht hd he _]; [| |assumption|].
  - intros u j u' hu eu. apply sg_trans with (1 := hu). unfold sf_finish in eu. destruct (type_of (j_type j)) as [[]|]; try discriminate;
      try (injection eu as <-; apply sg_refl). apply bare_sg. symmetry. now apply squash_bare in eu.
  - intros u j u' eu. now apply sf_step.
  - unfold squashFixedJointsMass. rewrite e. cbn [rbind]. eexists. split; [reflexivity|]. cbn [t_root t_ix t_doc].
    split; [reflexivity|]. split; [reflexivity|]. split; [assumption|]. split; [assumption|]. split; [|exact he].
    intros j hj hf. apply (proj1 (hd j hj (fun h => h))). assumption.
Qed.


Lemma C49_fixed_physics_partial_proof : forall t t' : tree R, sound t ->
  squashFixedJointsMass t = Ok t' -> heavy (t_doc t) ->
  forall place, allowed (t_doc t) place ->
  total_first place (t_doc t') = total_first place (t_doc t) /\
  (unturned (t_doc t) -> forall o u, total_axial place (t_doc t') o u = total_axial place (t_doc t) o u).
Proof.
  intros t t' hs e hh place hpl. unfold squashFixedJointsMass in e.
  destruct (traverse_joints t (fun D => D) (fun D _ => Ok (D, true)) sf_finish (t_doc t)) as [D| | |] eqn:e'; try discriminate. injection e as <-.
  pose proof (hist_inv t hs false (fun D : list (elem R) => D) sf_finish (fun _ => nil) (t_doc t) D eq_refl eq_refl) as hp.
  destruct hp as [_ _ _ _ _ _ _ _ _ _ hp]; [| |assumption|].
  - intros u j u' hu eu. apply sg_trans with (1 := hu). unfold sf_finish in eu. destruct (type_of (j_type j)) as [[]|]; try discriminate;
      try (injection eu as <-; apply sg_refl). apply bare_sg. symmetry. now apply squash_bare in eu.
  - intros u j u' eu. now apply sf_step.
  - destruct (hp hh) as [_ [_ [h1 h2]]]. cbn [t_doc]. split; [now apply h1|]. intros hu. now apply h2.
Qed.


Lemma mm_sg : forall t (u : list (elem R) * list string) j u', same_graph (t_doc t) (fst u) -> mm_finish u j = Ok u' -> same_graph (t_doc t) (fst u').
Proof.
  intros t u j u' hu eu. apply mm_step in eu. destruct eu as [[_ [e _]]|[[_ [_ [-> _]]]|[_ [_ [_ [-> _]]]]]]; [|assumption|].
  - apply sg_trans with (1 := hu), bare_sg. symmetry. exact (squash_bare _ _ _ e).
  - apply sg_trans with (1 := hu), sg_upd.
Qed.

Lemma C49_massless_proof : forall t : tree R, sound t ->
  (forall j, attached (t_doc t) (t_root t) j -> type_of (j_type j) <> None) ->
  exists t' names, makeMasslessJointsFixed t = Ok (t', names) /\ t_root t' = t_root t /\ t_ix t' = t_ix t /\
    map bare (t_doc t') = map bare (retype names (t_doc t)) /\ NoDup names /\
    (forall n, In n names -> exists j, attached (t_doc t) (t_root t) j /\ j_name j = n /\ type_of (j_type j) <> Some fixed) /\
    total_mass (t_doc t') = total_mass (t_doc t) /\
    (forall j, attached (t_doc t) (t_root t) j ->
       (type_of (j_type j) = Some fixed \/ In (j_name j) names <-> inertial_at (t_doc t') (j_child j) = None)) /\
    (forall n, (forall j, attached (t_doc t) (t_root t) j -> type_of (j_type j) = Some fixed -> n <> j_parent j /\ n <> j_child j) ->
       inertial_at (t_doc t') n = inertial_at (t_doc t) n).
Proof.
  intros t hs hty. destruct (mm_total t hs hty) as [v [e hb]].
  pose proof (hist_inv t hs true (@fst _ _) mm_finish (@snd _ _) (t_doc t, nil) v eq_refl eq_refl (mm_sg t) mm_step e) as [_ hn _ _ _ _ hl ht hd he _].
  unfold makeMasslessJointsFixed. rewrite e. cbn [rbind]. eexists _, _. split; [reflexivity|]. cbn [t_root t_ix t_doc].
  split; [reflexivity|]. split; [reflexivity|]. split; [assumption|]. split; [assumption|]. split; [|split; [assumption|split; [|exact he]]].
  - intros n h. destruct (hn n h) as [_ [j [h1 [h2 h3]]]]. exists j. now repeat split.
  - intros j hj. destruct (hd j hj (fun h => h)) as [h1 h2]. unfold is_fixed in *.
    assert (hdec : type_of (j_type j) = Some fixed \/ type_of (j_type j) <> Some fixed).
    { destruct (type_of (j_type j)) as [[]|]; (now left) || (right; discriminate). }
    destruct hdec as [hf|hf].
    + split; [intros _; now apply h1|now left].
    + split; [intros [h|h]; [contradiction|now apply (h2 eq_refl hf)]|]. intros h. right. now apply (h2 eq_refl hf).
Qed.


Lemma C49_massless_physics_partial_proof : forall (t t' : tree R) names, sound t ->
  makeMasslessJointsFixed t = Ok (t', names) -> heavy (t_doc t) ->
  forall place, allowed (t_doc t) place ->
  total_first place (t_doc t') = total_first place (t_doc t) /\
  (unturned (t_doc t) -> forall o u, total_axial place (t_doc t') o u = total_axial place (t_doc t) o u).
Proof.
  intros t t' names hs e hh place hpl. unfold makeMasslessJointsFixed in e.
  destruct (traverse_joints t fst (fun v _ => Ok (v, true)) mm_finish (t_doc t, [])) as [v| | |] eqn:e'; try discriminate. injection e as <- <-.
  pose proof (hist_inv t hs true (@fst _ _) mm_finish (@snd _ _) (t_doc t, nil) v eq_refl eq_refl (mm_sg t) mm_step e') as [_ _ _ _ _ _ _ _ _ _ hp].
  destruct (hp hh) as [_ [_ [h1 h2]]]. cbn [t_doc]. split; [now apply h1|]. intros hu. now apply h2.
Qed.


Lemma C49_eigen_proof : forall i : Inertial R, let '(m, c, inertia) := urdfInertialToEigen i in
  let Q := rpy_mat (p_rpy (pose_from (i_origin i))) in
  m = i_mass i /\ c = p_xyz (pose_from (i_origin i)) /\
  ((forall u, mquad inertia u = quad i (along (pose_motion (pose_from (i_origin i))) u)) <->
   (forall u, quad i (mapply Q u) = quad i (mapply (mtrans Q) u))).
Proof.
  intros i. unfold urdfInertialToEigen. cbv zeta. split; [reflexivity|]. split.
  - change (tpos (toEigenTransform (pose_from (i_origin i))) = p_xyz (pose_from (i_origin i))).
    rewrite <- motion_0, motion_pose. unfold pose_motion. rewrite (eq_sym (eigen_acts _ _)). 
    destruct (p_xyz (pose_from (i_origin i))) as [[x y] z]. vexp. pair_eq; ring.
  - set (a := toEigenTransform (pose_from (i_origin i))).
    assert (hq : forall u, mquad (m3_mul (m3_mul (m3_trans (linear a)) (toEigenMatrix3 i)) (linear a)) u = quad i (mapply (tmat a) u)).
    { intros [[u1 u2] u3]. destruct i as [o m i1 i2 i3 i4 i5 i6]. destruct a as [a11 a12 a13 a14 a21 a22 a23 a24 a31 a32 a33 a34].
      rewrite tmat_mk. unfold mquad, quad, m3_mul, m3_trans, linear, toEigenMatrix3, of_rows.
      cbn [x00 x01 x02 x10 x11 x12 x20 x21 x22 i_ixx i_ixy i_ixz i_iyy i_iyz i_izz t_r1c1 t_r1c2 t_r1c3 t_r2c1 t_r2c2 t_r2c3 t_r3c1 t_r3c2 t_r3c3].
      cbv [s_add s_mul RScalar]. vexp. ring. }
    assert (h1 : forall u, mapply (tmat a) u = mapply (rpy_mat (p_rpy (pose_from (i_origin i)))) u) by (intros u; apply eigen_acts).
    assert (h2 : forall u, along (pose_motion (pose_from (i_origin i))) u = mapply (mtrans (rpy_mat (p_rpy (pose_from (i_origin i))))) u).
    { intros u. rewrite (along_ext _ (motion a)) by (intros v; now rewrite <- motion_pose). rewrite along_motion.
      apply mapply_meq, meq_trans, eigen_meq. }
    split; intros h u; specialize (h u); rewrite ?hq, ?h1, ?h2 in *; assumption.
Qed.


Lemma C49_eigen_refuted_proof : exists (i : Inertial R) u,
  mquad (snd (urdfInertialToEigen i)) u <> quad i (along (pose_motion (pose_from (i_origin i))) u).
Proof.
  pose (i := mkInertial (Some (mkPose (0,0,0) (PI/2,0,PI/2))) 1 1 0 0 2 0 3). exists i, (1,0,0).
  assert (hq : mquad (snd (urdfInertialToEigen i)) (1,0,0) = quad i (mapply (tmat (toEigenTransform (pose_from (i_origin i)))) (1,0,0))).
  { unfold urdfInertialToEigen. cbn [snd]. generalize (toEigenTransform (pose_from (i_origin i))). intros [a11 a12 a13 a14 a21 a22 a23 a24 a31 a32 a33 a34].
    rewrite tmat_mk. unfold i. generalize (Some (mkPose (0,0,0) (PI/2,0,PI/2))). intros o.
    unfold mquad, quad, m3_mul, m3_trans, linear, toEigenMatrix3, of_rows.
    cbn [x00 x01 x02 x10 x11 x12 x20 x21 x22 i_ixx i_ixy i_ixz i_iyy i_iyz i_izz t_r1c1 t_r1c2 t_r1c3 t_r2c1 t_r2c2 t_r2c3 t_r3c1 t_r3c2 t_r3c3].
    cbv [s_add s_mul RScalar]. vexp. ring. }
  rewrite hq, eigen_acts.
  rewrite (along_ext _ (motion (toEigenTransform (pose_from (i_origin i))))) by (intros v; now rewrite <- motion_pose).
  rewrite along_motion, (mapply_meq _ _ _ (meq_trans _ _ (eigen_meq (pose_from (i_origin i))))).
  assert (e1 : mapply (rpy_mat (p_rpy (pose_from (i_origin i)))) (1,0,0) = (0,1,0)).
  { cbn [i_origin i pose_from p_rpy]. unfold rpy_mat. rewrite !mmul_acts. unfold RX, RY, RZ, vx, vy, vz. cbn [fst snd].
    rewrite cos_PI2, sin_PI2, cos_0, sin_0. unfold of_rows. vexp. pair_eq; ring. }
  assert (e2 : mapply (mtrans (rpy_mat (p_rpy (pose_from (i_origin i))))) (1,0,0) = (0,0,1)).
  { cbn [i_origin i pose_from p_rpy]. unfold rpy_mat. rewrite !mmul_acts_t. unfold RX, RY, RZ, vx, vy, vz. cbn [fst snd].
    rewrite cos_PI2, sin_PI2, cos_0, sin_0. unfold of_rows. vexp. pair_eq; ring. }
  rewrite e1, e2. unfold quad. cbn [i_ixx i_ixy i_ixz i_iyy i_iyz i_izz i]. vexp. lra.
Qed.
