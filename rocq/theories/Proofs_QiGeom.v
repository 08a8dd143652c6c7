(** * Lemmas for Props_QiGeom *)

From Coq Require Import Reals List Lra Lia Psatz Nsatz Bool Arith.
Import ListNotations.
From Verif Require Import Scalar RInst RLemmas Model_Base Model_Vec Model_Rigid Model_Helpers Model_Pose
  Model_Average Model_QiGeom Spec_Geom Spec_Average Spec_QiGeom SO3 SO3Quat Proofs_Geom.
From Verif Require Spec_Vec Proofs_Average Proofs_Plane Proofs_Quat.
Local Open Scope R_scope.

Lemma eq_dot_norm2 : forall q : Quaternion R, eq_dot q q = qnorm2 q.
Proof. intros [w x y z]. unr. ring. Qed.

Lemma accepted_iff : forall q : Quaternion R,
  isNormalized q (s_frac (Scalar := RScalar) 1 100000) = true <->
  Rabs (sqrt (qnorm2 q) - 1) < 1/100000.
Proof.
  intros q. unfold isNormalized, qi_norm. rewrite eq_dot_norm2. cbn. apply Rltb_iff.
Qed.

Lemma accepted_no : forall q : Quaternion R,
  isNormalized q (s_frac (Scalar := RScalar) 1 100000) = false <->
  ~ Rabs (sqrt (qnorm2 q) - 1) < 1/100000.
Proof.
  intros q. rewrite <- accepted_iff. destruct (isNormalized q _); split; intros; try discriminate; auto.
  exfalso; auto.
Qed.

Lemma unit_accepted : forall t, qi_unit t -> qi_accepted t.
Proof.
  intros t h. unfold qi_accepted. unfold qi_unit, unitq in h. rewrite h, sqrt_1.
  replace (1-1) with 0 by ring. rewrite Rabs_R0. lra.
Qed.

Lemma unit_norm : forall t, qi_unit t -> isNormalized (qi_rot t) (s_frac (Scalar := RScalar) 1 100000) = true.
Proof. intros t h. apply accepted_iff. apply (unit_accepted _ h). Qed.

Definition qprod (a b : QiTransform R) : QiTransform R :=
  mkQi (eq_mul (qi_rot a) (qi_rot b))
       (let v := eq_apply (qi_rot a) (qi_pos b) in
        mkPosition3D (p3_x (qi_pos a) + p3_x v) (p3_y (qi_pos a) + p3_y v) (p3_z (qi_pos a) + p3_z v)).

Lemma qi_mul_eq : forall a b, qi_accepted a -> qi_accepted b -> qi_mul a b = Ok (qprod a b).
Proof.
  intros a b ha hb. unfold qi_mul. apply accepted_iff in ha. apply accepted_iff in hb.
  rewrite ha, hb. reflexivity.
Qed.

Lemma affine_eq : forall a, qi_accepted a -> toEigenAffine3d a = Ok (eq_toTransform (qi_rot a) (qi_pos a)).
Proof. intros a h. unfold toEigenAffine3d. apply accepted_iff in h. rewrite h. reflexivity. Qed.

Lemma qprod_norm : forall a b : Quaternion R, qnorm2 (eq_mul a b) = qnorm2 a * qnorm2 b.
Proof. intros [w x y z] [w' x' y' z']. unr. ring. Qed.

Lemma qprod_unit : forall a b, qi_unit a -> qi_unit b -> qi_unit (qprod a b).
Proof.
  intros a b ha hb. unfold qi_unit, unitq in *. unfold qprod. cbn [qi_rot]. rewrite qprod_norm, ha, hb. ring.
Qed.

Lemma vec3_eq : forall a b c x y z : R, a = x -> b = y -> c = z -> (a, b, c) = (x, y, z).
Proof. intros; subst; reflexivity. Qed.

Ltac unq := unfold qi_unit, unitq, qnorm2 in *; cbn [qi_rot qi_pos q_w q_x q_y q_z] in *.

(** ** C62: the algebra of unit transforms *)

Lemma C62_product_proof : forall a b : QiTransform R, qi_unit a -> qi_unit b ->
  exists c, qi_mul a b = Ok c /\ qi_unit c /\
  forall v, qi_motion c v = qi_motion a (qi_motion b v).
Proof.
  intros a b ha hb. exists (qprod a b).
  split; [apply qi_mul_eq; apply unit_accepted; assumption|].
  split; [apply qprod_unit; assumption|].
  destruct a as [[w x y z] [px py pz]], b as [[w' x' y' z'] [px' py' pz']].
  unq. intros [[v1 v2] v3]. unr. apply vec3_eq; nsatz.
Qed.


Lemma C62_group_proof : forall a b c : QiTransform R, qi_unit a -> qi_unit b -> qi_unit c ->
  rbind (qi_mul a b) (fun ab => qi_mul ab c) = rbind (qi_mul b c) (fun bc => qi_mul a bc) /\
  qi_mul a qi_id = Ok a /\ qi_mul qi_id a = Ok a.
Proof.
  intros a b c ha hb hc.
  assert (hi : qi_unit qi_id) by (unfold qi_unit, unitq; unr; ring).
  rewrite !qi_mul_eq by (apply unit_accepted; assumption).
  cbn [rbind]. rewrite !qi_mul_eq by (apply unit_accepted; auto using qprod_unit).
  split; [|split].
  - f_equal. destruct a as [[w x y z] [px py pz]], b as [[w' x' y' z'] [px' py' pz']],
      c as [[w2 x2 y2 z2] [px2 py2 pz2]].
    unq. unfold qprod. cbn [qi_rot qi_pos]. f_equal; [unr; rec_eq; ring|].
    unr. rec_eq; nsatz.
  - f_equal. destruct a as [[w x y z] [px py pz]]. unfold qprod, qi_id. cbn [qi_rot qi_pos].
    f_equal; unr; rec_eq; ring.
  - f_equal. destruct a as [[w x y z] [px py pz]]. unfold qprod, qi_id. cbn [qi_rot qi_pos].
    f_equal; unr; rec_eq; ring.
Qed.


(** ** The decomposition of a rotation *)

Lemma norm_one : forall s u1 u2 u3 : R, 0 <= s -> u1*u1+u2*u2+u3*u3 = 1 ->
  (s*u1)*(s*u1) + (s*u2)*(s*u2) + (s*u3)*(s*u3) = 1 -> s = 1.
Proof.
  intros s u1 u2 u3 hs hu h.
  assert (E : s*s = 1) by (replace 1 with ((s*u1)*(s*u1) + (s*u2)*(s*u2) + (s*u3)*(s*u3)); rewrite <- (Rmult_1_r (s*s)), <- hu; ring).
  nra.
Qed.

Lemma isometry_one : forall a b c d e f g h i x y z : R,
  a*a+d*d+g*g = 1 -> b*b+e*e+h*h = 1 -> c*c+f*f+i*i = 1 ->
  a*b+d*e+g*h = 0 -> a*c+d*f+g*i = 0 -> b*c+e*f+h*i = 0 ->
  (a*x+b*y+c*z)*(a*x+b*y+c*z) + (d*x+e*y+f*z)*(d*x+e*y+f*z) + (g*x+h*y+i*z)*(g*x+h*y+i*z)
  = x*x+y*y+z*z.
Proof.
  intros * h1 h2 h3 h4 h5 h6.
  transitivity ((a*a+d*d+g*g)*(x*x) + (b*b+e*e+h*h)*(y*y) + (c*c+f*f+i*i)*(z*z)
    + 2*(a*b+d*e+g*h)*(x*y) + 2*(a*c+d*f+g*i)*(x*z) + 2*(b*c+e*f+h*i)*(y*z)); [ring|].
  rewrite h1, h2, h3, h4, h5, h6. ring.
Qed.

Lemma svd_row : forall m1 m2 m3 u1 u2 u3 s1 s2 s3 v11 v12 v13 v21 v22 v23 v31 v32 v33 : R,
  m1 = s1*u1*v11 + s2*u2*v12 + s3*u3*v13 ->
  m2 = s1*u1*v21 + s2*u2*v22 + s3*u3*v23 ->
  m3 = s1*u1*v31 + s2*u2*v32 + s3*u3*v33 ->
  v11*v11+v21*v21+v31*v31 = 1 -> v12*v12+v22*v22+v32*v32 = 1 -> v13*v13+v23*v23+v33*v33 = 1 ->
  v11*v12+v21*v22+v31*v32 = 0 -> v11*v13+v21*v23+v31*v33 = 0 -> v12*v13+v22*v23+v32*v33 = 0 ->
  m1*v11+m2*v21+m3*v31 = s1*u1 /\ m1*v12+m2*v22+m3*v32 = s2*u2 /\ m1*v13+m2*v23+m3*v33 = s3*u3.
Proof.
  intros * -> -> -> d1 d2 d3 d12 d13 d23. split; [|split].
  - transitivity (s1*u1*(v11*v11+v21*v21+v31*v31) + s2*u2*(v11*v12+v21*v22+v31*v32)
      + s3*u3*(v11*v13+v21*v23+v31*v33)); [ring|]. rewrite d1, d12, d13. ring.
  - transitivity (s1*u1*(v11*v12+v21*v22+v31*v32) + s2*u2*(v12*v12+v22*v22+v32*v32)
      + s3*u3*(v12*v13+v22*v23+v32*v33)); [ring|]. rewrite d2, d12, d23. ring.
  - transitivity (s1*u1*(v11*v13+v21*v23+v31*v33) + s2*u2*(v12*v13+v22*v23+v32*v33)
      + s3*u3*(v13*v13+v23*v23+v33*v33)); [ring|]. rewrite d3, d13, d23. ring.
Qed.

Lemma svd_rotation : forall m u s v, is_rot m -> decomposes m (u, s, v) ->
  m_mul u (m_transpose v) = m.
Proof.
  intros [a b c d e f g h i] [u11 u12 u13 u21 u22 u23 u31 u32 u33] [[s1 s2] s3]
    [v11 v12 v13 v21 v22 v23 v31 v32 v33] hr (hu & hv & h1 & h2 & h3 & hm).
  apply is_rot_mk in hr. rewrite rmat_mk in hu, hv, hm. rewrite rmat_mk in hm.
  apply orthonormal_of_rows in hu. apply orthonormal_of_rows in hv.
  cbn in h1, h2, h3.
  assert (e1 := hm 0%nat 0%nat ltac:(lia) ltac:(lia)).
  assert (e2 := hm 0%nat 1%nat ltac:(lia) ltac:(lia)).
  assert (e3 := hm 0%nat 2%nat ltac:(lia) ltac:(lia)).
  assert (e4 := hm 1%nat 0%nat ltac:(lia) ltac:(lia)).
  assert (e5 := hm 1%nat 1%nat ltac:(lia) ltac:(lia)).
  assert (e6 := hm 1%nat 2%nat ltac:(lia) ltac:(lia)).
  assert (e7 := hm 2%nat 0%nat ltac:(lia) ltac:(lia)).
  assert (e8 := hm 2%nat 1%nat ltac:(lia) ltac:(lia)).
  assert (e9 := hm 2%nat 2%nat ltac:(lia) ltac:(lia)).
  clear hm. unfold mmul, mtrans, mdiag, sum3 in *. cbn in e1, e2, e3, e4, e5, e6, e7, e8, e9.
  destruct hu as (p1&p2&p3&p4&p5&p6), hv as (q1&q2&q3&q4&q5&q6).
  destruct hr as [(r1&r2&r3&r4&r5&r6) r7].
  destruct (svd_row a b c u11 u12 u13 s1 s2 s3 v11 v12 v13 v21 v22 v23 v31 v32 v33) as (x1&x2&x3);
    try assumption; try (rewrite ?e1, ?e2, ?e3; ring).
  destruct (svd_row d e f u21 u22 u23 s1 s2 s3 v11 v12 v13 v21 v22 v23 v31 v32 v33) as (y1&y2&y3);
    try assumption; try (rewrite ?e4, ?e5, ?e6; ring).
  destruct (svd_row g h i u31 u32 u33 s1 s2 s3 v11 v12 v13 v21 v22 v23 v31 v32 v33) as (z1&z2&z3);
    try assumption; try (rewrite ?e7, ?e8, ?e9; ring).
  assert (n1 := isometry_one a b c d e f g h i v11 v21 v31 r1 r2 r3 r4 r5 r6).
  assert (n2 := isometry_one a b c d e f g h i v12 v22 v32 r1 r2 r3 r4 r5 r6).
  assert (n3 := isometry_one a b c d e f g h i v13 v23 v33 r1 r2 r3 r4 r5 r6).
  rewrite x1, y1, z1, q1 in n1. rewrite x2, y2, z2, q2 in n2. rewrite x3, y3, z3, q3 in n3.
  apply norm_one in n1; [|assumption|assumption].
  apply norm_one in n2; [|assumption|assumption].
  apply norm_one in n3; [|assumption|assumption].
  subst s1 s2 s3. unr. rec_eq; rewrite ?e1, ?e2, ?e3, ?e4, ?e5, ?e6, ?e7, ?e8, ?e9; ring.
Qed.

Lemma det_mul : forall u v : Rotation R, em_det (m_mul u v) = em_det u * em_det v.
Proof. intros [? ? ? ? ? ? ? ? ?] [? ? ? ? ? ? ? ? ?]. unr. ring. Qed.

Lemma ortho_det : forall m : Rotation R, orthonormal (rmat m) -> em_det m * em_det m = 1.
Proof.
  intros [a b c d e f g h i] H. rewrite rmat_mk in H. apply orthonormal_of_rows in H.
  destruct H as (h1&h2&h3&h4&h5&h6). unr.
  transitivity ((a*a+d*d+g*g)*((b*b+e*e+h*h)*(c*c+f*f+i*i) - (b*c+e*f+h*i)*(b*c+e*f+h*i))
    - (a*b+d*e+g*h)*((a*b+d*e+g*h)*(c*c+f*f+i*i) - (b*c+e*f+h*i)*(a*c+d*f+g*i))
    + (a*c+d*f+g*i)*((a*b+d*e+g*h)*(b*c+e*f+h*i) - (b*b+e*e+h*h)*(a*c+d*f+g*i))); [ring|].
  rewrite h1, h2, h3, h4, h5, h6. ring.
Qed.

Lemma isometry_dot : forall a b c d e f g h i x y z x' y' z' : R,
  a*a+d*d+g*g = 1 -> b*b+e*e+h*h = 1 -> c*c+f*f+i*i = 1 ->
  a*b+d*e+g*h = 0 -> a*c+d*f+g*i = 0 -> b*c+e*f+h*i = 0 ->
  (a*x+b*y+c*z)*(a*x'+b*y'+c*z') + (d*x+e*y+f*z)*(d*x'+e*y'+f*z') + (g*x+h*y+i*z)*(g*x'+h*y'+i*z')
  = x*x'+y*y'+z*z'.
Proof.
  intros * h1 h2 h3 h4 h5 h6.
  transitivity ((a*a+d*d+g*g)*(x*x') + (b*b+e*e+h*h)*(y*y') + (c*c+f*f+i*i)*(z*z')
    + (a*b+d*e+g*h)*(x*y'+y*x') + (a*c+d*f+g*i)*(x*z'+z*x') + (b*c+e*f+h*i)*(y*z'+z*y')); [ring|].
  rewrite h1, h2, h3, h4, h5, h6. ring.
Qed.

Lemma ortho_mul : forall u v : Rotation R, orthonormal (rmat u) -> orthonormal (rmat v) ->
  orthonormal (rmat (m_mul u v)).
Proof.
  intros [a b c d e f g h i] [a' b' c' d' e' f' g' h' i'] hu hv. rewrite m_mul_mk.
  rewrite rmat_mk in *. apply orthonormal_of_rows in hu. apply orthonormal_of_rows in hv.
  apply orthonormal_of_rows.
  destruct hu as (h1&h2&h3&h4&h5&h6). destruct hv as (k1&k2&k3&k4&k5&k6).
  repeat split; rewrite isometry_dot by assumption; assumption.
Qed.

Lemma ortho_transpose : forall v : Rotation R, orthonormal (rmat v) -> orthonormal (rmat (m_transpose v)).
Proof.
  intros [a b c d e f g h i] H. rewrite rmat_mk in H. apply orthonormal_of_rows in H.
  change (m_transpose (mkRotation a b c d e f g h i)) with (mkRotation a d g b e h c f i).
  rewrite rmat_mk. apply orthonormal_of_rows. apply ortho_rows. exact H.
Qed.

Lemma is_rot_det : forall m : Rotation R, orthonormal (rmat m) -> em_det m = 1 -> is_rot m.
Proof.
  intros m H d. split; [exact H|]. destruct m. unr in d. unr. lra.
Qed.

(** The rotation Eigen extracts. *)
Lemma ea_rotation_rot : forall svd m, is_rot m -> decomposes m (svd m) -> ea_rotation svd m = m.
Proof.
  intros svd m hr hd. unfold ea_rotation. destruct (svd m) as [[u s] v].
  assert (E := svd_rotation _ _ _ _ hr hd). rewrite E.
  assert (D : em_det m = 1).
  { destruct m as [a b c d e f g h i]. apply is_rot_mk in hr. destruct hr as [_ r7].
    unr. lra. }
  rewrite D.
  replace (mkRotation (s_div (m_r1c1 u) 1) (m_r1c2 u) (m_r1c3 u) (s_div (m_r2c1 u) 1) (m_r2c2 u) (m_r2c3 u)
    (s_div (m_r3c1 u) 1) (m_r3c2 u) (m_r3c3 u)) with u; [exact E|].
  destruct u. unr. rec_eq; field.
Qed.

Lemma ea_rotation_any : forall svd (m : Rotation R),
  (let '(u, _, v) := svd m in orthonormal (rmat u) /\ orthonormal (rmat v)) -> is_rot (ea_rotation svd m).
Proof.
  intros svd m h. unfold ea_rotation. destruct (svd m) as [[u s] v]. destruct h as [hu hv].
  assert (du := ortho_det _ hu). assert (dv := ortho_det _ hv).
  rewrite det_mul.
  assert (dt : em_det (m_transpose v) = em_det v) by (destruct v; unr; ring).
  rewrite dt. set (x := em_det u * em_det v).
  assert (hx : x * x = 1) by (unfold x; transitivity ((em_det u*em_det u)*(em_det v*em_det v)); [ring|rewrite du, dv; ring]).
  assert (hi : forall r, r / x = r * x).
  { intro r. assert (x <> 0) by nra. apply (Rmult_eq_reg_r x); [|assumption].
    transitivity r; [field; assumption|]. rewrite Rmult_assoc, hx. ring. }
  change (s_mul (em_det u) (em_det v)) with x. cbn [s_div RScalar]. rewrite !hi.
  assert (ed : em_det u * x = em_det v).
  { unfold x. transitivity ((em_det u*em_det u) * em_det v); [ring|rewrite du; ring]. }
  apply is_rot_det.
  - apply ortho_mul; [|apply ortho_transpose; assumption].
    destruct u as [a b c d e f g h i]. cbn [m_r1c1 m_r1c2 m_r1c3 m_r2c1 m_r2c2 m_r2c3 m_r3c1 m_r3c2 m_r3c3].
    rewrite rmat_mk in *. apply orthonormal_of_rows in hu. apply orthonormal_of_rows.
    destruct hu as (h1&h2&h3&h4&h5&h6).
    repeat split; try assumption.
    + transitivity ((x*x)*(a*a+d*d+g*g)); [ring|rewrite hx, h1; ring].
    + transitivity (x*(a*b+d*e+g*h)); [ring|rewrite h4; ring].
    + transitivity (x*(a*c+d*f+g*i)); [ring|rewrite h5; ring].
  - rewrite det_mul, dt. transitivity ((em_det u * x) * em_det v); [|rewrite ed; exact dv].
    clear. destruct u, v. unr. ring.
Qed.

Lemma em_inverse_rot : forall m : Rotation R, is_rot m -> em_inverse m = m_transpose m.
Proof.
  intros [a b c d e f g h i] hr. apply is_rot_mk in hr.
  assert (F := so3_full _ _ _ _ _ _ _ _ _ hr). destruct hr as [_ r7].
  unfold em_inverse. cbn [m_r1c1 m_r1c2 m_r1c3 m_r2c1 m_r2c2 m_r2c3 m_r3c1 m_r3c2 m_r3c3].
  assert (D : (e * i - f * h) * a + (h * c - i * b) * d + (b * f - c * e) * g = 1) by lra.
  change (s_add (s_add (s_mul (s_sub (s_mul e i) (s_mul f h)) a) (s_mul (s_sub (s_mul h c) (s_mul i b)) d))
    (s_mul (s_sub (s_mul b f) (s_mul c e)) g)) with ((e * i - f * h) * a + (h * c - i * b) * d + (b * f - c * e) * g).
  rewrite D. unr. rec_eq; replace (1/1) with 1 by field; lra.
Qed.

Definition conj_q (q : Quaternion R) : Quaternion R := mkQuaternion (q_w q) (- q_x q) (- q_y q) (- q_z q).

Definition inv_of (a : QiTransform R) (k : Quaternion R) : QiTransform R :=
  mkQi k (let v := eq_apply (conj_q (qi_rot a)) (qi_pos a) in
          mkPosition3D (- p3_x v) (- p3_y v) (- p3_z v)).

Lemma linear_rot : forall a, qi_unit a -> is_rot (et_linear (eq_toTransform (qi_rot a) (qi_pos a))).
Proof.
  intros a ha. assert (Q := Proofs_Average.toTransform_of (qi_rot a) (qi_pos a) ha).
  apply Proofs_Average.quaternion_of_rigid in Q.
  destruct (eq_toTransform (qi_rot a) (qi_pos a)) as [x11 x12 x13 x14 x21 x22 x23 x24 x31 x32 x33 x34].
  apply rigid_mk in Q. unfold et_linear. cbn. apply is_rot_mk. exact Q.
Qed.

Lemma transpose_rot : forall m : Rotation R, is_rot m -> is_rot (m_transpose m).
Proof.
  intros [a b c d e f g h i] hr. apply is_rot_mk in hr.
  change (m_transpose (mkRotation a b c d e f g h i)) with (mkRotation a d g b e h c f i).
  apply is_rot_mk. apply so3_trans. exact hr.
Qed.

Lemma em_toQuaternion_unit : forall m, is_rot m ->
  unitq (em_toQuaternion m) /\ meq (qmat (em_toQuaternion m)) (rmat m).
Proof.
  intros [a b c d e f g h i] hr. apply is_rot_mk in hr.
  unfold em_toQuaternion. cbn [m_r1c1 m_r1c2 m_r1c3 m_r2c1 m_r2c2 m_r2c3 m_r3c1 m_r3c2 m_r3c3].
  destruct (Proofs_Average.eigen_of (mkTransform a b c 0 d e f 0 g h i 0)) as [u v];
    [apply rigid_mk; exact hr|].
  split; [exact u|exact v].
Qed.

Lemma qi_inverse_eq : forall svd a, (forall m, is_rot m -> decomposes m (svd m)) -> qi_unit a ->
  qi_inverse svd a = Ok (inv_of a (conj_q (qi_rot a))) \/
  qi_inverse svd a = Ok (inv_of a (qneg (conj_q (qi_rot a)))).
Proof.
  intros svd a hs ha. unfold qi_inverse. rewrite affine_eq by (apply unit_accepted; exact ha).
  cbn [rbind].
  assert (L := linear_rot a ha).
  rewrite (em_inverse_rot _ L).
  assert (L' := transpose_rot _ L).
  rewrite (ea_rotation_rot svd _ L' (hs _ L')).
  destruct (em_toQuaternion_unit _ L') as [u m].
  set (k := em_toQuaternion (m_transpose (et_linear (eq_toTransform (qi_rot a) (qi_pos a))))) in *.
  assert (C : k = conj_q (qi_rot a) \/ k = qneg (conj_q (qi_rot a))).
  { apply (Proofs_Average.quaternion_cover k (conj_q (qi_rot a))
      (eq_toTransform (conj_q (qi_rot a)) (mkPosition3D 0 0 0))).
    - split; [exact u|]. intros x y hx hy. rewrite (m x y hx hy). clear.
      destruct a as [[w qx qy qz] [px py pz]].
      destruct x as [|[|[|x]]]; destruct y as [|[|[|y]]]; try reflexivity; unr; ring.
    - apply Proofs_Average.toTransform_of. destruct a as [[w qx qy qz] [px py pz]].
      unq. unr. lra. }
  assert (P : mkPosition3D
     (let i := m_transpose (et_linear (eq_toTransform (qi_rot a) (qi_pos a))) in 
      - m_r1c1 i * p3_x (qi_pos a) + - m_r1c2 i * p3_y (qi_pos a) + - m_r1c3 i * p3_z (qi_pos a))
     (let i := m_transpose (et_linear (eq_toTransform (qi_rot a) (qi_pos a))) in 
      - m_r2c1 i * p3_x (qi_pos a) + - m_r2c2 i * p3_y (qi_pos a) + - m_r2c3 i * p3_z (qi_pos a))
     (let i := m_transpose (et_linear (eq_toTransform (qi_rot a) (qi_pos a))) in 
      - m_r3c1 i * p3_x (qi_pos a) + - m_r3c2 i * p3_y (qi_pos a) + - m_r3c3 i * p3_z (qi_pos a))
    = qi_pos (inv_of a k)).
  { clear. destruct a as [[w qx qy qz] [px py pz]]. unr. rec_eq; ring. }
  cbv zeta in P.
  assert (E : forall q, inv_of a q = mkQi q (qi_pos (inv_of a k))) by reflexivity.
  destruct C as [C|C]; [left|right]; rewrite E, <- P, <- C; reflexivity.
Qed.

Lemma inv_motion : forall a k, qi_unit a -> k = conj_q (qi_rot a) \/ k = qneg (conj_q (qi_rot a)) ->
  qi_unit (inv_of a k) /\
  (forall v, qi_motion (inv_of a k) (qi_motion a v) = v /\ qi_motion a (qi_motion (inv_of a k) v) = v).
Proof.
  intros [[w x y z] [px py pz]] k ha hk. unq.
  destruct hk as [-> | ->]; (split; [unr; lra|]); intros [[v1 v2] v3];
    split; unr; apply vec3_eq; nsatz.
Qed.

Lemma C62_inverse_proof : forall svd (a : QiTransform R),
  (forall m, is_rot m -> decomposes m (svd m)) -> qi_unit a ->
  exists i, qi_inverse svd a = Ok i /\ qi_unit i /\
  (forall v, qi_motion i (qi_motion a v) = v /\ qi_motion a (qi_motion i v) = v) /\
  (qi_mul i a = Ok qi_id \/ qi_mul i a = Ok (qi_opposite qi_id)) /\
  (qi_mul a i = Ok qi_id \/ qi_mul a i = Ok (qi_opposite qi_id)) /\
  (qi_inverse svd i = Ok a \/ qi_inverse svd i = Ok (qi_opposite a)).
Proof.
  intros svd a hs ha.
  assert (exists k, (k = conj_q (qi_rot a) \/ k = qneg (conj_q (qi_rot a))) /\ qi_inverse svd a = Ok (inv_of a k))
    as (k & hk & e) by (destruct (qi_inverse_eq svd a hs ha); eauto).
  exists (inv_of a k). destruct (inv_motion a k ha hk) as [hi hm].
  split; [exact e|]. split; [exact hi|]. split; [exact hm|].
  rewrite !qi_mul_eq by (apply unit_accepted; assumption).
  assert (J := qi_inverse_eq svd (inv_of a k) hs hi).
  destruct a as [[w x y z] [px py pz]]. unq.
  split; [|split].
  - clear J hm hi e hs. destruct hk as [-> | ->]; [left|right]; f_equal; unfold qprod; cbn [qi_rot qi_pos];
      unfold qi_id, qi_opposite; cbn [qi_rot qi_pos]; f_equal; unr; rec_eq; first [lra | nsatz].
  - clear J hm hi e hs. destruct hk as [-> | ->]; [left|right]; f_equal; unfold qprod; cbn [qi_rot qi_pos];
      unfold qi_id, qi_opposite; cbn [qi_rot qi_pos]; f_equal; unr; rec_eq; first [lra | nsatz].
  - assert (K : forall q, inv_of (inv_of (mkQi (mkQuaternion w x y z) (mkPosition3D px py pz)) k) q =
        mkQi q (mkPosition3D px py pz)).
    { intro q. clear J hm hi e hs. unfold inv_of at 1. f_equal. destruct hk as [-> | ->]; unr; rec_eq; nsatz. }
    rewrite !K in J. unfold qi_opposite. cbn [qi_rot qi_pos].
    assert (C : conj_q (qi_rot (inv_of (mkQi (mkQuaternion w x y z) (mkPosition3D px py pz)) k)) = mkQuaternion w x y z
      \/ conj_q (qi_rot (inv_of (mkQi (mkQuaternion w x y z) (mkPosition3D px py pz)) k)) = qneg (mkQuaternion w x y z)).
    { destruct hk as [-> | ->]; [left|right]; unr; rec_eq; ring. }
    assert (N : qneg (qneg (mkQuaternion w x y z)) = mkQuaternion w x y z) by (unr; rec_eq; ring).
    destruct C as [C|C]; rewrite C in J; rewrite ?N in J; tauto.
Qed.




Lemma C62_inverse_unit_proof : forall svd (a : QiTransform R),
  (forall m, let '(u, _, v) := svd m in orthonormal (rmat u) /\ orthonormal (rmat v)) ->
  qi_accepted a -> exists i, qi_inverse svd a = Ok i /\ qi_unit i.
Proof.
  intros svd a hs ha. unfold qi_inverse. rewrite affine_eq by exact ha. cbn [rbind].
  eexists; split; [reflexivity|]. unfold qi_unit. cbn [qi_rot].
  apply em_toQuaternion_unit. apply ea_rotation_any. apply hs.
Qed.


Lemma C62_defined_proof : forall svd (a b : QiTransform R) (eps : R),
  (qi_accepted a /\ qi_accepted b -> exists c, qi_mul a b = Ok c) /\
  (~ (qi_accepted a /\ qi_accepted b) -> qi_mul a b = Abort) /\
  (qi_accepted a /\ qi_accepted b -> exists r, qi_isNear a b eps = Ok r) /\
  (~ (qi_accepted a /\ qi_accepted b) -> qi_isNear a b eps = Abort) /\
  (qi_accepted a -> exists i, qi_inverse svd a = Ok i) /\
  (~ qi_accepted a -> qi_inverse svd a = Abort).
Proof.
  intros svd a b eps.
  unfold qi_mul, qi_isNear, qi_inverse, toEigenAffine3d, qi_accepted.
  rewrite <- !accepted_iff.
  destruct (isNormalized (qi_rot a) _); destruct (isNormalized (qi_rot b) _); cbn [rbind];
    repeat split; intros; try (eexists; reflexivity); try tauto; try reflexivity;
    try (destruct H; discriminate); try discriminate;
    exfalso; apply H; auto.
Qed.


Lemma C62_drift_refuted_proof : exists a c : QiTransform R, qi_accepted a /\
  qi_mul a a = Ok c /\ ~ qi_accepted c /\ qi_mul c a = Abort.
Proof.
  pose (a := mkQi (mkQuaternion (1 + 9/1000000) 0 0 0) (mkPosition3D 0 0 0)).
  assert (ha : qi_accepted a).
  { unfold qi_accepted, a. cbn [qi_rot].
    rewrite (sqrt_unique' _ (1 + 9/1000000)); [|lra|unr; ring].
    replace (1 + 9/1000000 - 1) with (9/1000000) by ring. rewrite Rabs_right; lra. }
  assert (hc : ~ qi_accepted (qprod a a)).
  { unfold qi_accepted, a, qprod. cbn [qi_rot].
    rewrite (sqrt_unique' _ ((1 + 9/1000000)*(1 + 9/1000000))); [|lra|unr; ring].
    rewrite Rabs_right; lra. }
  exists a, (qprod a a). split; [exact ha|]. split; [apply qi_mul_eq; assumption|].
  split; [exact hc|].
  destruct (C62_defined_proof (fun m => (m, (1,1,1), m)) (qprod a a) a 0) as (_ & H & _).
  apply H. tauto.
Qed.


Lemma vdot_pos : forall v, 0 <= vdot v v.
Proof. intros [[a b] c]. unr. nra. Qed.

Lemma prod_error : forall (a b : Quaternion R) (v : vec3),
  vsub (mapply (qmat a) (mapply (qmat b) v)) (mapply (qmat (eq_mul a b)) v) =
  vadd (vscale (1 - qnorm2 a) (vsub (mapply (qmat b) v) v))
       (vscale (1 - qnorm2 b) (vsub (mapply (qmat a) v) v)).
Proof. intros [w x y z] [w' x' y' z'] [[v1 v2] v3]. unr. apply vec3_eq; ring. Qed.

Lemma move_bound : forall (a : Quaternion R) (v : vec3),
  vdot (vsub (mapply (qmat a) v) v) (vsub (mapply (qmat a) v) v) <= 4 * (qnorm2 a * qnorm2 a) * vdot v v.
Proof.
  intros [w x y z] [[v1 v2] v3].
  assert (E : vdot (vsub (mapply (qmat (mkQuaternion w x y z)) (v1, v2, v3)) (v1, v2, v3))
                   (vsub (mapply (qmat (mkQuaternion w x y z)) (v1, v2, v3)) (v1, v2, v3))
     = 4 * (w*w+x*x+y*y+z*z) * ((x*x+y*y+z*z)*(v1*v1+v2*v2+v3*v3) - (x*v1+y*v2+z*v3)*(x*v1+y*v2+z*v3)))
    by (unr; ring).
  rewrite E. unr. 
  set (n := w*w+x*x+y*y+z*z). set (u := x*x+y*y+z*z). set (k := v1*v1+v2*v2+v3*v3).
  set (d := x*v1+y*v2+z*v3).
  assert (0 <= n) by (unfold n; nra). assert (0 <= k) by (unfold k; nra).
  assert (0 <= u <= n) by (unfold u, n; nra). assert (0 <= d*d) by nra.
  apply Rle_trans with (4 * n * (n * k)); [|right; ring].
  apply Rmult_le_compat_l; [lra|]. assert (u*k <= n*k) by (apply Rmult_le_compat_r; lra). lra.
Qed.

Lemma sum_sq : forall (al be : R) (x y : vec3),
  vdot (vadd (vscale al x) (vscale be y)) (vadd (vscale al x) (vscale be y)) <=
  2 * (al*al * vdot x x) + 2 * (be*be * vdot y y).
Proof.
  intros al be [[x1 x2] x3] [[y1 y2] y3]. unr.
  assert (H : forall p q, (p+q)*(p+q) <= 2*(p*p) + 2*(q*q)) by (intros p q; pose proof (Rle_0_sqr (p-q)) as Q; unfold Rsqr in Q; lra).
  assert (H1 := H (al*x1) (be*y1)). assert (H2 := H (al*x2) (be*y2)). assert (H3 := H (al*x3) (be*y3)). nra.
Qed.

Lemma accepted_norm2 : forall a, qi_accepted a ->
  0 <= qnorm2 (qi_rot a) <= 10001/10000 /\ (1 - qnorm2 (qi_rot a)) * (1 - qnorm2 (qi_rot a)) <= 41/100000000000.
Proof.
  intros a h. unfold qi_accepted in h.
  assert (P : 0 <= qnorm2 (qi_rot a)) by (destruct (qi_rot a) as [w x y z]; unr; nra).
  destruct (sqrt_ex _ P) as (s&e&hs&ss). rewrite e in h. apply Rabs_def2 in h.
  rewrite <- ss. split; [nra|].
  assert (-(200001/10000000000) <= 1 - s*s <= 200001/10000000000) by nra. nra.
Qed.

Lemma C62_accepted_proof : forall a b : QiTransform R, qi_accepted a -> qi_accepted b ->
  exists c, qi_mul a b = Ok c /\
  forall v, vnorm (vsub (qi_motion a (qi_motion b v)) (qi_motion c v)) <= 1/10000 * vnorm v.
Proof.
  intros a b ha hb. exists (qprod a b). split; [apply qi_mul_eq; assumption|]. intro v.
  assert (E : vsub (qi_motion a (qi_motion b v)) (qi_motion (qprod a b) v) =
    vsub (mapply (qmat (qi_rot a)) (mapply (qmat (qi_rot b)) v)) (mapply (qmat (eq_mul (qi_rot a) (qi_rot b))) v)).
  { destruct a as [[w x y z] [px py pz]], b as [[w' x' y' z'] [px' py' pz']], v as [[v1 v2] v3].
    unr. apply vec3_eq; ring. }
  rewrite E, prod_error.
  destruct (accepted_norm2 a ha) as [na da]. destruct (accepted_norm2 b hb) as [nb db].
  assert (S := sum_sq (1 - qnorm2 (qi_rot a)) (1 - qnorm2 (qi_rot b))
    (vsub (mapply (qmat (qi_rot b)) v) v) (vsub (mapply (qmat (qi_rot a)) v) v)).
  assert (Ma := move_bound (qi_rot a) v). assert (Mb := move_bound (qi_rot b) v).
  unfold vnorm. set (V := vdot v v) in *.
  assert (hV : 0 <= V) by apply vdot_pos.
  set (X := vdot (vsub (mapply (qmat (qi_rot b)) v) v) (vsub (mapply (qmat (qi_rot b)) v) v)) in *.
  set (Y := vdot (vsub (mapply (qmat (qi_rot a)) v) v) (vsub (mapply (qmat (qi_rot a)) v) v)) in *.
  set (N := vdot (vadd _ _) (vadd _ _)) in *.
  assert (HX : 0 <= X) by apply vdot_pos.
  assert (HY : 0 <= Y) by apply vdot_pos.
  set (m := qnorm2 (qi_rot a)) in *. set (n := qnorm2 (qi_rot b)) in *.
  assert (Y <= 401/100 * V).
  { apply Rle_trans with (1 := Ma). apply Rmult_le_compat_r; [assumption|]. nra. }
  assert (X <= 401/100 * V).
  { apply Rle_trans with (1 := Mb). apply Rmult_le_compat_r; [assumption|]. nra. }
  assert ((1-m)*(1-m)*X <= 41/100000000000 * (401/100*V)) by (apply Rmult_le_compat; first [apply Rle_0_sqr|lra]).
  assert ((1-n)*(1-n)*Y <= 41/100000000000 * (401/100*V)) by (apply Rmult_le_compat; first [apply Rle_0_sqr|lra]).
  assert (F : N <= (1/10000)*(1/10000) * V) by lra.
  replace (1/10000) with (sqrt ((1/10000)*(1/10000))) by (apply sqrt_square; lra).
  rewrite <- sqrt_mult by lra. apply sqrt_le_1_alt. lra.
Qed.



Lemma squared_unit : forall a, qi_unit a ->
  ea_squared (eq_toTransform (qi_rot a) (qi_pos a)) = 4 + vdot (p3v (qi_pos a)) (p3v (qi_pos a)).
Proof.
  intros a ha. assert (Q := Proofs_Average.toTransform_of (qi_rot a) (qi_pos a) ha).
  apply Proofs_Average.quaternion_of_rigid in Q.
  assert (P := Proofs_Average.toTransform_pos (qi_rot a) (qi_pos a)).
  destruct (eq_toTransform (qi_rot a) (qi_pos a)) as [x11 x12 x13 x14 x21 x22 x23 x24 x31 x32 x33 x34].
  apply rigid_mk in Q. destruct Q as [(h1&h2&h3&_) _].
  unfold tpos in P. cbn [t_r1c4 t_r2c4 t_r3c4] in P. unfold p3v. rewrite <- P.
  unr. lra.
Qed.

Lemma squared_diff : forall a b : QiTransform R,
  ea_squared_diff (eq_toTransform (qi_rot a) (qi_pos a)) (eq_toTransform (qi_rot b) (qi_pos b)) =
  mdist2 (qmat (qi_rot a)) (qmat (qi_rot b)) + vdist2 (p3v (qi_pos a)) (p3v (qi_pos b)).
Proof.
  intros [[w x y z] [px py pz]] [[w' x' y' z'] [px' py' pz']]. unr. ring.
Qed.

Lemma if_min : forall a b : R, (if Rltb b a then b else a) = Rmin a b.
Proof.
  intros a b. unfold Rmin. destruct (Rltb_spec b a), (Rle_dec a b); lra.
Qed.

Lemma isNear_unit : forall a b eps, qi_unit a -> qi_unit b ->
  exists r, qi_isNear a b eps = Ok r /\
  (r = true <-> mdist2 (qmat (qi_rot a)) (qmat (qi_rot b)) + vdist2 (p3v (qi_pos a)) (p3v (qi_pos b)) <=
     eps * eps * (4 + Rmin (vdot (p3v (qi_pos a)) (p3v (qi_pos a))) (vdot (p3v (qi_pos b)) (p3v (qi_pos b))))).
Proof.
  intros a b eps ha hb. unfold qi_isNear.
  rewrite !affine_eq by (apply unit_accepted; assumption). cbn [rbind].
  eexists; split; [reflexivity|]. unfold ea_isApprox.
  rewrite squared_diff, !squared_unit by assumption.
  cbn [s_leb s_ltb s_mul RScalar]. rewrite Rleb_iff, if_min.
  assert (E : forall x y, Rmin (4 + x) (4 + y) = 4 + Rmin x y).
  { intros x y. unfold Rmin. destruct (Rle_dec (4+x) (4+y)), (Rle_dec x y); lra. }
  rewrite E. reflexivity.
Qed.

Lemma C62_near_proof : forall (a b : QiTransform R) (eps : R), qi_unit a -> qi_unit b ->
  exists r, qi_isNear a b eps = Ok r /\
  (r = true <-> mdist2 (qmat (qi_rot a)) (qmat (qi_rot b)) + vdist2 (p3v (qi_pos a)) (p3v (qi_pos b)) <=
     eps * eps * (4 + Rmin (vdot (p3v (qi_pos a)) (p3v (qi_pos a))) (vdot (p3v (qi_pos b)) (p3v (qi_pos b))))).
Proof. exact isNear_unit. Qed.


Lemma mdist2_pos : forall A B, 0 <= mdist2 A B.
Proof. intros. unfold mdist2, sum3. repeat apply Rplus_le_le_0_compat; apply Rle_0_sqr. Qed.
Lemma vdist2_pos : forall u v, 0 <= vdist2 u v.
Proof. intros [[a b] c] [[d e] f]. unr. repeat apply Rplus_le_le_0_compat; apply Rle_0_sqr. Qed.

Lemma vdist2_sym : forall u v, vdist2 u v = vdist2 v u.
Proof. intros [[a b] c] [[d e] f]. unr. ring. Qed.
Lemma mdist2_sym : forall A B, mdist2 A B = mdist2 B A.
Proof. intros. unfold mdist2, sum3. ring. Qed.

Lemma ok_bool : forall x y : bool, (x = true <-> y = true) -> Ok x = Ok y.
Proof. intros [] [] h; auto; destruct h as [h1 h2]; [discriminate (h1 eq_refl)|discriminate (h2 eq_refl)]. Qed.

Lemma C62_near_laws_proof : forall (a b : QiTransform R) (eps : R), qi_unit a -> qi_unit b ->
  qi_isNear a a eps = Ok true /\
  qi_isNear a b eps = qi_isNear b a eps /\
  qi_isNear (qi_opposite a) b eps = qi_isNear a b eps /\
  (qi_isNear a b 0 = Ok true <-> forall v, qi_motion a v = qi_motion b v).
Proof.
  intros a b eps ha hb.
  assert (ho : qi_unit (qi_opposite a)).
  { destruct a as [[w x y z] p]. unq. unfold qi_opposite. unr. lra. }
  split; [|split; [|split]].
  - destruct (isNear_unit a a eps ha ha) as (r&->&h). f_equal. apply h.
    replace (mdist2 (qmat (qi_rot a)) (qmat (qi_rot a))) with 0 by (unfold mdist2, sum3; ring).
    replace (vdist2 (p3v (qi_pos a)) (p3v (qi_pos a))) with 0
      by (destruct (qi_pos a) as [x y z]; unr; ring).
    rewrite Rmin_left by lra. assert (V := vdot_pos (p3v (qi_pos a))).
    assert (0 <= eps*eps) by nra.
    apply Rle_trans with (eps*eps*0); [lra|]. apply Rmult_le_compat_l; lra.
  - destruct (isNear_unit a b eps ha hb) as (r&->&h). destruct (isNear_unit b a eps hb ha) as (r'&->&h').
    apply ok_bool. rewrite h, h', mdist2_sym, vdist2_sym, Rmin_comm. reflexivity.
  - destruct (isNear_unit a b eps ha hb) as (r&->&h). destruct (isNear_unit (qi_opposite a) b eps ho hb) as (r'&->&h').
    apply ok_bool. rewrite h, h'.
    replace (mdist2 (qmat (qi_rot (qi_opposite a))) (qmat (qi_rot b))) with (mdist2 (qmat (qi_rot a)) (qmat (qi_rot b))).
    + reflexivity.
    + destruct a as [[w x y z] p], b as [[w' x' y' z'] p']. unr. ring.
  - destruct (isNear_unit a b 0 ha hb) as (r&->&h).
    transitivity (r = true); [split; [intro E; injection E; auto|intros ->; reflexivity]|].
    rewrite h. clear h r.
    destruct a as [[w x y z] [px py pz]], b as [[w' x' y' z'] [px' py' pz']].
    cbn [qi_rot qi_pos].
    set (A := qmat (mkQuaternion w x y z)). set (B := qmat (mkQuaternion w' x' y' z')).
    split.
    + intros H. rewrite !Rmult_0_l in H.
      assert (HA := mdist2_pos A B). assert (HV := vdist2_pos (p3v (mkPosition3D px py pz)) (p3v (mkPosition3D px' py' pz'))).
      assert (E1 : mdist2 A B = 0) by lra. assert (E2 : vdist2 (p3v (mkPosition3D px py pz)) (p3v (mkPosition3D px' py' pz')) = 0) by lra.
      unr in E2. apply sum3sq_0 in E2. destruct E2 as (?&?&?).
      unfold mdist2, sum3 in E1.
      assert (Z : forall t, 0 <= t*t) by (intros; nra).
      assert (Q : forall i j, (i < 3)%nat -> (j < 3)%nat -> A i j = B i j).
      { intros i j hi hj.
        assert (S : (A i j - B i j)*(A i j - B i j) = 0).
        { assert (Z' := Z (A i j - B i j)).
          assert (q0 := Z (A 0%nat 0%nat - B 0%nat 0%nat)). assert (q1 := Z (A 0%nat 1%nat - B 0%nat 1%nat)).
          assert (q2 := Z (A 0%nat 2%nat - B 0%nat 2%nat)). assert (q3 := Z (A 1%nat 0%nat - B 1%nat 0%nat)).
          assert (q4 := Z (A 1%nat 1%nat - B 1%nat 1%nat)). assert (q5 := Z (A 1%nat 2%nat - B 1%nat 2%nat)).
          assert (q6 := Z (A 2%nat 0%nat - B 2%nat 0%nat)). assert (q7 := Z (A 2%nat 1%nat - B 2%nat 1%nat)).
          assert (q8 := Z (A 2%nat 2%nat - B 2%nat 2%nat)).
          destruct i as [|[|[|i]]]; try lia; destruct j as [|[|[|j]]]; try lia; lra. }
        apply Rmult_integral in S. destruct S; lra. }
      intros [[v1 v2] v3]. unfold qi_motion. cbn [qi_rot qi_pos]. fold A B.
      unfold mapply, sum3. rewrite !Q by lia. unfold p3v. cbn [p3_x p3_y p3_z].
      apply f_equal. apply vec3_eq; lra.
    + intros H. rewrite !Rmult_0_l. right.
      assert (H0 := H (0,0,0)). assert (H1 := H (1,0,0)). assert (H2 := H (0,1,0)). assert (H3 := H (0,0,1)).
      unfold qi_motion in H0, H1, H2, H3. cbn [qi_rot qi_pos] in H0, H1, H2, H3. fold A B in H0, H1, H2, H3.
      clearbody A B. unfold mapply, sum3, vadd, p3v in H0, H1, H2, H3. cbn in H0, H1, H2, H3.
      injection H0 as a1 a2 a3. injection H1 as b1 b2 b3. injection H2 as c1 c2 c3. injection H3 as d1 d2 d3.
      unfold mdist2, sum3, vdist2, vdot, vsub, p3v. cbn.
      assert (px = px') by lra. assert (py = py') by lra. assert (pz = pz') by lra. subst px' py' pz'.
      assert (A 0%nat 0%nat = B 0%nat 0%nat) by lra. assert (A 0%nat 1%nat = B 0%nat 1%nat) by lra.
      assert (A 0%nat 2%nat = B 0%nat 2%nat) by lra. assert (A 1%nat 0%nat = B 1%nat 0%nat) by lra.
      assert (A 1%nat 1%nat = B 1%nat 1%nat) by lra. assert (A 1%nat 2%nat = B 1%nat 2%nat) by lra.
      assert (A 2%nat 0%nat = B 2%nat 0%nat) by lra. assert (A 2%nat 1%nat = B 2%nat 1%nat) by lra.
      assert (A 2%nat 2%nat = B 2%nat 2%nat) by lra.
      repeat match goal with e : A _ _ = _ |- _ => rewrite e; clear e end. ring.
Qed.


Lemma C62_near_origin_refuted_proof : exists a b : QiTransform R, qi_unit a /\ qi_unit b /\
  vdist2 (p3v (qi_pos a)) (p3v (qi_pos b)) = 1 /\ qi_isNear a b (1/1000) = Ok true.
Proof.
  exists (mkQi (mkQuaternion 1 0 0 0) (mkPosition3D 1000 0 0)), (mkQi (mkQuaternion 1 0 0 0) (mkPosition3D 1001 0 0)).
  assert (h1 : qi_unit (mkQi (mkQuaternion 1 0 0 0) (mkPosition3D 1000 0 0))) by (unfold qi_unit, unitq; unr; ring).
  assert (h2 : qi_unit (mkQi (mkQuaternion 1 0 0 0) (mkPosition3D 1001 0 0))) by (unfold qi_unit, unitq; unr; ring).
  split; [exact h1|]. split; [exact h2|]. split; [unr; ring|].
  destruct (isNear_unit _ _ (1/1000) h1 h2) as (r&->&h). f_equal. apply h. clear h r.
  rewrite Rmin_left by (unr; lra). unr. lra.
Qed.


Lemma ev_normalized_unit : forall x y z : R, (x, y, z) <> (0, 0, 0) ->
  exists n, 0 < n /\ n*n = x*x+y*y+z*z /\ ev_normalized (mkPosition3D x y z) = mkPosition3D (x/n) (y/n) (z/n).
Proof.
  intros x y z h.
  assert (P : 0 < x*x+y*y+z*z).
  { destruct (Req_dec (x*x+y*y+z*z) 0) as [E|E]; [|assert (0 <= x*x+y*y+z*z) by nra; lra].
    apply sum3sq_0 in E. destruct E as (->&->&->). elim h. reflexivity. }
  destruct (sqrt_ex (x*x+y*y+z*z)) as (n&e&hn&nn); [lra|].
  exists n. split; [nra|]. split; [assumption|].
  unfold ev_normalized. cbn [p3_x p3_y p3_z s_add s_mul s_ltb s_ofZ s_sqrt s_div RScalar].
  rewrite Rltb_true by (cbn; lra). cbn. rewrite e. reflexivity.
Qed.

Lemma C62_angle_axis_proof : forall (angle : R) (axis : Position3D R),
  let q := makeQuaternionFromAngleAxis angle axis in
  (p3v axis <> (0, 0, 0) -> unitq q /\
   forall v, mapply (qmat q) v = rodrigues angle (vscale (/ vnorm (p3v axis)) (p3v axis)) v) /\
  (p3v axis <> (0, 0, 0) -> forall k, 0 < k ->
   makeQuaternionFromAngleAxis angle (mkPosition3D (k * p3_x axis) (k * p3_y axis) (k * p3_z axis)) = q) /\
  (p3v axis = (0, 0, 0) -> q = mkQuaternion (cos (angle / 2)) 0 0 0).
Proof.
  intros angle [x y z]. unfold p3v. cbn [p3_x p3_y p3_z]. cbv zeta.
  assert (HA : s_mul (s_frac (Scalar := RScalar) 1 2) angle = angle / 2) by (cbn; field).
  unfold makeQuaternionFromAngleAxis. rewrite HA. cbn [s_sin s_cos s_mul RScalar].
  assert (C2 : cos angle = 1 - 2 * (sin (angle/2) * sin (angle/2))).
  { replace angle with (2*(angle/2)) at 1 by field. rewrite cos_2a_sin. ring. }
  assert (S2 : sin angle = 2 * sin (angle/2) * cos (angle/2)).
  { replace angle with (2*(angle/2)) at 1 by field. apply sin_2a. }
  assert (T := cs2 (angle/2)).
  split; [|split].
  - intros h. destruct (ev_normalized_unit x y z h) as (n&hn&nn&->).
    assert (N : vnorm (x, y, z) = n) by (unfold vnorm; apply sqrt_unique'; [lra|unr; lra]).
    rewrite N. cbn [p3_x p3_y p3_z].
    assert (n0 : n <> 0) by lra.
    assert (U : x/n*(x/n) + y/n*(y/n) + z/n*(z/n) = 1).
    { transitivity ((x*x+y*y+z*z)/(n*n)); [field; assumption|]. rewrite <- nn. field. assumption. }
    unfold vscale, vx, vy, vz. cbn [fst snd].
    replace (/n*x) with (x/n) by (field; assumption). replace (/n*y) with (y/n) by (field; assumption).
    replace (/n*z) with (z/n) by (field; assumption).
    revert U. generalize (x/n) (y/n) (z/n). clear - T C2 S2. intros a b c U.
    revert T C2 S2. generalize (sin (angle/2)) (cos (angle/2)). intros s t T C2 S2.
    split; [unfold unitq; unr; nsatz|].
    intros [[v1 v2] v3]. unfold rodrigues. rewrite C2, S2. unr. apply vec3_eq; nsatz.
  - intros h k hk. destruct (ev_normalized_unit x y z h) as (n&hn&nn&->).
    assert (h' : (k*x, k*y, k*z) <> (0,0,0)).
    { intro E. injection E as e1 e2 e3. apply h. apply vec3_eq; apply (Rmult_eq_reg_l k); lra. }
    destruct (ev_normalized_unit _ _ _ h') as (m&hm&mm&->).
    assert (m = k*n).
    { assert (m*m = (k*n)*(k*n)) by (rewrite mm; transitivity (k*k*(x*x+y*y+z*z)); [ring|rewrite <- nn; ring]).
      assert (0 < k*n) by nra. nra. }
    subst m. cbn [p3_x p3_y p3_z]. f_equal; f_equal; field; lra.
  - intros E. injection E as -> -> ->. unfold ev_normalized. cbn [p3_x p3_y p3_z s_add s_mul s_ltb s_ofZ RScalar].
    rewrite Rltb_false by (cbn; lra). cbn [p3_x p3_y p3_z]. f_equal; ring.
Qed.



Lemma C62_normalize_proof : forall q : Quaternion R,
  (qnorm2 q <> 0 -> unitq (qi_normalize q) /\ q = qscale (sqrt (qnorm2 q)) (qi_normalize q)) /\
  (qnorm2 q = 0 \/ unitq q -> qi_normalize q = q) /\
  qi_normalize (qi_normalize q) = qi_normalize q /\
  (qnorm2 q <> 0 -> forall e, 0 < e -> isNormalized (qi_normalize q) e = true).
Proof.
  intros q. unfold qi_normalize.
  assert (D : qdot q q = qnorm2 q) by (destruct q; unr; ring).
  assert (Z : 0 <= qnorm2 q) by (destruct q; unr; nra).
  assert (Unit : forall p, unitq p -> eq_normalize p = p).
  { intros p u. assert (E : qdot p p = 1) by (rewrite <- u; destruct p; unr; ring).
    rewrite Proofs_Average.eq_normalize_eq by lra. unfold Proofs_Average.qunit. rewrite E, sqrt_1.
    destruct p as [w x y z]. unfold qscale. cbn [q_w q_x q_y q_z]. rec_eq; field. }
  assert (Null : qnorm2 q = 0 -> eq_normalize q = q).
  { intros E. unfold eq_normalize. rewrite eq_dot_norm2, E. cbn. rewrite Rltb_false by lra. reflexivity. }
  assert (NN : qnorm2 q <> 0 -> unitq (eq_normalize q)).
  { intros h. rewrite Proofs_Average.eq_normalize_eq by lra. apply Proofs_Average.qunit_unit. lra. }
  split; [|split; [|split]].
  - intros h. split; [auto|].
    rewrite Proofs_Average.eq_normalize_eq by lra. unfold Proofs_Average.qunit. rewrite D.
    assert (S : sqrt (qnorm2 q) <> 0).
    { intro E. apply h. apply sqrt_eq_0; assumption. }
    destruct q as [w x y z]. unfold qscale. cbn [q_w q_x q_y q_z]. rec_eq; field; exact S.
  - intros [h|h]; auto.
  - destruct (Req_dec (qnorm2 q) 0) as [h|h]; [rewrite !Null by assumption; reflexivity|].
    apply Unit. auto.
  - intros h e he. unfold isNormalized, qi_norm. rewrite eq_dot_norm2. rewrite (NN h). cbn.
    rewrite sqrt_1. apply Rltb_iff. replace (1-1) with 0 by ring. rewrite Rabs_R0. exact he.
Qed.


(** ** C63: conversions *)

Lemma fromQi_eq : forall a : QiTransform R,
  transformFromQiTransform (fun x => x) a = eq_toTransform (qi_rot a) (qi_pos a).
Proof. intros [[w x y z] [px py pz]]. unr. rec_eq; ring. Qed.

Lemma toTransform_motion : forall (a : QiTransform R) v,
  motion (eq_toTransform (qi_rot a) (qi_pos a)) v = qi_motion a v.
Proof. intros [[w x y z] [px py pz]] [[v1 v2] v3]. unr. apply vec3_eq; ring. Qed.

Lemma C63_homomorphism_proof : forall svd (a b : QiTransform R),
  (forall m, is_rot m -> decomposes m (svd m)) -> qi_unit a -> qi_unit b ->
  let T := transformFromQiTransform (T := R) (fun x : R => x) in
  rigid (T a) /\
  (forall v, motion (T a) v = qi_motion a v) /\
  (forall c, qi_mul a b = Ok c -> T c = t_mul (T a) (T b)) /\
  (forall i, qi_inverse svd a = Ok i -> T i = t_inverse (T a)) /\
  T qi_id = t_id.
Proof.
  intros svd a b hs ha hb T. unfold T. rewrite ?fromQi_eq.
  split; [eapply Proofs_Average.quaternion_of_rigid; apply Proofs_Average.toTransform_of; exact ha|].
  split; [apply toTransform_motion|].
  split; [|split].
  - intros c E. rewrite qi_mul_eq in E by (apply unit_accepted; assumption). injection E as <-.
    rewrite ?fromQi_eq.
    destruct a as [[w x y z] [px py pz]], b as [[w' x' y' z'] [px' py' pz']]. unq.
    unr. rec_eq; nsatz.
  - intros i E. rewrite ?fromQi_eq.
    assert (exists k, (k = conj_q (qi_rot a) \/ k = qneg (conj_q (qi_rot a))) /\ qi_inverse svd a = Ok (inv_of a k))
      as (k & hk & e) by (destruct (qi_inverse_eq svd a hs ha); eauto).
    rewrite e in E. injection E as <-. clear e.
    destruct a as [[w x y z] [px py pz]]. unq. destruct hk as [-> | ->]; unr; rec_eq; ring.
  - rewrite ?fromQi_eq. unr. rec_eq; ring.
Qed.


Lemma C63_round_trip_proof : forall (t : Transform R) (a : QiTransform R),
  let T := transformFromQiTransform (T := R) (fun x : R => x) in
  let Q := qiTransformFromALMath (T := R) (fun x : R => x) in
  (rigid t -> qi_unit (Q t) /\ T (Q t) = t) /\
  (qi_unit a -> Q (T a) = a \/ Q (T a) = qi_opposite a).
Proof.
  intros t a T Q. unfold T, Q. split.
  - intros h. rewrite ?fromQi_eq.
    assert (E := Proofs_Average.eigen_of t h).
    assert (K : qiTransformFromALMath (fun x => x) t = mkQi (toEigenQuaternion t) (mkPosition3D (t_r1c4 t) (t_r2c4 t) (t_r3c4 t)))
      by (destruct t; reflexivity).
    rewrite K. split; [exact (proj1 E)|]. cbn [qi_rot qi_pos].
    apply Proofs_Average.transform_ext.
    + apply (Proofs_Average.quaternion_of_same (toEigenQuaternion t)); [|exact E].
      apply Proofs_Average.toTransform_of. exact (proj1 E).
    + rewrite Proofs_Average.toTransform_pos. destruct t; reflexivity.
  - intros h. rewrite ?fromQi_eq.
    assert (E := Proofs_Average.toTransform_of (qi_rot a) (qi_pos a) h).
    assert (E' := Proofs_Average.eigen_of _ (Proofs_Average.quaternion_of_rigid _ _ E)).
    assert (K : forall s, qiTransformFromALMath (fun x => x) s = mkQi (toEigenQuaternion s) (mkPosition3D (t_r1c4 s) (t_r2c4 s) (t_r3c4 s)))
      by (intros []; reflexivity).
    rewrite K.
    change (t_r1c4 (eq_toTransform (qi_rot a) (qi_pos a))) with (p3_x (qi_pos a)).
    change (t_r2c4 (eq_toTransform (qi_rot a) (qi_pos a))) with (p3_y (qi_pos a)).
    change (t_r3c4 (eq_toTransform (qi_rot a) (qi_pos a))) with (p3_z (qi_pos a)).
    replace (mkPosition3D (p3_x (qi_pos a)) (p3_y (qi_pos a)) (p3_z (qi_pos a))) with (qi_pos a)
      by (destruct (qi_pos a); reflexivity).
    destruct (Proofs_Average.quaternion_cover _ _ _ E' E) as [->| ->]; [left|right]; destruct a; reflexivity.
Qed.


Lemma C63_pose2D_proof : forall p : Pose2D R,
  exists a, qiTransformFromPose2D (fun x : R => x) p = Ok a /\ qi_unit a /\
  transformFromQiTransform (fun x : R => x) a = transformFromPose2D p /\
  let b := pose2DFromQiTransform (fun x : R => x) a in
  (-PI < pose_theta p <= PI -> b = p) /\
  pose_x b = pose_x p /\ pose_y b = pose_y p /\ -PI < pose_theta b <= PI /\
  cos (pose_theta b) = cos (pose_theta p) /\ sin (pose_theta b) = sin (pose_theta p).
Proof.
  intros p. destruct (Proofs_Quat.C14_from_angle_axis_any_proof (pose_theta p) 0 0 1) as [H _].
  assert (T := cs2 (pose_theta p / 2)).
  unfold qiTransformFromPose2D. cbn [s_ofZ RScalar].
  change (q_fromAngleAndAxis (pose_theta p) (IZR 0) (IZR 0) (IZR 1)) with (q_fromAngleAndAxis (pose_theta p) 0 0 1).
  rewrite H.
  2:{ intro E. injection E as E1 E2 E3 E4. rewrite E1 in T. rewrite Rmult_1_l in E4. rewrite E4 in T. lra. }
  cbn [rbind]. eexists. split; [reflexivity|].
  assert (C2 : cos (pose_theta p) = 1 - 2 * (sin (pose_theta p/2) * sin (pose_theta p/2))).
  { replace (pose_theta p) with (2*(pose_theta p/2)) at 1 by field. rewrite cos_2a_sin. ring. }
  assert (S2 : sin (pose_theta p) = 2 * sin (pose_theta p/2) * cos (pose_theta p/2)).
  { replace (pose_theta p) with (2*(pose_theta p/2)) at 1 by field. apply sin_2a. }
  split; [unfold qi_unit, unitq; refine (eq_trans _ T); unfold qnorm2; cbn; ring|].
  match goal with |- transformFromQiTransform _ ?a = _ /\ _ => set (q := a) end.
  assert (E : transformFromQiTransform (fun x : R => x) q = transformFromPose2D p).
  { destruct p as [px py th]. cbn [pose_theta] in *. unfold q. rewrite ?fromQi_eq.
    unr. rec_eq; rewrite ?C2, ?S2; ring. }
  split; [exact E|]. unfold pose2DFromQiTransform. rewrite E.
  apply Proofs_Plane.C19_pose_recovered_proof.
Qed.


Lemma C63_translation_proof : forall (T D : Type) (S : Scalar T) (SD : Scalar D)
  (narrow : D -> T) (widen : T -> D), (forall x, narrow (widen x) = x) ->
  forall t : Transform T,
  let b := transformFromQiTransform narrow (qiTransformFromALMath widen t) in
  t_r1c4 b = t_r1c4 t /\ t_r2c4 b = t_r2c4 t /\ t_r3c4 b = t_r3c4 t.
Proof.
  intros T D S SD narrow widen h [t11 t12 t13 t14 t21 t22 t23 t24 t31 t32 t33 t34]. cbn. auto.
Qed.


Lemma C63_copies_proof : forall (T : Type) (t : Transform T) (m : list (list T)) (v : list T),
  toALMathTransform (toEigenMatrix34 t) = Ok t /\
  concat (toEigenMatrix34 t) = Spec_Vec.ct t /\
  toEigenMatrix3 t = [[t_r1c1 t; t_r1c2 t; t_r1c3 t]; [t_r2c1 t; t_r2c2 t; t_r2c3 t]; [t_r3c1 t; t_r3c2 t; t_r3c3 t]] /\
  (forall s, toALMathTransform m = Ok s <-> m = toEigenMatrix34 s) /\
  ((exists s, toALMathTransform m = Ok s) <-> length m = 3%nat /\ Forall (fun r => length r = 4%nat) m) /\
  (forall p, toALMathPosition3D v = Ok p <-> v = toEigenVector3 p) /\
  (forall p, toALMathVelocity6D v = Ok p <-> v = Spec_Vec.cv6 p).
Proof.
  intros T t m v. split; [destruct t; reflexivity|]. split; [destruct t; reflexivity|].
  split; [destruct t; reflexivity|].
  assert (A : forall s, toALMathTransform m = Ok s <-> m = toEigenMatrix34 s).
  { intros s. split; [|intros ->; destruct s; reflexivity].
    destruct m as [|[|a [|b [|c [|x [|]]]]] [|[|d [|e [|f [|y [|]]]]] [|[|g [|h [|i [|z [|]]]]] [|]]]]; try discriminate.
    cbn. intro E. injection E as <-. reflexivity. }
  split; [exact A|]. split; [|split].
  - split.
    + intros [s h]. apply A in h. subst m. split; [reflexivity|]. repeat constructor.
    + intros [l f].
      destruct m as [|r1 [|r2 [|r3 [|]]]]; try discriminate.
      inversion f as [|? ? f1 f']; subst. inversion f' as [|? ? f2 f'']; subst. inversion f'' as [|? ? f3 _]; subst.
      destruct r1 as [|a [|b [|c [|x [|]]]]]; try discriminate.
      destruct r2 as [|d [|e [|g [|y [|]]]]]; try discriminate.
      destruct r3 as [|a' [|b' [|c' [|x' [|]]]]]; try discriminate.
      eexists. reflexivity.
  - intros p. split; [|intros ->; destruct p; reflexivity].
    destruct v as [|a [|b [|c [|]]]]; try discriminate. cbn. intro E. injection E as <-. reflexivity.
  - intros p. split; [|intros ->; destruct p; reflexivity].
    destruct v as [|a [|b [|c [|d [|e [|f [|]]]]]]]; try discriminate. cbn. intro E. injection E as <-. reflexivity.
Qed.
