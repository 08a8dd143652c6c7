(** * Lemmas for Props_ExpLog *)

From Coq Require Import Reals List Lra Lia Psatz Nsatz Bool Arith.
Import ListNotations.
From Verif Require Import Scalar RInst RLemmas Model_Base Model_Vec Model_Rigid Model_Almath
  Model_Helpers Spec_Geom Proofs_Geom MemTac SO3Quat Proofs_Transform Proofs_Rotation Proofs_Quat.
Local Open Scope R_scope.


(** The coefficients of the rotation of angle [a] about the unit vector [(u,v,w)]. *)
Definition rod9 (co si u v w a b c d e f g h i : R) : Prop :=
  a = co + (1-co)*u*u /\ b = (1-co)*u*v - si*w /\ c = (1-co)*u*w + si*v /\
  d = (1-co)*u*v + si*w /\ e = co + (1-co)*v*v /\ f = (1-co)*v*w - si*u /\
  g = (1-co)*u*w - si*v /\ h = (1-co)*v*w + si*u /\ i = co + (1-co)*w*w.

Lemma turns_rod9 : forall t th u v w, turns_about (tmat t) th (u, v, w) <->
  u*u+v*v+w*w = 1 /\
  rod9 (cos th) (sin th) u v w (t_r1c1 t) (t_r1c2 t) (t_r1c3 t) (t_r2c1 t) (t_r2c2 t) (t_r2c3 t)
       (t_r3c1 t) (t_r3c2 t) (t_r3c3 t).
Proof.
  intros [a b c px d e f py g h i pz] th u v w.
  cbn [t_r1c1 t_r1c2 t_r1c3 t_r2c1 t_r2c2 t_r2c3 t_r3c1 t_r3c2 t_r3c3]. split.
  - intros [hu H]. unfold vdot, vx, vy, vz in hu. cbn in hu. split; [exact hu|].
    generalize (H (1,0,0)) (H (0,1,0)) (H (0,0,1)).
    unfold rodrigues, mapply, tmat, of_rows, vadd, vscale, vcross, vdot, vx, vy, vz.
    cbn -[cos sin]. intros e1 e2 e3. injection e1; injection e2; injection e3. intros.
    repeat split; lra.
  - intros [hu (->&->&->&->&->&->&->&->&->)]. split; [exact hu|].
    intros [[x y] z]. unfold rodrigues, mapply, tmat, of_rows, vadd, vscale, vcross, vdot, vx, vy, vz.
    cbn -[cos sin]. pair_eq; ring.
Qed.

Lemma rod9_so3 : forall co si u v w a b c d e f g h i, co*co+si*si = 1 -> u*u+v*v+w*w = 1 ->
  rod9 co si u v w a b c d e f g h i -> so3 a b c d e f g h i.
Proof.
  intros * hc hu (->&->&->&->&->&->&->&->&->).
  repeat split; nsatz.
Qed.

(** The exponential once its coefficients are known: [w = th u]. *)
Lemma exp_rod : forall th u v w xd yd zd s c,
  th <> 0 -> u*u+v*v+w*w = 1 ->
  exp_matrix (mkVelocity6D xd yd zd (th*u) (th*v) (th*w)) ((1-c)/(th*th)) (s/th) ((th-s)/(th*th*th)) =
  let A := (1-c)/th in let B := (th-s)/th in
  mkTransform (c+(1-c)*u*u) ((1-c)*u*v-s*w) ((1-c)*u*w+s*v)
    (xd + A*(v*zd-w*yd) + B*(v*(u*yd-v*xd) - w*(w*xd-u*zd)))
    ((1-c)*u*v+s*w) (c+(1-c)*v*v) ((1-c)*v*w-s*u)
    (yd + A*(w*xd-u*zd) + B*(w*(v*zd-w*yd) - u*(u*yd-v*xd)))
    ((1-c)*u*w-s*v) ((1-c)*v*w+s*u) (c+(1-c)*w*w)
    (zd + A*(u*yd-v*xd) + B*(u*(w*xd-u*zd) - v*(v*zd-w*yd))).
Proof.
  intros * ht hu. cbv zeta. set (A := (1-c)/th). set (B := (th-s)/th).
  assert (hw : w*w = 1-u*u-v*v) by lra.
  unfold exp_matrix. cbn [v6_xd v6_yd v6_zd v6_wxd v6_wyd v6_wzd s_add s_sub s_mul s_neg s_div s_ofZ RScalar].
  assert (E1 : forall x y, (1-c)/(th*th)*(th*x)*(th*y) = (1-c)*x*y) by (intros; field; exact ht).
  assert (E2 : forall x, s/th*(th*x) = s*x) by (intros; field; exact ht).
  assert (E3 : forall x, (1-c)/(th*th)*(th*x) = A*x) by (intros; unfold A; field; exact ht).
  assert (E4 : forall x y, (th-s)/(th*th*th)*(th*x)*(th*y) = B*x*y) by (intros; unfold B; field; exact ht).
  assert (E5 : s/th = 1 - B) by (unfold B; field; exact ht).
  assert (E6 : forall x y, (1-c)/(th*th)*(th*x*(th*x)+th*y*(th*y)) = (1-c)*(x*x+y*y)) by (intros; field; exact ht).
  assert (E7 : forall x, - (s/th)*(th*x) = - (s*x)) by (intros; field; exact ht).
  assert (E8 : forall x, - ((1-c)/(th*th))*(th*x) = - (A*x)) by (intros; unfold A; field; exact ht).
  rewrite !E1, !E2, !E7, !E4, !E6, !E8, !E3, !E5. clear E1 E2 E3 E4 E5 E6 E7 E8.
  clearbody A B.
  rec_eq; try ring; nsatz.
Qed.

Lemma exp_t_pos : forall v : Velocity6D R, 0 <= exp_t v.
Proof. intro v. apply sqrt_pos. Qed.

Lemma exp_t_dir : forall v : Velocity6D R, 1/1000 <= exp_t v ->
  exists u1 u2 u3, u1*u1+u2*u2+u3*u3 = 1 /\
  v6_wxd v = exp_t v * u1 /\ v6_wyd v = exp_t v * u2 /\ v6_wzd v = exp_t v * u3.
Proof.
  intros [x y z a b c] h. cbn in *.
  destruct (sqrt_ex (a*a+b*b+c*c)) as (s&es&hs&ss); [apply sum3sq_pos|]. rewrite es in *.
  exists (a/s), (b/s), (c/s). split; [apply unit_quot; lra|].
  repeat split; field; lra.
Qed.

(** The exponential above the threshold, in terms of angle and axis. *)
Lemma exp_above : forall th u v w xd yd zd,
  1/1000 <= th -> u*u+v*v+w*w = 1 ->
  velocityExponential (mkVelocity6D xd yd zd (th*u) (th*v) (th*w)) =
  let c := cos th in let s := sin th in
  let A := (1-c)/th in let B := (th-s)/th in
  mkTransform (c+(1-c)*u*u) ((1-c)*u*v-s*w) ((1-c)*u*w+s*v)
    (xd + A*(v*zd-w*yd) + B*(v*(u*yd-v*xd) - w*(w*xd-u*zd)))
    ((1-c)*u*v+s*w) (c+(1-c)*v*v) ((1-c)*v*w-s*u)
    (yd + A*(w*xd-u*zd) + B*(w*(v*zd-w*yd) - u*(u*yd-v*xd)))
    ((1-c)*u*w-s*v) ((1-c)*v*w+s*u) (c+(1-c)*w*w)
    (zd + A*(u*yd-v*xd) + B*(u*(w*xd-u*zd) - v*(v*zd-w*yd))).
Proof.
  intros * h hu.
  assert (E : exp_t (mkVelocity6D xd yd zd (th*u) (th*v) (th*w)) = th).
  { unfold exp_t. cbn. apply sqrt_unique'; [lra|]. transitivity (th*th*(u*u+v*v+w*w)); [rewrite hu; ring|ring]. }
  unfold velocityExponential. cbv zeta. rewrite E.
  cbn [s_leb s_frac RScalar].
  rewrite Rleb_true by lra.
  apply exp_rod; [lra|exact hu].
Qed.

Lemma vel_dir : forall v : Velocity6D R, 1/1000 <= vnorm (vang v) ->
  exists th u1 u2 u3, th = vnorm (vang v) /\ u1*u1+u2*u2+u3*u3 = 1 /\
  vang v = (th*u1, th*u2, th*u3) /\
  v = mkVelocity6D (v6_xd v) (v6_yd v) (v6_zd v) (th*u1) (th*u2) (th*u3).
Proof.
  intros v h. destruct (exp_t_dir v h) as (a&b&c&hu&e1&e2&e3).
  exists (vnorm (vang v)), a, b, c. split; [reflexivity|]. split; [exact hu|].
  change (vnorm (vang v)) with (exp_t v). rewrite <- e1, <- e2, <- e3.
  split; [reflexivity|]. destruct v; reflexivity.
Qed.

Lemma C16_exponential_proof : forall v : Velocity6D R, 1/1000 <= vnorm (vang v) ->
  let t := velocityExponential v in
  rigid t /\
  turns_about (tmat t) (vnorm (vang v)) (vscale (1 / vnorm (vang v)) (vang v)) /\
  vcross (vang v) (tpos t) = vsub (mapply (tmat t) (vlin v)) (vlin v) /\
  vdot (vang v) (tpos t) = vdot (vang v) (vlin v).
Proof.
  intros v h t.
  destruct (vel_dir v h) as (th&a&b&c&eth&hu&ew&ev). rewrite <- eth in *.
  assert (E := exp_above th a b c (v6_xd v) (v6_yd v) (v6_zd v) h hu). rewrite <- ev in E.
  fold t in E. cbv zeta in E.
  assert (F : vscale (1/th) (vang v) = (a, b, c)).
  { rewrite ew. unfold vscale, vx, vy, vz. cbn. pair_eq; field; lra. }
  rewrite F.
  assert (Z := cs2 th).
  assert (RD : turns_about (tmat t) th (a,b,c)).
  { apply turns_rod9. split; [exact hu|]. rewrite E. repeat split. }
  split; [|split; [exact RD|]].
  - destruct t as [r11 r12 r13 px r21 r22 r23 py r31 r32 r33 pz]. apply rigid_mk.
    apply turns_rod9 in RD. destruct RD as [_ RD]. eapply rod9_so3; [|exact hu|exact RD]. exact Z.
  - rewrite ew. rewrite E. unfold vlin.
    set (A := (1 - cos th)/th). set (B := (th - sin th)/th).
    assert (hA : th * A = 1 - cos th) by (unfold A; field; lra).
    assert (hB : th * B = th - sin th) by (unfold B; field; lra).
    clearbody A B.
    unfold vcross, vdot, vadd, vsub, vscale, mapply, tpos, tmat, of_rows, vx, vy, vz. cbn -[cos sin].
    revert Z hA hB. generalize (cos th) (sin th). generalize (v6_xd v) (v6_yd v) (v6_zd v).
    intros x y z C S Z hA hB.
    clear - hu hA hB. split; [pair_eq|]; nsatz.
Qed.


Lemma C16_exponential_one_parameter_proof : forall (v : Velocity6D R) (k l : R),
  0 < k -> 0 < l -> 1/1000 <= k * vnorm (vang v) -> 1/1000 <= l * vnorm (vang v) ->
  t_mul (velocityExponential (v6_lscale k v)) (velocityExponential (v6_lscale l v))
  = velocityExponential (v6_lscale (k+l) v).
Proof.
  intros v k l hk hl h1 h2.
  assert (np : 0 <= vnorm (vang v)) by apply sqrt_pos.
  assert (n0 : 0 < vnorm (vang v)).
  { destruct np as [h|h]; [exact h|]. rewrite <- h in h1. lra. }
  set (n := vnorm (vang v)) in *.
  destruct v as [x y z wx wy wz].
  assert (EN : wx*wx+wy*wy+wz*wz = n*n).
  { unfold n, vnorm. rewrite sqrt_sqrt. reflexivity. unfold vang, vdot, vx, vy, vz. cbn. apply sum3sq_pos. }
  clearbody n.
  set (a := wx/n). set (b := wy/n). set (c := wz/n).
  assert (hu : a*a+b*b+c*c = 1) by (unfold a, b, c; apply unit_quot; lra).
  assert (X : forall m, v6_lscale m (mkVelocity6D x y z wx wy wz) =
     mkVelocity6D (m*x) (m*y) (m*z) (m*n*a) (m*n*b) (m*n*c)).
  { intro m. unfold v6_lscale. unr. unfold a, b, c. rec_eq; field; lra. }
  clearbody a b c.
  rewrite !X. rewrite !exp_above by (try exact hu; lra). cbv zeta. rewrite t_mul_mk.
  replace ((k+l)*n) with (k*n+l*n) by ring. rewrite cos_plus, sin_plus.
  assert (Z1 := cs2 (k*n)). assert (Z2 := cs2 (l*n)).
  assert (P1 : k*n <> 0) by lra. assert (P2 : l*n <> 0) by lra.
  assert (P3 : (k*n+l*n) <> 0) by lra.
  revert Z1 Z2. generalize (cos (k*n)) (sin (k*n)) (cos (l*n)) (sin (l*n)).
  intros C S C' S' Z1 Z2.
  set (A1 := (1-C)/(k*n)*k). set (B1 := (k*n-S)/(k*n)*k).
  set (A2 := (1-C')/(l*n)*l). set (B2 := (l*n-S')/(l*n)*l).
  set (A3 := (1-(C*C'-S*S'))/(k*n+l*n)*(k+l)). set (B3 := (k*n+l*n-(S*C'+C*S'))/(k*n+l*n)*(k+l)).
  assert (kn : k <> 0) by lra. assert (ln : l <> 0) by lra. assert (nn : n <> 0) by lra.
  assert (kl : k + l <> 0) by lra.
  assert (G : forall K AA BB m, K <> 0 ->
    m*x + AA/K*(b*(m*z) - c*(m*y)) + BB/K*(b*(a*(m*y)-b*(m*x)) - c*(c*(m*x)-a*(m*z))) =
    m*x + (AA/K*m)*(b*z - c*y) + (BB/K*m)*(b*(a*y-b*x) - c*(c*x-a*z))) by (intros; field; assumption).
  assert (G' : forall K AA BB m, K <> 0 ->
    m*y + AA/K*(c*(m*x) - a*(m*z)) + BB/K*(c*(b*(m*z)-c*(m*y)) - a*(a*(m*y)-b*(m*x))) =
    m*y + (AA/K*m)*(c*x - a*z) + (BB/K*m)*(c*(b*z-c*y) - a*(a*y-b*x))) by (intros; field; assumption).
  assert (G'' : forall K AA BB m, K <> 0 ->
    m*z + AA/K*(a*(m*y) - b*(m*x)) + BB/K*(a*(c*(m*x)-a*(m*z)) - b*(b*(m*z)-c*(m*y))) =
    m*z + (AA/K*m)*(a*y - b*x) + (BB/K*m)*(a*(c*x-a*z) - b*(b*z-c*y))) by (intros; field; assumption).
  rewrite !G, !G', !G'' by assumption.
  fold A1 A2 A3 B1 B2 B3. clear G G' G'' X.
  assert (eA1 : A1 = (1-C)*/n) by (unfold A1; field; auto).
  assert (eB1 : B1 = k-S*/n) by (unfold B1; field; auto).
  assert (eA2 : A2 = (1-C')*/n) by (unfold A2; field; auto).
  assert (eB2 : B2 = l-S'*/n) by (unfold B2; field; auto).
  assert (eA3 : A3 = (1-(C*C'-S*S'))*/n) by (unfold A3; field; repeat split; auto).
  assert (eB3 : B3 = k+l-(S*C'+C*S')*/n) by (unfold B3; field; repeat split; auto).
  rewrite eA1, eB1, eA2, eB2, eA3, eB3. generalize (/n). clear - hu. intro N.
  rec_eq; nsatz.
Qed.


Lemma C16_translations_proof : forall x y z : R,
  velocityExponential (mkVelocity6D x y z 0 0 0) = transformFromPosition3D (mkPosition3D x y z) /\
  transformLogarithm (transformFromPosition3D (mkPosition3D x y z)) = mkVelocity6D x y z 0 0 0.
Proof.
  intros x y z. split.
  - unfold velocityExponential, exp_t. cbv zeta. cbn [v6_xd v6_yd v6_zd v6_wxd v6_wyd v6_wzd s_add s_mul s_sqrt RScalar].
    replace (0*0+0*0+0*0) with 0 by ring. rewrite sqrt_0.
    cbn [s_leb RScalar s_frac]. rewrite Rleb_false by lra.
    unfold exp_matrix. unr. rec_eq; field.
  - unfold transformLogarithm, transformLogarithmInPlace, log_si, log_co.
    unfold transformFromPosition3D, transformFromPosition3DInPlace.
    cbv [set_t_r1c4 set_t_r2c4 set_t_r3c4 t_r1c1 t_r1c2 t_r1c3 t_r1c4 t_r2c1 t_r2c2 t_r2c3 t_r2c4 t_r3c1 t_r3c2 t_r3c3 t_r3c4 t_id p3_x p3_y p3_z].
    cbn [s_add s_sub s_mul s_div s_sqrt s_ltb s_atan2 s_pi s_ofZ s_frac s_neg RScalar].
    cbn [s_ltb RScalar].
    replace (1/2 * sqrt ((0-0)*(0-0)+(0-0)*(0-0)+(0-0)*(0-0))) with 0.
    2:{ replace ((0-0)*(0-0)+(0-0)*(0-0)+(0-0)*(0-0)) with 0 by ring. rewrite sqrt_0. ring. }
    replace (1/2*(1+1+1-1)) with 1 by field.
    rewrite (Rltb_true 0 (1/1000)) by lra.
    rewrite (Rltb_true (1-1/1000) 1) by lra.
    assert (A0 : Ratan2 0 1 = 0).
    { generalize (Ratan2_cs 0). rewrite sin_0, cos_0. intro h. apply h. generalize PI_RGT_0; lra. }
    rewrite A0. rewrite (Rltb_true 0 (1/1000)) by lra.
    unfold log_linear, s_pow2. unr. rec_eq; field.
Qed.


Lemma sin_lt_x' : forall x, 0 < x -> sin x < x.
Proof. exact sin_lt_x. Qed.

(** The logarithm on the regular domain. *)
Lemma log_regular : forall co si u v w a b c d e f g h i px py pz w0 th,
  rod9 co si u v w a b c d e f g h i -> u*u+v*v+w*w = 1 ->
  co = cos th -> si = sin th -> 0 <= th <= PI -> 1/1000 <= si ->
  transformLogarithmInPlace (mkTransform a b c px d e f py g h i pz) w0 =
  let L := (2*si - th*(1+co))/(2*si) in
  mkVelocity6D
    (px - th/2*(v*pz-w*py) + L*(v*(u*py-v*px) - w*(w*px-u*pz)))
    (py - th/2*(w*px-u*pz) + L*(w*(v*pz-w*py) - u*(u*py-v*px)))
    (pz - th/2*(u*py-v*px) + L*(u*(w*px-u*pz) - v*(v*pz-w*py)))
    (th*u) (th*v) (th*w).
Proof.
  intros * hr hu hc hs hth hsi.
  assert (hw : w*w = 1-u*u-v*v) by lra.
  assert (th0 : 0 < th).
  { destruct (Rle_lt_or_eq_dec 0 th (proj1 hth)) as [h0|h0]; [exact h0|].
    subst th. rewrite sin_0 in hs. lra. }
  assert (thlow : 1/1000 < th) by (generalize (sin_lt_x th th0); lra).
  assert (thpi : th < PI).
  { destruct (Rle_lt_or_eq_dec th PI (proj2 hth)) as [h0|h0]; [exact h0|].
    subst th. rewrite sin_PI in hs. lra. }
  assert (thhigh : th < PI - 1/1000).
  { generalize (sin_lt_x (PI - th)). rewrite sin_PI_x. intro X. specialize (X ltac:(lra)). lra. }
  destruct hr as (->&->&->&->&->&->&->&->&->).
  assert (Z : co*co+si*si = 1) by (subst; apply cs2).
  assert (d1 : (1-co)*v*w+si*u - ((1-co)*v*w-si*u) = 2*si*u) by ring.
  assert (d2 : (1-co)*u*w+si*v - ((1-co)*u*w-si*v) = 2*si*v) by ring.
  assert (d3 : (1-co)*u*v+si*w - ((1-co)*u*v-si*w) = 2*si*w) by ring.
  assert (d1' : (1-co)*v*w-si*u - ((1-co)*v*w+si*u) = -(2*si*u)) by ring.
  assert (d2' : (1-co)*u*w-si*v - ((1-co)*u*w+si*v) = -(2*si*v)) by ring.
  assert (d3' : (1-co)*u*v-si*w - ((1-co)*u*v+si*w) = -(2*si*w)) by ring.
  unfold transformLogarithmInPlace.
  assert (ESI : log_si (mkTransform (co+(1-co)*u*u) ((1-co)*u*v-si*w) ((1-co)*u*w+si*v) px
      ((1-co)*u*v+si*w) (co+(1-co)*v*v) ((1-co)*v*w-si*u) py
      ((1-co)*u*w-si*v) ((1-co)*v*w+si*u) (co+(1-co)*w*w) pz) = si).
  { unfold log_si. cbn [t_r1c1 t_r1c2 t_r1c3 t_r1c4 t_r2c1 t_r2c2 t_r2c3 t_r2c4 t_r3c1 t_r3c2 t_r3c3 t_r3c4 s_add s_sub s_mul s_sqrt s_frac RScalar].
    rewrite d1, d2, d3.
    replace (2*si*u*(2*si*u) + 2*si*v*(2*si*v) + 2*si*w*(2*si*w)) with (2*si*(2*si)).
    2:{ transitivity (2*si*(2*si)*(u*u+v*v+w*w)); [rewrite hu; ring | ring]. }
    rewrite sqrt_square by lra. field. }
  assert (ECO : log_co (mkTransform (co+(1-co)*u*u) ((1-co)*u*v-si*w) ((1-co)*u*w+si*v) px
      ((1-co)*u*v+si*w) (co+(1-co)*v*v) ((1-co)*v*w-si*u) py
      ((1-co)*u*w-si*v) ((1-co)*v*w+si*u) (co+(1-co)*w*w) pz) = co).
  { unfold log_co. cbn [t_r1c1 t_r2c2 t_r3c3 s_add s_sub s_mul s_sqrt s_frac s_ofZ RScalar].
    replace (co + (1 - co)*u*u + (co + (1-co)*v*v) + (co + (1-co)*w*w) - 1) with (3*co + (1-co)*(u*u+v*v+w*w) - 1) by ring.
    rewrite hu. field. }
  cbv zeta. rewrite ESI, ECO. cbn [s_atan2 RScalar].
  assert (EA : Ratan2 si co = th).
  { rewrite hc, hs. apply Ratan2_cs. lra. }
  rewrite EA. cbn [t_r1c1 t_r1c2 t_r1c3 t_r1c4 t_r2c1 t_r2c2 t_r2c3 t_r2c4 t_r3c1 t_r3c2 t_r3c3 t_r3c4].
  cbn [s_add s_sub s_mul s_div s_neg s_ltb s_ofZ s_frac s_pi RScalar].
  rewrite (Rltb_false si (1/1000)) by lra.
  rewrite (Rltb_false th (1/1000)) by lra.
  rewrite (Rltb_false (PI-1/1000) th) by lra.
  rewrite (Rltb_false th (-PI+1/1000)) by (generalize PI_RGT_0; lra).
  cbn [orb].
  unfold log_linear, s_pow2. cbv zeta.
  cbn [t_r1c1 t_r1c2 t_r1c3 t_r1c4 t_r2c1 t_r2c2 t_r2c3 t_r2c4 t_r3c1 t_r3c2 t_r3c3 t_r3c4 fst snd s_add s_sub s_mul s_div s_neg s_ofZ s_frac RScalar].
  rewrite !d1, !d2, !d3, !d1', !d2', !d3'. clear d1 d2 d3 d1' d2' d3' ESI ECO EA.
  set (L := (2*si - th*(1+co))/(2*si)).
  set (la := 1/2*(2*si - th*(1+co))/(th*th*si)).
  assert (F1 : forall x y, th/(2*si)*(th/(2*si))*(2*si*x)*(2*si*y)*la = L*x*y)
    by (intros; unfold la, L; field; lra).
  assert (F2 : forall x y, th/(2*si)*(th/(2*si))*(-(2*si*x))*(-(2*si*y))*la = L*x*y)
    by (intros; unfold la, L; field; lra).
  assert (F3 : forall x, 1/2*(th/(2*si))*(2*si*x) = th/2*x) by (intros; field; lra).
  assert (F4 : forall x, 1/2*(th/(2*si))*(-(2*si*x)) = -(th/2*x)) by (intros; field; lra).
  assert (F5 : forall x y x' y', th/(2*si)*(th/(2*si))*((2*si*x)*(-(2*si*y)) + -(2*si*x')*(2*si*y'))*la = -(L*(x*y+x'*y')))
    by (intros; unfold la, L; field; lra).
  assert (F6 : forall x y x' y', th/(2*si)*(th/(2*si))*(-(2*si*x)*(2*si*y) + -(2*si*x')*(2*si*y'))*la = -(L*(x*y+x'*y')))
    by (intros; unfold la, L; field; lra).
  assert (F8 : forall x y x' y', th/(2*si)*(th/(2*si))*(-(2*si*x)*(2*si*y) + (2*si*x')*-(2*si*y'))*la = -(L*(x*y+x'*y')))
    by (intros; unfold la, L; field; lra).
  assert (F7 : forall x, th/(2*si)*(2*si*x) = th*x) by (intros; field; lra).
  rewrite !F1, !F2, !F3, !F4, ?F5, ?F6, ?F8, !F7. clear F8 F1 F2 F3 F4 F5 F6 F7.
  clearbody L la.
  rec_eq; ring.
Qed.

(** [(I + A U + B U^2) (I - th/2 U + L U^2) = I]. *)
Lemma V_inv : forall th c s, th <> 0 -> s <> 0 -> c*c+s*s = 1 ->
  let A := (1-c)/th in let B := (th-s)/th in let L := (2*s - th*(1+c))/(2*s) in
  A - th/2 - A*L + B*th/2 = 0 /\ B + L - A*th/2 - B*L = 0.
Proof.
  intros th c s ht hs Z A B L. unfold A, B, L. split.
  - transitivity ((1 - (c*c+s*s))/(2*s)); [field; auto|]. rewrite Z. field. auto.
  - field. auto.
Qed.

Lemma C16_exp_log_regular_proof : forall (t : Transform R) (th : R) (u : vec3) (w0 : R * R * R),
  turns_about (tmat t) th u -> 0 <= th <= PI -> 1/1000 <= sin th ->
  let l := transformLogarithmInPlace t w0 in
  vang l = vscale th u /\ velocityExponential l = t /\ transformLogarithm t = l.
Proof.
  intros [a b c px d e f py g h i pz] th [[u v] w] w0 ht hth hs l.
  apply turns_rod9 in ht. cbn [t_r1c1 t_r1c2 t_r1c3 t_r1c4 t_r2c1 t_r2c2 t_r2c3 t_r2c4 t_r3c1 t_r3c2 t_r3c3 t_r3c4] in ht.
  destruct ht as [hu hr].
  assert (E := fun w => log_regular _ _ _ _ _ _ _ _ _ _ _ _ _ _ px py pz w th hr hu eq_refl eq_refl hth hs).
  subst l. unfold transformLogarithm. rewrite !E. cbv zeta. split; [reflexivity|]. split; [|reflexivity].
  assert (thp : 1/1000 <= th).
  { destruct (Rle_lt_or_eq_dec 0 th (proj1 hth)) as [h0|h0].
    - generalize (sin_lt_x th h0); lra.
    - subst th. rewrite sin_0 in hs. lra. }
  rewrite exp_above by assumption. cbv zeta.
  destruct (V_inv th (cos th) (sin th)) as [V1 V2]; [lra|lra|apply cs2|].
  destruct hr as (->&->&->&->&->&->&->&->&->).
  set (A := (1 - cos th)/th) in *. set (B := (th - sin th)/th) in *.
  set (L := (2*sin th - th*(1+cos th))/(2*sin th)) in *. clearbody A B L.
  assert (hw : w*w = 1-u*u-v*v) by lra. replace (B*th/2) with (B*(th/2)) in V1 by field.
  replace (A*th/2) with (A*(th/2)) in V2 by field.
  clear E. generalize dependent (th/2). intros H V1 V2. clear - hu hw V1 V2.
  rec_eq; try ring; nsatz.
Qed.


Lemma C16_log_exp_regular_proof : forall v : Velocity6D R,
  vnorm (vang v) <= PI -> 1/1000 <= sin (vnorm (vang v)) ->
  transformLogarithm (velocityExponential v) = v.
Proof.
  intros v hp hs.
  assert (n0 : 0 <= vnorm (vang v)) by apply sqrt_pos.
  assert (h : 1/1000 <= vnorm (vang v)).
  { destruct n0 as [n0|n0].
    - generalize (sin_lt_x _ n0); lra.
    - rewrite <- n0, sin_0 in hs. lra. }
  destruct (vel_dir v h) as (th&a&b&c&eth&hu&ew&ev). rewrite <- eth in *.
  rewrite ev. rewrite exp_above by assumption. cbv zeta. unfold transformLogarithm.
  erewrite log_regular; [|repeat split|exact hu|reflexivity|reflexivity|lra|exact hs].
  destruct (V_inv th (cos th) (sin th)) as [V1 V2]; [lra|lra|apply cs2|].
  cbv zeta.
  set (A := (1 - cos th)/th) in *. set (B := (th - sin th)/th) in *.
  set (L := (2*sin th - th*(1+cos th))/(2*sin th)) in *. clearbody A B L.
  assert (hw : c*c = 1-a*a-b*b) by lra. replace (B*th/2) with (B*(th/2)) in V1 by field.
  replace (A*th/2) with (A*(th/2)) in V2 by field.
  generalize (v6_xd v) (v6_yd v) (v6_zd v). clear ev ew eth hp hs n0 h.
  generalize dependent (th/2). intros H V1 V2 x y z. clear - hu hw V1 V2.
  rec_eq; try ring; nsatz.
Qed.



Lemma C16_exp_log_half_turns_proof : forall x y z : R,
  (let t := mkTransform 1 0 0 x 0 (-1) 0 y 0 0 (-1) z in
   velocityExponential (transformLogarithm t) = t /\ vang (transformLogarithm t) = (PI, 0, 0)) /\
  (let t := mkTransform (-1) 0 0 x 0 1 0 y 0 0 (-1) z in
   velocityExponential (transformLogarithm t) = t /\ vang (transformLogarithm t) = (0, PI, 0)) /\
  (let t := mkTransform (-1) 0 0 x 0 (-1) 0 y 0 0 1 z in
   velocityExponential (transformLogarithm t) = t /\ vang (transformLogarithm t) = (0, 0, PI)).
Proof.
  intros x y z.
  assert (A0 : Ratan2 0 (-1) = PI).
  { generalize (Ratan2_cs PI). rewrite sin_PI, cos_PI. intro h. apply h. generalize PI_RGT_0; lra. }
  assert (P := PI_RGT_0). assert (P1 : 1/1000 <= PI) by (generalize PI2_1; lra).
  assert (Pn : PI <> 0) by lra.
  assert (K : 1/(PI*PI)*PI*PI = 1) by (field; lra).
  split; [|split].
  - cbv zeta.
    assert (E : transformLogarithm (mkTransform 1 0 0 x 0 (-1) 0 y 0 0 (-1) z) =
      mkVelocity6D x (1/2*PI*z) (-(1/2)*PI*y) PI 0 0).
    { unfold transformLogarithm, transformLogarithmInPlace, log_si, log_co. cbv zeta.
      cbn [t_r1c1 t_r1c2 t_r1c3 t_r1c4 t_r2c1 t_r2c2 t_r2c3 t_r2c4 t_r3c1 t_r3c2 t_r3c3 t_r3c4].
      cbn [s_add s_sub s_mul s_div s_neg s_sqrt s_ltb s_ofZ s_frac s_pi s_atan2 RScalar].
      replace ((0-0)*(0-0)+(0-0)*(0-0)+(0-0)*(0-0)) with 0 by ring. rewrite sqrt_0, Rmult_0_r.
      replace (1/2*(1+-1+-1-1)) with (-1) by field. rewrite A0.
      rewrite (Rltb_true 0) by lra. rewrite (Rltb_false _ (-1)) by lra. rewrite (Rltb_true (-1)) by lra.
      rewrite (Rltb_true _ 1) by lra. rewrite K. rec_eq; ring. }
    rewrite E. split; [|reflexivity].
    replace (mkVelocity6D x (1/2*PI*z) (-(1/2)*PI*y) PI 0 0) with
      (mkVelocity6D x (1/2*PI*z) (-(1/2)*PI*y) (PI*1) (PI*0) (PI*0)) by (rec_eq; ring).
    rewrite exp_above by lra. cbv zeta. rewrite cos_PI, sin_PI. rec_eq; field; exact Pn.
  - cbv zeta.
    assert (E : transformLogarithm (mkTransform (-1) 0 0 x 0 1 0 y 0 0 (-1) z) =
      mkVelocity6D (-(1/2)*PI*z) y (1/2*PI*x) 0 PI 0).
    { unfold transformLogarithm, transformLogarithmInPlace, log_si, log_co. cbv zeta.
      cbn [t_r1c1 t_r1c2 t_r1c3 t_r1c4 t_r2c1 t_r2c2 t_r2c3 t_r2c4 t_r3c1 t_r3c2 t_r3c3 t_r3c4].
      cbn [s_add s_sub s_mul s_div s_neg s_sqrt s_ltb s_ofZ s_frac s_pi s_atan2 RScalar].
      replace ((0-0)*(0-0)+(0-0)*(0-0)+(0-0)*(0-0)) with 0 by ring. rewrite sqrt_0, Rmult_0_r.
      replace (1/2*(-1+1+-1-1)) with (-1) by field. rewrite A0.
      rewrite (Rltb_true 0) by lra. rewrite !(Rltb_false _ (-1)) by lra. rewrite (Rltb_true (-1)) by lra.
      rewrite (Rltb_true _ 1) by lra. rewrite K. rec_eq; ring. }
    rewrite E. split; [|reflexivity].
    replace (mkVelocity6D (-(1/2)*PI*z) y (1/2*PI*x) 0 PI 0) with
      (mkVelocity6D (-(1/2)*PI*z) y (1/2*PI*x) (PI*0) (PI*1) (PI*0)) by (rec_eq; ring).
    rewrite exp_above by lra. cbv zeta. rewrite cos_PI, sin_PI. rec_eq; field; exact Pn.
  - cbv zeta.
    assert (E : transformLogarithm (mkTransform (-1) 0 0 x 0 (-1) 0 y 0 0 1 z) =
      mkVelocity6D (1/2*PI*y) (-(1/2)*PI*x) z 0 0 PI).
    { unfold transformLogarithm, transformLogarithmInPlace, log_si, log_co. cbv zeta.
      cbn [t_r1c1 t_r1c2 t_r1c3 t_r1c4 t_r2c1 t_r2c2 t_r2c3 t_r2c4 t_r3c1 t_r3c2 t_r3c3 t_r3c4].
      cbn [s_add s_sub s_mul s_div s_neg s_sqrt s_ltb s_ofZ s_frac s_pi s_atan2 RScalar].
      replace ((0-0)*(0-0)+(0-0)*(0-0)+(0-0)*(0-0)) with 0 by ring. rewrite sqrt_0, Rmult_0_r.
      replace (1/2*(-1+-1+1-1)) with (-1) by field. rewrite A0.
      rewrite (Rltb_true 0) by lra. rewrite !(Rltb_false _ (-1)) by lra. rewrite (Rltb_true (-1)) by lra.
      rewrite (Rltb_true _ 1) by lra. rewrite K. rec_eq; ring. }
    rewrite E. split; [|reflexivity].
    replace (mkVelocity6D (1/2*PI*y) (-(1/2)*PI*x) z 0 0 PI) with
      (mkVelocity6D (1/2*PI*y) (-(1/2)*PI*x) z (PI*0) (PI*0) (PI*1)) by (rec_eq; ring).
    rewrite exp_above by lra. cbv zeta. rewrite cos_PI, sin_PI. rec_eq; field; exact Pn.
Qed.


(** The half turn about (3/5, 4/5, 0). *)
Lemma log_half_turn_345 : forall w0,
  transformLogarithmInPlace (mkTransform (-7/25) (24/25) 0 0 (24/25) (7/25) 0 0 0 0 (-1) 0) w0
  = mkVelocity6D 0 0 0 (fst (fst w0)) (snd (fst w0)) (snd w0).
Proof.
  intros w0. unfold transformLogarithmInPlace, log_si, log_co. cbv zeta.
  cbn [t_r1c1 t_r1c2 t_r1c3 t_r1c4 t_r2c1 t_r2c2 t_r2c3 t_r2c4 t_r3c1 t_r3c2 t_r3c3 t_r3c4].
  cbn [s_add s_sub s_mul s_div s_neg s_sqrt s_ltb s_ofZ s_frac s_pi s_atan2 RScalar].
  replace ((0-0)*(0-0)+(0-0)*(0-0)+(24/25-24/25)*(24/25-24/25)) with 0 by ring. rewrite sqrt_0, Rmult_0_r.
  replace (1/2*(-7/25+7/25+-1-1)) with (-1) by field.
  rewrite (Rltb_true 0) by lra. rewrite !(Rltb_false _ (-1)) by lra. rewrite (Rltb_true (-1)) by lra.
  rewrite !(Rltb_false _ (-7/25)) by lra. rewrite !(Rltb_false _ (7/25)) by lra.
  unfold log_linear, s_pow2. cbn [t_r1c1 t_r1c2 t_r1c3 t_r1c4 t_r2c1 t_r2c2 t_r2c3 t_r2c4 t_r3c1 t_r3c2 t_r3c3 t_r3c4 s_add s_sub s_mul s_div s_neg s_ofZ s_frac RScalar].
  rec_eq; ring.
Qed.

Lemma C16_half_turn_refuted_proof :
  let t := mkTransform (-7/25) (24/25) 0 0 (24/25) (7/25) 0 0 0 0 (-1) 0 in
  turns_about (tmat t) PI (3/5, 4/5, 0) /\
  transformLogarithm t = mkVelocity6D 0 0 0 0 0 0 /\
  velocityExponential (transformLogarithm t) = t_id /\ t <> t_id /\
  (forall w, vang (transformLogarithmInPlace t w) = w).
Proof.
  intro t. split; [|split; [|split; [|split]]].
  - apply turns_rod9. split; [field|]. rewrite cos_PI, sin_PI. repeat split; cbn; field.
  - apply log_half_turn_345.
  - unfold transformLogarithm, t. rewrite log_half_turn_345.
    cbn [fst snd]. change (s_ofZ 0 : R) with 0.
    rewrite (proj1 (C16_translations_proof 0 0 0)). reflexivity.
  - unfold t. intro h. injection h. intros. lra.
  - intros [[x y] z]. unfold t. rewrite log_half_turn_345. reflexivity.
Qed.


Lemma C16_small_angle_refuted_proof : exists th : R, sin th = 1/2000 /\ 0 < th /\
  let t := t_fromRotZ th in
  transformLogarithm t = mkVelocity6D 0 0 0 0 0 (th/2) /\ velocityExponential (transformLogarithm t) <> t.
Proof.
  set (s := 1/2000). set (c := sqrt (1 - s*s)).
  assert (cc : c*c = 1 - s*s) by (apply sqrt_sqrt; unfold s; lra).
  assert (c0 : 0 <= c) by apply sqrt_pos.
  assert (c1 : 999/1000 < c) by (unfold s in cc; nra).
  destruct (circle_angle c s) as (th&hth&hc&hs); [lra|].
  assert (P := PI_RGT_0).
  assert (th0 : 0 < th).
  { destruct (Rlt_le_dec 0 th) as [h|h]; [exact h|]. exfalso.
    assert (sin th <= 0).
    { destruct (Req_dec th 0) as [->|n]; [rewrite sin_0; lra|].
      left. apply sin_lt_0_var; lra. }
    unfold s in hs. lra. }
  assert (th1 : th < 1/1000).
  { destruct (Rlt_le_dec th (1/1000)) as [h|h]; [exact h|]. exfalso.
    (* on [1/1000, pi] with cos > 0 we have th < pi/2, and sin is increasing *)
    assert (th < PI/2).
    { destruct (Rlt_le_dec th (PI/2)) as [k|k]; [exact k|]. exfalso.
      assert (cos th <= 0) by (apply cos_le_0; lra). lra. }
    assert (S1 : sin (1/1000) <= sin th).
    { apply sin_incr_1; generalize PI2_1; lra. }
    assert (S2 : 1/1000 - 1/1000*(1/1000)*(1/1000) < sin (1/1000)).
    { generalize (sin_bound (1/1000) 0). intro B. 
      assert (X : 0 <= 1/1000 <= PI) by (generalize PI2_1; lra).
      destruct (B (proj1 X) (proj2 X)) as [B1 _].
      unfold sin_approx, sin_term in B1. cbn in B1. lra. }
    unfold s in hs. lra. }
  exists th. split; [exact hs|]. split; [exact th0|]. intro t.
  assert (E : transformLogarithm t = mkVelocity6D 0 0 0 0 0 (th/2)).
  { unfold t, t_fromRotZ, transformLogarithm, transformLogarithmInPlace, log_si, log_co. cbv zeta.
    cbn [t_r1c1 t_r1c2 t_r1c3 t_r1c4 t_r2c1 t_r2c2 t_r2c3 t_r2c4 t_r3c1 t_r3c2 t_r3c3 t_r3c4].
    cbn [s_add s_sub s_mul s_div s_neg s_sqrt s_ltb s_ofZ s_frac s_pi s_atan2 s_cos s_sin RScalar].
    rewrite hc, hs.
    replace (1/2*sqrt ((0-0)*(0-0)+(0-0)*(0-0)+(s--s)*(s--s))) with s.
    2:{ replace ((0-0)*(0-0)+(0-0)*(0-0)+(s--s)*(s--s)) with ((2*s)*(2*s)) by ring.
        rewrite sqrt_square by (unfold s; lra). field. }
    replace (1/2*(c+c+1-1)) with c by field.
    assert (EA : Ratan2 s c = th) by (rewrite <- hc, <- hs; apply Ratan2_cs; exact hth).
    rewrite EA. rewrite (Rltb_true s) by (unfold s; lra). rewrite (Rltb_true _ c) by lra.
    rewrite (Rltb_true th) by lra.
    unfold log_linear, s_pow2. cbn [t_r1c1 t_r1c2 t_r1c3 t_r1c4 t_r2c1 t_r2c2 t_r2c3 t_r2c4 t_r3c1 t_r3c2 t_r3c3 t_r3c4 fst snd s_add s_sub s_mul s_div s_neg s_ofZ s_frac RScalar].
    unfold s. rec_eq; field. }
  split; [exact E|]. rewrite E. intro h.
  apply (f_equal t_r2c1) in h. revert h. unfold t, t_fromRotZ.
  unfold velocityExponential. cbv zeta.
  assert (ET : exp_t (mkVelocity6D 0 0 0 0 0 (th/2)) = th/2).
  { unfold exp_t. cbn. apply sqrt_unique'; [lra|ring]. }
  rewrite ET. cbn [s_leb s_frac RScalar]. rewrite Rleb_false by lra.
  unfold exp_matrix. cbn [t_r2c1 v6_xd v6_yd v6_zd v6_wxd v6_wyd v6_wzd s_add s_sub s_mul s_div s_ofZ s_frac s_sin s_cos RScalar].
  rewrite hs. unfold s. intro h.
  assert (th/2 * (1 - th/2*(th/2)/6) = 1/2000) by (rewrite <- h; field).
  nra.
Qed.


(** ** Below the threshold *)

Lemma exp_near9 : forall a b c S, 
  S = 1 - (a*a+b*b+c*c)/6 -> a*a+b*b+c*c <= 1/1000000 ->
  forall P : mat3 -> Prop,
  (forall M, near_rotation M (1/1000000000000) -> P M) ->
  P (of_rows (1 - 1/2*(c*c+b*b)) (-S*c+1/2*a*b) (S*b+1/2*a*c)
             (S*c+1/2*a*b) (1-1/2*(a*a+c*c)) (-S*a+1/2*b*c)
             (-S*b+1/2*a*c) (S*a+1/2*b*c) (1-1/2*(a*a+b*b))).
Proof.
  intros a b c S hS hn P HP. apply HP. clear P HP.
  set (n := a*a+b*b+c*c) in *.
  assert (n0 : 0 <= n) by apply sum3sq_pos.
  set (k := n*(1/12 - n/36)).
  assert (k0 : 0 <= k <= n/12).
  { unfold k. split; nra. }
  (* the Gram matrix is I + (k/n) ((w w^T) - n I): entries *)
  assert (AM : forall x y, x*x + y*y <= n -> Rabs (x*y) <= n/2).
  { intros x y h. generalize (Rle_0_sqr (x+y)) (Rle_0_sqr (x-y)). unfold Rsqr. intros.
    apply Rabs_le. split; lra. }
  assert (na : a*a <= n) by (unfold n; generalize (Rle_0_sqr b) (Rle_0_sqr c); unfold Rsqr; lra).
  assert (nb : b*b <= n) by (unfold n; generalize (Rle_0_sqr a) (Rle_0_sqr c); unfold Rsqr; lra).
  assert (nc : c*c <= n) by (unfold n; generalize (Rle_0_sqr a) (Rle_0_sqr b); unfold Rsqr; lra).
  assert (pa := Rle_0_sqr a). assert (pb := Rle_0_sqr b). assert (pc := Rle_0_sqr c). unfold Rsqr in *.
  assert (OFF : forall x y, x*x + y*y <= n -> Rabs (k*(x*y)) <= 1/1000000000000).
  { intros x y h. rewrite Rabs_mult. rewrite (Rabs_right k) by lra.
    generalize (AM x y h) (Rabs_pos (x*y)). intros.
    apply Rle_trans with (n/12*(n/2)); [apply Rmult_le_compat; lra|]. nra. }
  assert (DIA : forall q, 0 <= q <= n -> Rabs (- (k*q)) <= 1/1000000000000).
  { intros q h. rewrite Rabs_Ropp.
    assert (K : 0 <= k*q) by (apply Rmult_le_pos; lra).
    rewrite Rabs_right by lra.
    apply Rle_trans with (n/12*n); [apply Rmult_le_compat; lra|]. nra. }
  unfold near_rotation. split; [|split].
  - intros i j hij.
    assert (Hc : ((i = 0 /\ j = 1) \/ (i = 0 /\ j = 2) \/ (i = 1 /\ j = 2))%nat) by lia.
    destruct Hc as [[-> ->]|[[-> ->]|[-> ->]]]; unfold cdot, sum3, of_rows.
    + match goal with |- Rabs ?e <= _ => replace e with (k*(a*b)) end; [apply OFF; unfold n; lra|].
      unfold k. rewrite hS. unfold n. field.
    + match goal with |- Rabs ?e <= _ => replace e with (k*(a*c)) end; [apply OFF; unfold n; lra|].
      unfold k. rewrite hS. unfold n. field.
    + match goal with |- Rabs ?e <= _ => replace e with (k*(b*c)) end; [apply OFF; unfold n; lra|].
      unfold k. rewrite hS. unfold n. field.
  - intros i hi.
    assert (Hc : (i = 0 \/ i = 1 \/ i = 2)%nat) by lia.
    destruct Hc as [->|[->| ->]]; unfold rnorm2, sum3, of_rows.
    + match goal with |- Rabs ?e <= _ => replace e with (-(k*(b*b+c*c))) end; [apply DIA; unfold n; lra|].
      unfold k. rewrite hS. unfold n. field.
    + match goal with |- Rabs ?e <= _ => replace e with (-(k*(a*a+c*c))) end; [apply DIA; unfold n; lra|].
      unfold k. rewrite hS. unfold n. field.
    + match goal with |- Rabs ?e <= _ => replace e with (-(k*(a*a+b*b))) end; [apply DIA; unfold n; lra|].
      unfold k. rewrite hS. unfold n. field.
  - match goal with |- Rabs ?e <= _ => replace e with (-(k*n)) end; [apply DIA; lra|].
    unfold mdet, of_rows, k. rewrite hS. unfold n. field.
Qed.

Lemma C16_exponential_near_rotation_proof : forall v : Velocity6D R,
  near_rotation (tmat (velocityExponential v)) (1/1000000000000) /\
  t_isTransform (velocityExponential v) (1/10000) = true.
Proof.
  intro v.
  assert (N : near_rotation (tmat (velocityExponential v)) (1/1000000000000)).
  { destruct (Rle_lt_dec (1/1000) (vnorm (vang v))) as [h|h].
    - destruct (C16_exponential_proof v h) as [H _].
      destruct (velocityExponential v) as [a b c x d e f y g k i z]. apply rigid_mk in H.
      apply near_rotation_mono with 0; [lra|]. apply near_0_proper. exact H.
    - change (vnorm (vang v)) with (exp_t v) in h.
      unfold velocityExponential. cbv zeta. cbn [s_leb s_frac RScalar].
      rewrite Rleb_false by lra.
      destruct v as [x y z a b c]. unfold exp_matrix.
      unfold exp_t in *. cbn [v6_xd v6_yd v6_zd v6_wxd v6_wyd v6_wzd s_sqrt s_add s_mul RScalar] in *.
      destruct (sqrt_ex (a*a+b*b+c*c)) as (s&es&hs&ss); [apply sum3sq_pos|]. rewrite es in *.
      rewrite ss.
      unfold tmat. cbn [t_r1c1 t_r1c2 t_r1c3 t_r2c1 t_r2c2 t_r2c3 t_r3c1 t_r3c2 t_r3c3 s_add s_sub s_mul s_div s_neg s_ofZ s_frac RScalar].
      apply (exp_near9 a b c (1 - (a*a+b*b+c*c)/6) eq_refl).
      + rewrite <- ss. nra.
      + intros M H. exact H. }
  split; [exact N|].
  apply C07_isTransform_iff_proof.
  destruct N as (n1&n2&n3). split; [|split].
  - intros i j h. specialize (n1 i j h). lra.
  - intros i h. specialize (n2 i h). lra.
  - lra.
Qed.



Lemma C17_throws_iff_proof : forall (a b : Transform R) (d : R),
  transformMean a b d = Throw <-> d < 0 \/ 1 < d.
Proof.
  intros. unfold transformMean, transformMeanInPlace. cbn [s_ltb s_ofZ RScalar].
  destruct (Rltb_spec 1 d); cbn [orb rmap rbind]; [tauto|].
  destruct (Rltb_spec d 0); cbn [rmap rbind]; [tauto|].
  split; [discriminate|]. intros [h|h]; lra.
Qed.


Lemma mean_ok : forall (a b : Transform R) d, 0 <= d <= 1 ->
  transformMean a b d = Ok (t_mul a (velocityExponential (v6_lscale d (transformLogarithm (t_mul (t_inverse a) b))))).
Proof.
  intros a b d h. unfold transformMean, transformMeanInPlace. cbn [s_ltb s_ofZ RScalar].
  rewrite !Rltb_false by lra. reflexivity.
Qed.

Lemma v6_lscale_1 : forall v : Velocity6D R, v6_lscale 1 v = v.
Proof. ring_eq. Qed.
Lemma v6_lscale_0 : forall v : Velocity6D R, v6_lscale 0 v = mkVelocity6D 0 0 0 0 0 0.
Proof. ring_eq. Qed.

Lemma C17_start_proof : forall a b : Transform R, transformMean a b 0 = Ok a.
Proof.
  intros a b. rewrite mean_ok by lra. rewrite v6_lscale_0.
  rewrite (proj1 (C16_translations_proof 0 0 0)).
  change (transformFromPosition3D (mkPosition3D 0 0 0)) with (@t_id R _).
  rewrite (proj2 (C01_transform_identity_proof a)). reflexivity.
Qed.


Lemma C17_end_regular_proof : forall a b : Transform R, rigid a ->
  ((exists th u, turns_about (tmat (t_mul (t_inverse a) b)) th u /\ 0 <= th <= PI /\ 1/1000 <= sin th) \/
   rotationFromTransform a = rotationFromTransform b) ->
  transformMean a b 1 = Ok b.
Proof.
  intros a b ha H. rewrite mean_ok by lra. rewrite v6_lscale_1.
  assert (E : velocityExponential (transformLogarithm (t_mul (t_inverse a) b)) = t_mul (t_inverse a) b).
  { destruct H as [(th&u&ht&hth&hs)|H].
    - apply (C16_exp_log_regular_proof _ _ _ (0,0,0) ht hth hs).
    - assert (X : exists x y z, t_mul (t_inverse a) b = transformFromPosition3D (mkPosition3D x y z)).
      { destruct a as [a11 a12 a13 a14 a21 a22 a23 a24 a31 a32 a33 a34].
        destruct b as [b11 b12 b13 b14 b21 b22 b23 b24 b31 b32 b33 b34].
        unfold rotationFromTransform in H. cbn in H. injection H. intros.
        subst b11 b12 b13 b21 b22 b23 b31 b32 b33. apply rigid_mk in ha.
        destruct ha as [(h1&h2&h3&h4&h5&h6) _].
        rewrite t_inverse_mk, t_mul_mk. do 3 eexists.
        unfold transformFromPosition3D, transformFromPosition3DInPlace.
        cbv [set_t_r1c4 set_t_r2c4 set_t_r3c4 t_r1c1 t_r1c2 t_r1c3 t_r1c4 t_r2c1 t_r2c2 t_r2c3 t_r2c4 t_r3c1 t_r3c2 t_r3c3 t_r3c4 t_id p3_x p3_y p3_z].
        rec_eq; try reflexivity; cbn; lra. }
      destruct X as (x&y&z&->).
      rewrite (proj2 (C16_translations_proof x y z)). apply C16_translations_proof. }
  rewrite E. rewrite <- C01_transform_mul_assoc_proof.
  rewrite (proj1 (C03_transform_inverse_proof a (proj1 ha))).
  rewrite (proj1 (C01_transform_identity_proof b)). reflexivity.
Qed.


Lemma C17_rigid_regular_proof : forall (a b r : Transform R) (d : R), rigid a ->
  let n := d * vnorm (vang (transformLogarithm (t_mul (t_inverse a) b))) in
  n = 0 \/ 1/1000 <= n ->
  transformMean a b d = Ok r -> rigid r.
Proof.
  intros a b r d ha n hn hr.
  assert (hd : 0 <= d <= 1).
  { destruct (Rlt_dec d 0) as [h|h]; [|destruct (Rlt_dec 1 d) as [h'|h']].
    - rewrite (proj2 (C17_throws_iff_proof a b d)) in hr by lra. discriminate.
    - rewrite (proj2 (C17_throws_iff_proof a b d)) in hr by lra. discriminate.
    - lra. }
  rewrite mean_ok in hr by exact hd. injection hr as <-.
  set (l := transformLogarithm (t_mul (t_inverse a) b)) in *.
  assert (EN : vnorm (vang (v6_lscale d l)) = n).
  { unfold n. destruct l as [x y z wx wy wz]. unfold vnorm, vang, vdot, vx, vy, vz, v6_lscale. cbn.
    match goal with |- sqrt ?e = _ => replace e with ((d*d)*(wx*wx+wy*wy+wz*wz)) by ring end.
    rewrite sqrt_mult; [|nra|apply sum3sq_pos]. rewrite sqrt_square by lra. reflexivity. }
  apply rigid_mul; [exact ha|].
  destruct hn as [z|h].
  - rewrite z in EN. unfold vnorm in EN. apply sqrt_eq_0 in EN; [|apply sum3sq_pos].
    destruct (v6_lscale d l) as [x y w p q s]. unfold vdot, vang, vx, vy, vz in EN. cbn in EN.
    destruct (sum3sq_0 p q s EN) as (->&->&->). rewrite (proj1 (C16_translations_proof x y w)).
    change (rigid (mkTransform 1 0 0 x 0 1 0 y 0 0 1 w)).
    apply rigid_mk. repeat split; ring.
  - apply C16_exponential_proof. lra.
Qed.


Lemma C17_half_turn_refuted_proof :
  let b := mkTransform (-7/25) (24/25) 0 0 (24/25) (7/25) 0 0 0 0 (-1) 0 in
  rigid b /\ transformMean t_id b 1 = Ok t_id /\ b <> t_id.
Proof.
  intro b. split; [apply rigid_mk; repeat split; field|]. split.
  - rewrite mean_ok by lra. rewrite v6_lscale_1.
    assert (E : t_mul (t_inverse t_id) b = b).
    { unfold b. unr. rec_eq; ring. }
    rewrite E. destruct C16_half_turn_refuted_proof as (_&_&X&_). fold b in X. rewrite X.
    f_equal. apply C01_transform_identity_proof.
  - apply C16_half_turn_refuted_proof.
Qed.


Lemma C17_in_place_proof : forall (m m' : mem (Transform R)) (i1 i2 o : nat) (d : R),
  transformMeanInPlace m i1 i2 d o = Ok m' -> o <> i1 ->
  transformMean (m i1) (m i2) d = Ok (m' o) /\ (forall x, x <> o -> m' x = m x).
Proof.
  intros m m' i1 i2 o d h ho.
  assert (hd : 0 <= d <= 1).
  { unfold transformMeanInPlace in h. cbn [s_ltb s_ofZ RScalar] in h.
    destruct (Rltb_spec 1 d); [discriminate|]. destruct (Rltb_spec d 0); [discriminate|]. lra. }
  rewrite mean_ok by exact hd. unfold transformMeanInPlace in h.
  cbn [s_ltb s_ofZ RScalar] in h. rewrite !Rltb_false in h by lra. cbn [orb] in h.
  unfold mseq in h. injection h as <-. split.
  - rewrite mupd_same. rewrite mupd_other by auto. rewrite mupd_same. reflexivity.
  - intros x hx. rewrite !mupd_other by exact hx. reflexivity.
Qed.


Lemma C17_in_place_aliased_refuted_proof : exists (m m' : mem (Transform R)),
  transformMeanInPlace m 0 1 0 0 = Ok m' /\ rigid (m 0%nat) /\ rigid (m 1%nat) /\
  m' 0%nat = t_id /\ m 0%nat <> t_id.
Proof.
  set (a := mkTransform 1 0 0 5 0 1 0 0 0 0 1 0).
  exists (fun _ => a). unfold transformMeanInPlace. cbn [s_ltb s_ofZ RScalar].
  rewrite !Rltb_false by lra. cbn [orb]. unfold mseq.
  eexists. split; [reflexivity|]. split; [apply rigid_mk; repeat split; ring|].
  split; [apply rigid_mk; repeat split; ring|]. split.
  - rewrite mupd_same, !mupd_same. rewrite v6_lscale_0. rewrite (proj1 (C16_translations_proof 0 0 0)).
    unr. rec_eq; ring.
  - unfold a. intro h. injection h. lra.
Qed.
