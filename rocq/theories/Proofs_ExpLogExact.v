(** * Lemmas for Props_ExpLogExact *)

From Coq Require Import Reals List Lra Lia Psatz Nsatz Bool Arith.
Import ListNotations.
From Verif Require Import Scalar RInst RLemmas Model_Base Model_Vec Model_Rigid Model_Almath
  Model_Helpers Spec_Geom Proofs_Geom MemTac SO3Quat Proofs_Transform Proofs_Rotation Proofs_Quat Proofs_ExpLog.
Local Open Scope R_scope.

Lemma sin_hi : forall th, 0 <= th <= 1 -> th - th*th*th/6 <= sin th.
Proof.
  intros th h. generalize (sin_bound th 0). intro B.
  destruct (B (proj1 h)) as [B1 _]; [generalize PI2_1; lra|].
  unfold sin_approx, sin_term in B1. cbn in B1. lra.
Qed.

(** An angle in [0, pi] whose sine is below 1/1000 is near 0 or near pi. *)
Lemma small_sine : forall th, 0 <= th <= PI -> sin th < 1/1000 ->
  (999/1000 < cos th /\ th < 11/10000) \/ (cos th < -999/1000 /\ PI - th < 11/10000).
Proof.
  assert (G : forall th, 0 <= th <= PI/2 -> sin th < 1/1000 -> 999/1000 < cos th /\ th < 11/10000).
  { intros th h hs. assert (P := PI2_1). assert (C := cos_ge_0 th ltac:(lra) ltac:(lra)).
    assert (S0 := sin_ge_0 th ltac:(lra) ltac:(lra)). assert (Z := cs2 th).
    split; [nra|]. destruct (Rlt_le_dec th (11/10000)) as [l|l]; [exact l|exfalso].
    assert (sin (11/10000) <= sin th) by (apply sin_incr_1; lra).
    assert (X := sin_hi (11/10000) ltac:(lra)). lra. }
  intros th h hs. destruct (Rle_lt_dec th (PI/2)) as [l|l].
  - left. apply G; [lra|exact hs].
  - right. destruct (G (PI - th)) as [a b]; [lra|rewrite sin_PI_x; exact hs|].
    assert (E : cos (PI - th) = - cos th) by (rewrite cos_minus, cos_PI, sin_PI; ring). lra.
Qed.

Lemma log_si_co : forall co si u v w a b c d e f g h i px py pz,
  rod9 co si u v w a b c d e f g h i -> u*u+v*v+w*w = 1 -> 0 <= si ->
  log_si (mkTransform a b c px d e f py g h i pz) = si /\
  log_co (mkTransform a b c px d e f py g h i pz) = co.
Proof.
  intros * (->&->&->&->&->&->&->&->&->) hu hs.
  assert (d1 : (1-co)*v*w+si*u - ((1-co)*v*w-si*u) = 2*si*u) by ring.
  assert (d2 : (1-co)*u*w+si*v - ((1-co)*u*w-si*v) = 2*si*v) by ring.
  assert (d3 : (1-co)*u*v+si*w - ((1-co)*u*v-si*w) = 2*si*w) by ring.
  split.
  - unfold log_si. cbn [t_r1c1 t_r1c2 t_r1c3 t_r1c4 t_r2c1 t_r2c2 t_r2c3 t_r2c4 t_r3c1 t_r3c2 t_r3c3 t_r3c4 s_add s_sub s_mul s_sqrt s_frac RScalar].
    rewrite d1, d2, d3.
    replace (2*si*u*(2*si*u) + 2*si*v*(2*si*v) + 2*si*w*(2*si*w)) with (2*si*(2*si)).
    2:{ transitivity (2*si*(2*si)*(u*u+v*v+w*w)); [rewrite hu; ring | ring]. }
    rewrite sqrt_square by lra. field.
  - unfold log_co. cbn [t_r1c1 t_r2c2 t_r3c3 s_add s_sub s_mul s_sqrt s_frac s_ofZ RScalar].
    replace (co + (1 - co)*u*u + (co + (1-co)*v*v) + (co + (1-co)*w*w) - 1) with (3*co + (1-co)*(u*u+v*v+w*w) - 1) by ring.
    rewrite hu. field.
Qed.

(** The logarithm near the identity. *)
Lemma log_small : forall co si u v w a b c d e f g h i px py pz w0 th,
  rod9 co si u v w a b c d e f g h i -> u*u+v*v+w*w = 1 ->
  co = cos th -> si = sin th -> 0 <= th <= PI -> si < 1/1000 -> 0 < co ->
  let l := transformLogarithmInPlace (mkTransform a b c px d e f py g h i pz) w0 in
  let k := th * (2*si) / (2*si + 1/1000) in
  vang l = (k*u, k*v, k*w).
Proof.
  intros * hr hu hc hs hth hsi hco l k.
  destruct (small_sine th hth ltac:(rewrite <- hs; exact hsi)) as [[K _]|[K _]]; [|lra].
  assert (s0 : 0 <= si) by (rewrite hs; apply sin_ge_0; lra).
  destruct (log_si_co _ _ _ _ _ _ _ _ _ _ _ _ _ _ px py pz hr hu s0) as [ESI ECO].
  subst l. unfold transformLogarithmInPlace. cbv zeta. rewrite ESI, ECO. cbn [s_atan2 RScalar].
  assert (EA : Ratan2 si co = th) by (rewrite hc, hs; apply Ratan2_cs; generalize PI_RGT_0; lra).
  rewrite EA.
  cbn [s_add s_sub s_mul s_div s_neg s_ltb s_ofZ s_frac s_pi RScalar].
  rewrite (Rltb_true si (1/1000)) by lra. rewrite (Rltb_true (1-1/1000) co) by lra.
  unfold log_linear, vang. cbn [v6_wxd v6_wyd v6_wzd fst snd t_r1c2 t_r1c3 t_r2c1 t_r2c3 t_r3c1 t_r3c2].
  destruct hr as (->&->&->&->&->&->&->&->&->). unfold k. clear - s0.
  pair_eq; field; lra.
Qed.

(** The logarithm near a half turn. *)
Lemma log_half : forall co si u v w a b c d e f g h i px py pz th,
  rod9 co si u v w a b c d e f g h i -> u*u+v*v+w*w = 1 ->
  co = cos th -> si = sin th -> 0 <= th <= PI -> si < 1/1000 -> co < 0 ->
  let l := transformLogarithm (mkTransform a b c px d e f py g h i pz) in
  let m := 1 - th*th/(PI*PI) in
  (1 - 1/1000 < a /\ l = mkVelocity6D px (m*py + th/2*pz) (m*pz - th/2*py) th 0 0) \/
  (a <= 1 - 1/1000 /\ 1 - 1/1000 < e /\ l = mkVelocity6D (m*px - th/2*pz) py (m*pz + th/2*px) 0 th 0) \/
  (a <= 1 - 1/1000 /\ e <= 1 - 1/1000 /\ 1 - 1/1000 < i /\ l = mkVelocity6D (m*px + th/2*py) (m*py - th/2*px) pz 0 0 th) \/
  (a <= 1 - 1/1000 /\ e <= 1 - 1/1000 /\ i <= 1 - 1/1000 /\ vang l = (0, 0, 0)).
Proof.
  intros * hr hu hc hs hth hsi hco l m.
  destruct (small_sine th hth ltac:(rewrite <- hs; exact hsi)) as [[K _]|[K _]]; [lra|].
  assert (s0 : 0 <= si) by (rewrite hs; apply sin_ge_0; lra).
  destruct (log_si_co _ _ _ _ _ _ _ _ _ _ _ _ _ _ px py pz hr hu s0) as [ESI ECO].
  subst l. unfold transformLogarithm, transformLogarithmInPlace. cbv zeta. rewrite ESI, ECO. cbn [s_atan2 RScalar].
  assert (EA : Ratan2 si co = th) by (rewrite hc, hs; apply Ratan2_cs; generalize PI_RGT_0; lra).
  rewrite EA. assert (P := PI_RGT_0).
  cbn [s_add s_sub s_mul s_div s_neg s_ltb s_ofZ s_frac s_pi RScalar t_r1c1 t_r1c4 t_r2c2 t_r2c4 t_r3c3 t_r3c4].
  rewrite (Rltb_true si (1/1000)) by lra. rewrite (Rltb_false (1-1/1000) co) by lra.
  rewrite (Rltb_true co) by lra.
  destruct (Rltb_spec (1-1/1000) a) as [A|A].
  { left. split; [lra|]. unfold m. rec_eq; field; lra. }
  destruct (Rltb_spec (1-1/1000) e) as [B|B].
  { right. left. split; [lra|]. split; [lra|]. unfold m. rec_eq; field; lra. }
  destruct (Rltb_spec (1-1/1000) i) as [C|C].
  { right. right. left. split; [lra|]. split; [lra|]. split; [lra|]. unfold m. rec_eq; field; lra. }
  right. right. right. split; [lra|]. split; [lra|]. split; [lra|]. reflexivity.
Qed.

(** The logarithm of a rotation of an angle near pi about a coordinate axis has a wrong linear
    part, unless the angle is pi. *)
Lemma half_coefficient : forall th, 0 <= th <= PI -> sin th < 1/1000 -> cos th < 0 -> th < PI ->
  (1 - cos th)/th * (1 - th*th/(PI*PI)) < sin th/2.
Proof.
  intros th h hs hc hp.
  destruct (small_sine th h hs) as [[K _]|[K D]]; [lra|].
  assert (P := PI2_3_2). assert (P4 := PI_4).
  set (d := PI - th) in *. assert (d0 : 0 < d) by (unfold d; lra).
  assert (X := sin_hi d ltac:(lra)). assert (Y : sin d = sin th) by (unfold d; apply sin_PI_x). rewrite Y in X.
  assert (C1 := COS_bound th).
  replace (1 - th*th/(PI*PI)) with (d*(PI+th)/(PI*PI)) by (unfold d; field; lra).
  assert (TH : 29/10 < th) by (unfold d in D; lra).
  assert (E1 : (1 - cos th)/th * (d*(PI+th)/(PI*PI)) <= 2/th * (d*(2*PI)/(PI*PI))).
  { apply Rmult_le_compat.
    - apply Rmult_le_pos; [lra|]. left. apply Rinv_0_lt_compat. lra.
    - apply Rmult_le_pos; [apply Rmult_le_pos; lra|]. left. apply Rinv_0_lt_compat. nra.
    - apply Rmult_le_compat_r; [left; apply Rinv_0_lt_compat; lra|lra].
    - apply Rmult_le_compat_r; [left; apply Rinv_0_lt_compat; nra|]. apply Rmult_le_compat_l; lra. }
  assert (E2 : 2/th * (d*(2*PI)/(PI*PI)) = 4*d/(PI*th)) by (field; lra).
  assert (E3 : 4*d/(PI*th) < 48/100*d).
  { apply Rmult_lt_reg_r with (PI*th); [nra|]. replace (4*d/(PI*th)*(PI*th)) with (4*d) by (field; lra).
    assert (87/10 < PI*th) by nra. nra. }
  assert (E4 : 96/100*d < sin th) by nra.
  lra.
Qed.

Lemma lin2 : forall al be p q, al*p + be*q = p -> al*q - be*p = q -> be <> 0 -> p = 0 /\ q = 0.
Proof.
  intros al be p q h1 h2 hb.
  assert (e : ((al-1)*(al-1)+be*be)*p = 0) by (clear hb; nsatz). assert (f : ((al-1)*(al-1)+be*be)*q = 0) by (clear hb; nsatz).
  assert (0 < be*be) by (destruct (Rdichotomy be 0 hb); nra). assert (0 < (al-1)*(al-1)+be*be) by (generalize (Rle_0_sqr (al-1)); unfold Rsqr; lra).
  apply Rmult_integral in e, f. split; lra.
Qed.

Lemma exp_x : forall th x y z, 1/1000 <= th ->
  velocityExponential (mkVelocity6D x y z th 0 0) =
  mkTransform 1 0 0 x 0 (cos th) (- sin th) (sin th/th*y - (1-cos th)/th*z)
    0 (sin th) (cos th) (sin th/th*z + (1-cos th)/th*y).
Proof.
  intros. replace (mkVelocity6D x y z th 0 0) with (mkVelocity6D x y z (th*1) (th*0) (th*0)) by (rec_eq; ring).
  rewrite exp_above by lra. cbv zeta. rec_eq; field; lra.
Qed.
Lemma exp_y : forall th x y z, 1/1000 <= th ->
  velocityExponential (mkVelocity6D x y z 0 th 0) =
  mkTransform (cos th) 0 (sin th) (sin th/th*x + (1-cos th)/th*z) 0 1 0 y
    (- sin th) 0 (cos th) (sin th/th*z - (1-cos th)/th*x).
Proof.
  intros. replace (mkVelocity6D x y z 0 th 0) with (mkVelocity6D x y z (th*0) (th*1) (th*0)) by (rec_eq; ring).
  rewrite exp_above by lra. cbv zeta. rec_eq; field; lra.
Qed.
Lemma exp_z : forall th x y z, 1/1000 <= th ->
  velocityExponential (mkVelocity6D x y z 0 0 th) =
  mkTransform (cos th) (- sin th) 0 (sin th/th*x - (1-cos th)/th*y)
    (sin th) (cos th) 0 (sin th/th*y + (1-cos th)/th*x) 0 0 1 z.
Proof.
  intros. replace (mkVelocity6D x y z 0 0 th) with (mkVelocity6D x y z (th*0) (th*0) (th*1)) by (rec_eq; ring).
  rewrite exp_above by lra. cbv zeta. rec_eq; field; lra.
Qed.

Lemma unit_axis : forall co s x y z, co < 0 -> x*x+y*y+z*z = 1 -> co + (1-co)*x*x = 1 -> s*x = s ->
  y = 0 /\ z = 0 /\ (x = 1 \/ (s = 0 /\ x = -1)).
Proof.
  intros co s x y z hc hu h hs.
  assert (X : x*x = 1). { assert (E : (1-co)*(x*x-1) = 0) by lra. apply Rmult_integral in E. lra. }
  assert (Y : y*y+z*z = 0) by lra.
  split; [nra|]. split; [nra|].
  assert (E : (x-1)*(x+1) = 0) by lra. apply Rmult_integral in E. destruct E; [left; lra|].
  right. assert (x = -1) by lra. subst x. split; lra.
Qed.

Lemma th_is_PI : forall th, 0 <= th <= PI -> sin th = 0 -> cos th < 0 -> th = PI.
Proof.
  intros th h s c. destruct (Rle_lt_or_eq_dec th PI (proj2 h)) as [l|l]; [|exact l].
  destruct (Rle_lt_or_eq_dec 0 th (proj1 h)) as [k|k].
  - generalize (sin_gt_0 th k l). lra.
  - subst th. rewrite cos_0 in c. lra.
Qed.

Lemma C16_exp_log_exact_proof : forall (t : Transform R) (th : R) (u : vec3),
  turns_about (tmat t) th u -> 0 <= th <= PI ->
  (velocityExponential (transformLogarithm t) = t <->
   (1/1000 <= sin th \/ th = 0 \/
    exists e, In e [(1,0,0); (0,1,0); (0,0,1)] /\
    ((th = PI /\ (u = e \/ u = vscale (-1) e)) \/
     (PI/2 < th /\ u = e /\ tpos t = vscale (vdot e (tpos t)) e)))).
Proof.
  intros t th u ht hth.
  destruct (Rle_lt_dec (1/1000) (sin th)) as [big|small].
  { split; [auto|]. intros _. apply (C16_exp_log_regular_proof t th u (0,0,0) ht hth big). }
  assert (P := PI2_3_2). assert (P4 := PI_4).
  destruct t as [a b c px d e f py g h i pz]. destruct u as [[u v] w].
  apply turns_rod9 in ht. cbn [t_r1c1 t_r1c2 t_r1c3 t_r1c4 t_r2c1 t_r2c2 t_r2c3 t_r2c4 t_r3c1 t_r3c2 t_r3c3 t_r3c4] in ht.
  destruct ht as [hu hr].
  destruct (small_sine th hth small) as [[K D]|[K D]].
  - (* near the identity *)
    assert (R1 : ~ exists x, In x [(1,0,0); (0,1,0); (0,0,1)] /\
      ((th = PI /\ ((u,v,w) = x \/ (u,v,w) = vscale (-1) x)) \/
       (PI/2 < th /\ (u,v,w) = x /\ tpos (mkTransform a b c px d e f py g h i pz) = vscale (vdot x (tpos (mkTransform a b c px d e f py g h i pz))) x))).
    { intros (x&_&[[q _]|[q _]]); lra. }
    split.
    + intro E. right. left. destruct (Req_dec th 0) as [|n]; [assumption|exfalso].
      assert (s0 : 0 < sin th) by (apply sin_gt_0; lra).
      assert (L := log_small _ _ _ _ _ _ _ _ _ _ _ _ _ _ px py pz (0,0,0) th hr hu eq_refl eq_refl hth small ltac:(lra)).
      cbv zeta in L. change (transformLogarithmInPlace (mkTransform a b c px d e f py g h i pz) (0,0,0)) with
        (transformLogarithm (mkTransform a b c px d e f py g h i pz)) in L.
      set (k := th*(2*sin th)/(2*sin th+1/1000)) in *.
      assert (k0 : 0 <= k) by (apply Rmult_le_pos; [apply Rmult_le_pos; lra|left; apply Rinv_0_lt_compat; lra]).
      assert (k1 : k*(2*sin th + 1/1000) = 2*th*sin th) by (unfold k; field; lra).
      assert (X := sin_hi th ltac:(lra)).
      assert (Y : th*th*th/6 < 1/10000) by (assert (th*th <= 1) by nra; nra).
      assert (k2 : k < sin th).
      { apply Rmult_lt_reg_r with (2*sin th + 1/1000); [lra|]. rewrite k1.
        assert (0 < sin th * (2*sin th + 1/1000 - 2*th)) by (apply Rmult_lt_0_compat; lra). lra. }
      set (l := transformLogarithm _) in *.
      unfold vang in L. injection L as l1 l2 l3.
      assert (ET : exp_t l = k).
      { unfold exp_t. cbn [s_sqrt s_add s_mul RScalar]. rewrite l1, l2, l3. apply sqrt_unique'; [exact k0|].
        transitivity (k*k*(u*u+v*v+w*w)); [rewrite hu; ring|ring]. }
      unfold velocityExponential in E. rewrite ET in E. cbv zeta in E. cbn [s_leb s_frac RScalar] in E.
      rewrite Rleb_false in E by lra. unfold exp_matrix in E.
      cbn [s_add s_sub s_mul s_div s_neg s_ofZ s_frac RScalar] in E. rewrite l1, l2, l3 in E.
      injection E. intros E34 E33 E32 E31 E24 E23 E22 E21 E14 E13 E12 E11.
      destruct hr as (ha&hb&hc0&hd&he&hf&hg&hh&hi). subst a b c d e f g h i.
      set (S := 1 - k*k/6) in *.
      assert (Z : S*k*u = sin th*u /\ S*k*v = sin th*v /\ S*k*w = sin th*w) by (repeat split; lra).
      assert (Z2 : S*k = sin th).
      { destruct Z as (z1&z2&z3).
        transitivity (S*k*(u*u+v*v+w*w)); [rewrite hu; ring|].
        transitivity (S*k*u*u+S*k*v*v+S*k*w*w); [ring|]. rewrite z1, z2, z3.
        transitivity (sin th*(u*u+v*v+w*w)); [ring|rewrite hu; ring]. }
      assert (S <= 1) by (unfold S; nra). nra.
    + intros [q|[q|q]]; [lra| |contradiction]. subst th. rewrite cos_0, sin_0 in hr.
      destruct hr as (->&->&->&->&->&->&->&->&->).
      destruct (C16_translations_proof px py pz) as [T1 T2].
      match goal with |- velocityExponential (transformLogarithm ?t) = _ =>
        assert (ET : t = transformFromPosition3D (mkPosition3D px py pz)) end.
      { unfold transformFromPosition3D, transformFromPosition3DInPlace. unr. rec_eq; ring. }
      rewrite ET, T2. exact T1.
  - (* near a half turn *)
    assert (s0 : 0 <= sin th) by (apply sin_ge_0; lra).
    assert (th0 : 1/1000 <= th) by lra.
    assert (L := log_half _ _ _ _ _ _ _ _ _ _ _ _ _ _ px py pz th hr hu eq_refl eq_refl hth small ltac:(lra)).
    cbv zeta in L.
    assert (HC := half_coefficient th hth small ltac:(lra)).
    set (m := 1 - th*th/(PI*PI)) in *.
    set (l := transformLogarithm _) in *.
    destruct hr as (ha&hb&hc0&hd&he&hf&hg&hh&hi).
    assert (MP : th = PI -> m = 0). { intros ->. unfold m. field. lra. }
    split.
    + intro E. right. right.
      destruct L as [(A&L)|[(A&B&L)|[(A&B&C&L)|(A&B&C&L)]]].
      * exists (1,0,0). split; [left; reflexivity|].
        rewrite L, exp_x in E by exact th0.
        assert (E11 := f_equal t_r1c1 E). assert (E12 := f_equal t_r1c2 E). assert (E13 := f_equal t_r1c3 E). assert (E14 := f_equal t_r1c4 E). assert (E21 := f_equal t_r2c1 E). assert (E22 := f_equal t_r2c2 E). assert (E23 := f_equal t_r2c3 E). assert (E24 := f_equal t_r2c4 E). assert (E31 := f_equal t_r3c1 E). assert (E32 := f_equal t_r3c2 E). assert (E33 := f_equal t_r3c3 E). assert (E34 := f_equal t_r3c4 E).
        cbn [t_r1c1 t_r1c2 t_r1c3 t_r1c4 t_r2c1 t_r2c2 t_r2c3 t_r2c4 t_r3c1 t_r3c2 t_r3c3 t_r3c4] in E11, E12, E13, E14, E21, E22, E23, E24, E31, E32, E33, E34.
        destruct (unit_axis (cos th) (sin th) u v w) as (b0&c0&U); [lra|lra|lra|lra|]. subst v w.
        destruct (Req_dec th PI) as [tp|tp].
        { left. split; [exact tp|]. destruct U as [->|[_ ->]]; [left|right]; unfold vscale, vx, vy, vz; cbn; pair_eq; ring. }
        destruct U as [->|[sz ->]]; [|exfalso; apply tp; apply th_is_PI; auto; lra].
        right. split; [lra|]. split; [reflexivity|]. specialize (HC ltac:(lra)).
        destruct (lin2 (sin th/th*m + (1-cos th)/2) (sin th/2 - (1-cos th)/th*m) py pz) as [y0 z0];
          [etransitivity; [|exact E24]; field; lra|etransitivity; [|exact E34]; field; lra|lra|].
        rewrite y0, z0. unfold tpos, vscale, vdot, vx, vy, vz. cbn. pair_eq; ring.
      * exists (0,1,0). split; [right; left; reflexivity|].
        rewrite L, exp_y in E by exact th0.
        assert (E11 := f_equal t_r1c1 E). assert (E12 := f_equal t_r1c2 E). assert (E13 := f_equal t_r1c3 E). assert (E14 := f_equal t_r1c4 E). assert (E21 := f_equal t_r2c1 E). assert (E22 := f_equal t_r2c2 E). assert (E23 := f_equal t_r2c3 E). assert (E24 := f_equal t_r2c4 E). assert (E31 := f_equal t_r3c1 E). assert (E32 := f_equal t_r3c2 E). assert (E33 := f_equal t_r3c3 E). assert (E34 := f_equal t_r3c4 E).
        cbn [t_r1c1 t_r1c2 t_r1c3 t_r1c4 t_r2c1 t_r2c2 t_r2c3 t_r2c4 t_r3c1 t_r3c2 t_r3c3 t_r3c4] in E11, E12, E13, E14, E21, E22, E23, E24, E31, E32, E33, E34.
        destruct (unit_axis (cos th) (sin th) v u w) as (b0&c0&U); [lra|lra|lra|lra|]. subst u w.
        destruct (Req_dec th PI) as [tp|tp].
        { left. split; [exact tp|]. destruct U as [->|[_ ->]]; [left|right]; unfold vscale, vx, vy, vz; cbn; pair_eq; ring. }
        destruct U as [->|[sz ->]]; [|exfalso; apply tp; apply th_is_PI; auto; lra].
        right. split; [lra|]. split; [reflexivity|]. specialize (HC ltac:(lra)).
        destruct (lin2 (sin th/th*m + (1-cos th)/2) (sin th/2 - (1-cos th)/th*m) pz px) as [y0 z0];
          [etransitivity; [|exact E34]; field; lra|etransitivity; [|exact E14]; field; lra|lra|].
        rewrite y0, z0. unfold tpos, vscale, vdot, vx, vy, vz. cbn. pair_eq; ring.
      * exists (0,0,1). split; [right; right; left; reflexivity|].
        rewrite L, exp_z in E by exact th0.
        assert (E11 := f_equal t_r1c1 E). assert (E12 := f_equal t_r1c2 E). assert (E13 := f_equal t_r1c3 E). assert (E14 := f_equal t_r1c4 E). assert (E21 := f_equal t_r2c1 E). assert (E22 := f_equal t_r2c2 E). assert (E23 := f_equal t_r2c3 E). assert (E24 := f_equal t_r2c4 E). assert (E31 := f_equal t_r3c1 E). assert (E32 := f_equal t_r3c2 E). assert (E33 := f_equal t_r3c3 E). assert (E34 := f_equal t_r3c4 E).
        cbn [t_r1c1 t_r1c2 t_r1c3 t_r1c4 t_r2c1 t_r2c2 t_r2c3 t_r2c4 t_r3c1 t_r3c2 t_r3c3 t_r3c4] in E11, E12, E13, E14, E21, E22, E23, E24, E31, E32, E33, E34.
        destruct (unit_axis (cos th) (sin th) w u v) as (b0&c0&U); [lra|lra|lra|lra|]. subst u v.
        destruct (Req_dec th PI) as [tp|tp].
        { left. split; [exact tp|]. destruct U as [->|[_ ->]]; [left|right]; unfold vscale, vx, vy, vz; cbn; pair_eq; ring. }
        destruct U as [->|[sz ->]]; [|exfalso; apply tp; apply th_is_PI; auto; lra].
        right. split; [lra|]. split; [reflexivity|]. specialize (HC ltac:(lra)).
        destruct (lin2 (sin th/th*m + (1-cos th)/2) (sin th/2 - (1-cos th)/th*m) px py) as [y0 z0];
          [etransitivity; [|exact E14]; field; lra|etransitivity; [|exact E24]; field; lra|lra|].
        rewrite y0, z0. unfold tpos, vscale, vdot, vx, vy, vz. cbn. pair_eq; ring.
      * exfalso. unfold vang in L. injection L as l1 l2 l3.
        assert (EL : l = mkVelocity6D (v6_xd l) (v6_yd l) (v6_zd l) 0 0 0) by (generalize l1 l2 l3; clear; destruct l; cbn; intros -> -> ->; reflexivity).
        rewrite EL, (proj1 (C16_translations_proof _ _ _)) in E.
        assert (E11 := f_equal t_r1c1 E). cbn in E11. lra.
    + intros [q|[q|(x&hx&q)]]; [lra|lra|].
      assert (Q : (th = PI /\ sin th = 0 /\ cos th = -1 /\ m = 0 /\ (u,v,w) = vscale (if Rlt_dec 0 (vdot x (u,v,w)) then 1 else -1) x)
        \/ ((u,v,w) = x /\ (px,py,pz) = vscale (vdot x (px,py,pz)) x)).
      { destruct q as [[q1 q2]|[_ [q1 q2]]]; [left|right; split; assumption].
        split; [exact q1|]. split; [rewrite q1; apply sin_PI|]. split; [rewrite q1; apply cos_PI|]. split; [auto|].
        assert (XX : vdot x x = 1) by (destruct hx as [<-|[<-|[<-|[]]]]; unfold vdot, vx, vy, vz; cbn; ring).
        destruct q2 as [q2|q2]; rewrite q2; destruct (Rlt_dec _ _) as [r|r].
        - destruct x as [[x y] z]. unfold vscale, vx, vy, vz. cbn. pair_eq; ring.
        - exfalso. lra.
        - exfalso. destruct x as [[x y] z]. unfold vscale, vdot, vx, vy, vz in *. cbn in *. lra.
        - reflexivity. }
      clear q. destruct hx as [<-|[<-|[<-|[]]]].
      * assert (L1 : l = mkVelocity6D px (m*py + th/2*pz) (m*pz - th/2*py) th 0 0 /\ v = 0 /\ w = 0 /\ u*u = 1 /\ sin th*u = sin th).
        { destruct Q as [(_&z&_&_&q)|[q _]].
          - unfold vscale, vx, vy, vz in q. cbn in q. injection q as q1 q2 q3.
            assert (v = 0) by lra. assert (w = 0) by lra. assert (u*u = 1) by nra.
            repeat split; try assumption; [|rewrite z; ring].
            destruct L as [(A&L)|[(A&_)|[(A&_)|(A&_)]]]; [exact L|exfalso; nra..].
          - injection q as q1 q2 q3. subst u v w. repeat split; try ring.
            destruct L as [(A&L)|[(A&_)|[(A&_)|(A&_)]]]; [exact L|exfalso; nra..]. }
        destruct L1 as (L1&v0&w0&uu&us). rewrite L1, exp_x by exact th0. subst v w.
        destruct Q as [(tp&sz&cz&mz&_)|[_ q]].
        -- rewrite sz, cz, mz in *. subst a b c d e f g h i. rec_eq; try lra; try (field; lra); nra.
        -- unfold vscale, vdot, vx, vy, vz in q. cbn in q. injection q as q1 q2 q3.
           assert (py = 0) by lra. assert (pz = 0) by lra. subst py pz a b c d e f g h i. rec_eq; try lra; try nra.
      * assert (L1 : l = mkVelocity6D (m*px - th/2*pz) py (m*pz + th/2*px) 0 th 0 /\ u = 0 /\ w = 0 /\ v*v = 1 /\ sin th*v = sin th).
        { destruct Q as [(_&z&_&_&q)|[q _]].
          - unfold vscale, vx, vy, vz in q. cbn in q. injection q as q1 q2 q3.
            assert (u = 0) by lra. assert (w = 0) by lra. assert (v*v = 1) by nra.
            repeat split; try assumption; [|rewrite z; ring].
            destruct L as [(A&_)|[(A&B&L)|[(A&B&_)|(A&B&_)]]]; [exfalso; nra|exact L|exfalso; nra..].
          - injection q as q1 q2 q3. subst u v w. repeat split; try ring.
            destruct L as [(A&_)|[(A&B&L)|[(A&B&_)|(A&B&_)]]]; [exfalso; nra|exact L|exfalso; nra..]. }
        destruct L1 as (L1&v0&w0&uu&us). rewrite L1, exp_y by exact th0. subst u w.
        destruct Q as [(tp&sz&cz&mz&_)|[_ q]].
        -- rewrite sz, cz, mz in *. subst a b c d e f g h i. rec_eq; try lra; try (field; lra); nra.
        -- unfold vscale, vdot, vx, vy, vz in q. cbn in q. injection q as q1 q2 q3.
           assert (px = 0) by lra. assert (pz = 0) by lra. subst px pz a b c d e f g h i. rec_eq; try lra; try nra.
      * assert (L1 : l = mkVelocity6D (m*px + th/2*py) (m*py - th/2*px) pz 0 0 th /\ u = 0 /\ v = 0 /\ w*w = 1 /\ sin th*w = sin th).
        { destruct Q as [(_&z&_&_&q)|[q _]].
          - unfold vscale, vx, vy, vz in q. cbn in q. injection q as q1 q2 q3.
            assert (u = 0) by lra. assert (v = 0) by lra. assert (w*w = 1) by nra.
            repeat split; try assumption; [|rewrite z; ring].
            destruct L as [(A&_)|[(A&B&_)|[(A&B&C&L)|(A&B&C&_)]]]; [exfalso; nra|exfalso; nra|exact L|exfalso; nra].
          - injection q as q1 q2 q3. subst u v w. repeat split; try ring.
            destruct L as [(A&_)|[(A&B&_)|[(A&B&C&L)|(A&B&C&_)]]]; [exfalso; nra|exfalso; nra|exact L|exfalso; nra]. }
        destruct L1 as (L1&v0&w0&uu&us). rewrite L1, exp_z by exact th0. subst u v.
        destruct Q as [(tp&sz&cz&mz&_)|[_ q]].
        -- rewrite sz, cz, mz in *. subst a b c d e f g h i. rec_eq; try lra; try (field; lra); nra.
        -- unfold vscale, vdot, vx, vy, vz in q. cbn in q. injection q as q1 q2 q3.
           assert (px = 0) by lra. assert (py = 0) by lra. subst px py a b c d e f g h i. rec_eq; try lra; try nra.
Qed.


(** The hypothesis of the previous theorem is that the transform is rigid (Euler): *)
Lemma C16_euler_proof : forall t : Transform R, rigid t ->
  exists th u, 0 <= th <= PI /\ turns_about (tmat t) th u.
Proof.
  intros [a b c px d e f py g h i pz] H. apply rigid_mk in H.
  destruct (so3_quat_exists _ _ _ _ _ _ _ _ _ H) as (w1&x1&y1&z1&n1&q1).
  assert (Q : exists w x y z, 0 <= w /\ w*w+x*x+y*y+z*z = 1 /\ quat9 w x y z a b c d e f g h i).
  { destruct (Rle_lt_dec 0 w1) as [l|l].
    - exists w1, x1, y1, z1. auto.
    - exists (-w1), (-x1), (-y1), (-z1). split; [lra|]. split; [lra|].
      destruct q1 as (->&->&->&->&->&->&->&->&->). repeat split; ring. }
  clear w1 x1 y1 z1 n1 q1. destruct Q as (w&x&y&z&w0&n&q).
  assert (P := PI_RGT_0).
  destruct (sqrt_ex (x*x+y*y+z*z)) as (r&_&hr&rr); [apply sum3sq_pos|].
  destruct hr as [r0|r0].
  - destruct (circle_angle w r) as (ph&hp&hc&hs); [lra|].
    assert (p0 : 0 < ph).
    { destruct (Rlt_le_dec 0 ph) as [l|l]; [exact l|exfalso].
      destruct (Req_dec ph 0) as [->|k]; [rewrite sin_0 in hs; lra|].
      generalize (sin_lt_0_var ph ltac:(lra) ltac:(lra)). lra. }
    assert (p1 : ph <= PI/2).
    { destruct (Rle_lt_dec ph (PI/2)) as [l|l]; [exact l|exfalso].
      assert (cos ph < 0) by (apply cos_lt_0; lra). lra. }
    exists (2*ph), (x/r, y/r, z/r). split; [lra|]. apply turns_rod9. split.
    + transitivity ((x*x+y*y+z*z)/(r*r)); [field; lra|]. rewrite <- rr. field. lra.
    + rewrite cos_2a, sin_2a, hc, hs. cbn [t_r1c1 t_r1c2 t_r1c3 t_r2c1 t_r2c2 t_r2c3 t_r3c1 t_r3c2 t_r3c3].
      assert (E : 1 - (w*w - r*r) = 2*(r*r)) by lra. unfold rod9. rewrite E.
      assert (E2 : w*w - r*r = 1 - 2*(r*r)) by lra. rewrite E2.
      destruct q as (->&->&->&->&->&->&->&->&->).
      assert (F1 : forall p q, 2*(r*r)*(p/r)*(q/r) = 2*p*q) by (intros; field; lra).
      assert (F2 : forall p, 2*r*w*(p/r) = 2*w*p) by (intros; field; lra).
      rewrite !F1, !F2, rr. repeat split; ring.
  - rewrite <- r0 in rr. destruct (sum3sq_0 x y z) as (->&->&->); [lra|].
    exists 0, (1,0,0). split; [lra|]. apply turns_rod9. split; [ring|].
    rewrite cos_0, sin_0. destruct q as (->&->&->&->&->&->&->&->&->).
    cbn [t_r1c1 t_r1c2 t_r1c3 t_r2c1 t_r2c2 t_r2c3 t_r3c1 t_r3c2 t_r3c3]. repeat split; ring.
Qed.


Lemma C16_exponential_rigid_exact_proof : forall v : Velocity6D R,
  rigid (velocityExponential v) <-> (vang v = (0,0,0) \/ 1/1000 <= vnorm (vang v)).
Proof.
  intros v. destruct (Rle_lt_dec (1/1000) (vnorm (vang v))) as [l|l].
  { split; [auto|]. intros _. apply (C16_exponential_proof v l). }
  destruct v as [x y z a b c]. unfold vang in *. cbn [v6_wxd v6_wyd v6_wzd] in *.
  assert (N : vnorm (a,b,c) = sqrt (a*a+b*b+c*c)) by reflexivity. rewrite N in l.
  destruct (sqrt_ex (a*a+b*b+c*c)) as (n&en&hn&nn); [apply sum3sq_pos|]. rewrite en in l.
  split.
  - intro H. left. unfold velocityExponential, exp_t in H.
    cbn [v6_xd v6_yd v6_zd v6_wxd v6_wyd v6_wzd s_add s_mul s_sqrt RScalar] in H. rewrite en in H. cbv zeta in H.
    cbn [s_leb s_frac RScalar] in H. rewrite Rleb_false in H by lra. unfold exp_matrix in H.
    apply rigid_mk in H. destruct H as [(h1&h2&h3&h4&h5&h6) _].
    cbn [v6_xd v6_yd v6_zd v6_wxd v6_wyd v6_wzd s_add s_sub s_mul s_div s_neg s_ofZ s_frac RScalar] in h1, h2, h3, h4, h5, h6.
    set (S := 1 - n*n/6) in *.
    (* the sum of the squares of the three rows, minus 3 *)
    assert (E : (S*S - 1 + n*n/4)*(n*n) = 0) by (rewrite nn in *; nra).
    assert (E2 : S*S - 1 + n*n/4 = - (n*n)*(1/12 - n*n/36)) by (unfold S; field).
    rewrite E2 in E.
    assert (n1 : n*n < 1) by nra.
    assert (n*n = 0).
    { assert (E3 : n*n*(n*n)*(1/12 - n*n/36) = 0) by lra. apply Rmult_integral in E3. destruct E3 as [E3|E3]; [|lra].
      apply Rmult_integral in E3. destruct E3; assumption. }
    destruct (sum3sq_0 a b c) as (->&->&->); [lra|reflexivity].
  - intros [H|H]; [|lra]. injection H as -> -> ->. rewrite (proj1 (C16_translations_proof x y z)).
    change (rigid (mkTransform 1 0 0 x 0 1 0 y 0 0 1 z)). apply rigid_mk. repeat split; ring.
Qed.


Lemma rigid_mul_iff : forall a x : Transform R, rigid a -> (rigid (t_mul a x) <-> rigid x).
Proof.
  intros a x ha. split; [|apply rigid_mul; exact ha]. intro H.
  assert (E : x = t_mul (t_inverse a) (t_mul a x)).
  { rewrite <- C01_transform_mul_assoc_proof. rewrite (proj2 (C03_transform_inverse_proof a (proj1 ha))).
    rewrite (proj1 (C01_transform_identity_proof x)). reflexivity. }
  rewrite E. apply rigid_mul; [|exact H]. apply rigid_inverse. exact ha.
Qed.

Lemma C17_end_exact_proof : forall (a b : Transform R) (th : R) (u : vec3), rigid a ->
  let h := t_mul (t_inverse a) b in
  turns_about (tmat h) th u -> 0 <= th <= PI ->
  (transformMean a b 1 = Ok b <->
   (1/1000 <= sin th \/ th = 0 \/
    exists e, In e [(1,0,0); (0,1,0); (0,0,1)] /\
    ((th = PI /\ (u = e \/ u = vscale (-1) e)) \/
     (PI/2 < th /\ u = e /\ tpos h = vscale (vdot e (tpos h)) e)))).
Proof.
  intros a b th u ha h ht hth. rewrite <- (C16_exp_log_exact_proof h th u ht hth).
  rewrite mean_ok by lra. rewrite v6_lscale_1. fold h.
  assert (B : t_mul a h = b).
  { unfold h. rewrite <- C01_transform_mul_assoc_proof, (proj1 (C03_transform_inverse_proof a (proj1 ha))).
    apply (proj1 (C01_transform_identity_proof b)). }
  split.
  - intro E. injection E as E. generalize (f_equal (t_mul (t_inverse a)) E).
    rewrite <- C01_transform_mul_assoc_proof, (proj2 (C03_transform_inverse_proof a (proj1 ha))).
    rewrite (proj1 (C01_transform_identity_proof _)). auto.
  - intro E. rewrite E, B. reflexivity.
Qed.


Lemma C17_rigid_exact_proof : forall (a b : Transform R) (d : R), rigid a -> 0 <= d <= 1 ->
  let n := d * vnorm (vang (transformLogarithm (t_mul (t_inverse a) b))) in
  exists r, transformMean a b d = Ok r /\ (rigid r <-> n = 0 \/ 1/1000 <= n).
Proof.
  intros a b d ha hd n. rewrite mean_ok by exact hd. eexists. split; [reflexivity|].
  rewrite (rigid_mul_iff a _ ha), C16_exponential_rigid_exact_proof.
  set (l := transformLogarithm (t_mul (t_inverse a) b)) in *.
  assert (EN : vnorm (vang (v6_lscale d l)) = n).
  { unfold n. destruct l as [x y z wx wy wz]. unfold vnorm, vang, vdot, vx, vy, vz, v6_lscale. cbn.
    match goal with |- sqrt ?e = _ => replace e with ((d*d)*(wx*wx+wy*wy+wz*wz)) by ring end.
    rewrite sqrt_mult; [|nra|apply sum3sq_pos]. rewrite sqrt_square by lra. reflexivity. }
  rewrite EN. split; (intros [H|H]; [left|right; exact H]).
  - rewrite H in EN. rewrite <- EN. unfold vnorm, vdot, vx, vy, vz. cbn.
    replace (0*0+0*0+0*0) with 0 by ring. apply sqrt_0.
  - rewrite H in EN. unfold vnorm in EN. apply sqrt_eq_0 in EN; [|apply sum3sq_pos].
    destruct (vang (v6_lscale d l)) as [[p q] s]. unfold vdot, vx, vy, vz in EN. cbn in EN.
    destruct (sum3sq_0 p q s EN) as (->&->&->). reflexivity.
Qed.


Lemma small_atan : forall n si co, 0 <= si -> si <= n -> n < 1/1000 -> 999/1000 < co ->
  Ratan2 si co <= n + 1/10000.
Proof.
  intros n si co h0 h1 h2 h3.
  destruct (Ratan2_cos_sin si co) as [hc hs]; [nra|].
  assert (P := PI2_3_2).
  destruct (sqrt_ex (co*co+si*si)) as (r&er&hr&rr); [nra|]. rewrite er in hc, hs.
  assert (r0 : 999/1000 < r) by nra.
  destruct (Ratan2_range si co) as [R1 R2]. set (ph := Ratan2 si co) in *. clearbody ph.
  assert (C : 0 < cos ph) by (rewrite hc; apply Rdiv_lt_0_compat; lra).
  assert (S0 : sin ph <= n + 1/100000).
  { rewrite hs. apply Rmult_le_reg_r with r; [lra|]. replace (si/r*r) with si by (field; lra). nra. }
  destruct (Rle_lt_dec ph 0) as [l|l]; [lra|].
  assert (p1 : ph < PI/2).
  { destruct (Rlt_le_dec ph (PI/2)) as [k|k]; [exact k|exfalso].
    assert (cos ph <= 0) by (apply cos_le_0; lra). lra. }
  assert (p2 : ph < 11/10000).
  { destruct (Rlt_le_dec ph (11/10000)) as [k|k]; [exact k|exfalso].
    assert (sin (11/10000) <= sin ph) by (apply sin_incr_1; lra).
    assert (X := sin_hi (11/10000) ltac:(lra)). lra. }
  assert (X := sin_hi ph ltac:(lra)). assert (ph*ph*ph/6 < 1/100000) by (assert (ph*ph <= 1/1000) by nra; nra). lra.
Qed.

(** The logarithm of an exponential below the threshold is shorter. *)
Lemma log_exp_small : forall x y z a b c, a*a+b*b+c*c < 1/1000000 ->
  transformLogarithm (velocityExponential (mkVelocity6D x y z a b c)) = mkVelocity6D x y z a b c ->
  a = 0 /\ b = 0 /\ c = 0.
Proof.
  intros x y z a b c h E.
  destruct (sqrt_ex (a*a+b*b+c*c)) as (n&en&hn&nn); [apply sum3sq_pos|].
  assert (n1 : n < 1/1000) by nra.
  unfold velocityExponential, exp_t in E.
  cbn [v6_xd v6_yd v6_zd v6_wxd v6_wyd v6_wzd s_add s_mul s_sqrt RScalar] in E. rewrite en in E. cbv zeta in E.
  cbn [s_leb s_frac RScalar] in E. rewrite Rleb_false in E by lra.
  unfold exp_matrix in E. cbn [v6_xd v6_yd v6_zd v6_wxd v6_wyd v6_wzd s_add s_sub s_mul s_div s_neg s_ofZ s_frac RScalar] in E.
  set (S := 1 - n*n/6) in *. assert (S1 : 99/100 < S <= 1) by (unfold S; nra).
  match type of E with transformLogarithm (mkTransform ?a11 ?a12 ?a13 ?a14 ?a21 ?a22 ?a23 ?a24 ?a31 ?a32 ?a33 ?a34) = _ =>
    set (t := mkTransform a11 a12 a13 a14 a21 a22 a23 a24 a31 a32 a33 a34) in *;
    assert (D : a32 - a23 = 2*S*a /\ a13 - a31 = 2*S*b /\ a21 - a12 = 2*S*c /\ a11 + a22 + a33 = 3 - (a*a+b*b+c*c)) by (repeat split; field) end.
  destruct D as (D1&D2&D3&D4).
  assert (ESI : log_si t = S*n).
  { unfold log_si, t. cbn [t_r1c1 t_r1c2 t_r1c3 t_r1c4 t_r2c1 t_r2c2 t_r2c3 t_r2c4 t_r3c1 t_r3c2 t_r3c3 t_r3c4 s_add s_sub s_mul s_sqrt s_frac RScalar].
    rewrite D1, D2, D3.
    replace (2*S*a*(2*S*a) + 2*S*b*(2*S*b) + 2*S*c*(2*S*c)) with (2*(S*n)*(2*(S*n))) by (transitivity (4*S*S*(n*n)); [ring|rewrite nn; ring]).
    rewrite sqrt_square by nra. field. }
  assert (ECO : log_co t = 1 - n*n/2).
  { unfold log_co, t. cbn [t_r1c1 t_r2c2 t_r3c3 s_add s_sub s_mul s_sqrt s_frac s_ofZ RScalar]. rewrite D4, nn. field. }
  assert (n2 : n*n <= 1/1000) by nra.
  unfold transformLogarithm, transformLogarithmInPlace in E. rewrite ESI, ECO in E. cbv zeta in E.
  cbn [s_atan2 s_ltb s_add s_sub s_mul s_div s_neg s_ofZ s_frac RScalar] in E.
  assert (A := small_atan n (S*n) (1 - n*n/2) ltac:(nra) ltac:(nra) n1 ltac:(lra)).
  set (ph := Ratan2 (S*n) (1-n*n/2)) in *. clearbody ph.
  rewrite (Rltb_true (S*n)) in E by nra. rewrite (Rltb_true (1 - 1/1000)) in E by lra.
  set (k := ph/(2*(S*n)+1/1000)) in *.
  assert (K : k*(2*S) < 1).
  { assert (0 < 2*(S*n)+1/1000) by nra.
    apply Rmult_lt_reg_r with (2*(S*n)+1/1000); [assumption|]. unfold k.
    replace (ph/(2*(S*n)+1/1000)*(2*S)*(2*(S*n)+1/1000)) with (2*S*ph) by (field; lra). nra. }
  assert (W1 := f_equal v6_wxd E). assert (W2 := f_equal v6_wyd E). assert (W3 := f_equal v6_wzd E).
  unfold log_linear, t in W1, W2, W3. cbn [v6_wxd v6_wyd v6_wzd fst snd t_r1c2 t_r1c3 t_r2c1 t_r2c3 t_r3c1 t_r3c2] in W1, W2, W3.
  rewrite D1 in W1. rewrite D2 in W2. rewrite D3 in W3.
  assert (F : forall p, k*(2*S*p) = p -> p = 0).
  { intros p q. assert (q2 : (k*(2*S) - 1)*p = 0) by lra. apply Rmult_integral in q2. destruct q2; lra. }
  auto.
Qed.

Lemma log_short : forall t th u v w, rod9 (cos th) (sin th) u v w (t_r1c1 t) (t_r1c2 t) (t_r1c3 t) (t_r2c1 t) (t_r2c2 t) (t_r2c3 t)
       (t_r3c1 t) (t_r3c2 t) (t_r3c3 t) -> u*u+v*v+w*w = 1 -> 0 <= th <= PI ->
  vdot (vang (transformLogarithm t)) (vang (transformLogarithm t)) <= PI*PI.
Proof.
  intros [a b c px d e f py g h i pz] th u v w hr hu hth.
  cbn [t_r1c1 t_r1c2 t_r1c3 t_r1c4 t_r2c1 t_r2c2 t_r2c3 t_r2c4 t_r3c1 t_r3c2 t_r3c3 t_r3c4] in hr.
  assert (T : th*th <= PI*PI) by nra. assert (PP : 0 <= PI*PI) by nra.
  assert (G : forall k, k*k <= PI*PI -> vdot (k*u, k*v, k*w) (k*u, k*v, k*w) <= PI*PI).
  { intros k hk. unfold vdot, vx, vy, vz. cbn. replace (k*u*(k*u)+k*v*(k*v)+k*w*(k*w)) with (k*k*(u*u+v*v+w*w)) by ring. rewrite hu. lra. }
  assert (s0 : 0 <= sin th) by (apply sin_ge_0; lra).
  destruct (Rle_lt_dec (1/1000) (sin th)) as [big|small].
  - unfold transformLogarithm. rewrite (log_regular _ _ _ _ _ _ _ _ _ _ _ _ _ _ px py pz _ th hr hu eq_refl eq_refl hth big).
    cbv zeta. unfold vang. cbn [v6_wxd v6_wyd v6_wzd]. apply G. exact T.
  - destruct (Rlt_le_dec 0 (cos th)) as [c0|c0].
    + unfold transformLogarithm. rewrite (log_small _ _ _ _ _ _ _ _ _ _ _ _ _ _ px py pz _ th hr hu eq_refl eq_refl hth small c0). apply G.
      assert (k1 : 0 <= th*(2*sin th)/(2*sin th+1/1000) <= th).
      { split; [apply Rmult_le_pos; [nra|left; apply Rinv_0_lt_compat; lra]|].
        apply Rmult_le_reg_r with (2*sin th+1/1000); [lra|].
        replace (th*(2*sin th)/(2*sin th+1/1000)*(2*sin th+1/1000)) with (th*(2*sin th)) by (field; lra). nra. }
      nra.
    + destruct (small_sine th hth small) as [[K _]|[K _]]; [lra|].
      destruct (log_half _ _ _ _ _ _ _ _ _ _ _ _ _ _ px py pz th hr hu eq_refl eq_refl hth small ltac:(lra)) as [(A&L)|[(A&B&L)|[(A&B&C&L)|(A&B&C&L)]]];
        rewrite L; unfold vang, vdot, vx, vy, vz; cbn; lra.
Qed.

(** Angles beyond pi: the same rotation by an angle in [0, pi] about the opposite vector. *)
Lemma wrap_angle : forall n, exists th s, 0 <= th <= PI /\ (s = 1 \/ s = -1) /\ cos th = cos n /\ sin th = s * sin n.
Proof.
  intro n. destruct (circle_angle (cos n) (sin n)) as (ph&hp&hc&hs); [apply cs2|].
  destruct (Rle_lt_dec 0 ph) as [l|l].
  - exists ph, 1. repeat split; try lra; try tauto.
  - exists (-ph), (-1). rewrite cos_neg, sin_neg. repeat split; try lra; try tauto.
Qed.

Lemma C16_log_exp_exact_proof : forall v : Velocity6D R,
  let n := vnorm (vang v) in
  transformLogarithm (velocityExponential v) = v <->
  (n = 0 \/ (n <= PI /\ 1/1000 <= sin n) \/
   (PI/2 < n <= PI /\ exists e, In e [(1,0,0); (0,1,0); (0,0,1)] /\ vang v = vscale n e /\
    (n = PI \/ vlin v = vscale (vdot e (vlin v)) e))).
Proof.
  intros v n. assert (n0 : 0 <= n) by apply sqrt_pos. assert (P := PI2_3_2). assert (en : n = vnorm (vang v)) by reflexivity.
  assert (NN : vdot (vang v) (vang v) = n*n).
  { unfold n, vnorm. rewrite sqrt_sqrt; [reflexivity|apply sum3sq_pos]. }
  clearbody n. destruct (Rlt_le_dec n (1/1000)) as [sm|bg].
  - split.
    + intro E. left. destruct v as [x y z a b c]. unfold vang, vdot, vx, vy, vz in NN. cbn in NN.
      destruct (log_exp_small x y z a b c) as (->&->&->); [nra|exact E|].
      assert (n*n = 0) by lra. nra.
    + intros [z|[[_ s]|[[z _] _]]].
      * rewrite z in NN. destruct v as [x y t a b c]. unfold vang, vdot, vx, vy, vz in NN. cbn in NN.
        destruct (sum3sq_0 a b c) as (->&->&->); [lra|]. rewrite (proj1 (C16_translations_proof x y t)). apply C16_translations_proof.
      * exfalso. destruct n0 as [n0|n0]; [generalize (sin_lt_x n n0); lra|]. rewrite <- n0, sin_0 in s. lra.
      * exfalso. lra.
  - destruct (vel_dir v) as (th&u1&u2&u3&eth&hu&ew&ev); [rewrite <- en; exact bg|]. rewrite <- en in eth. subst th.
    remember (v6_xd v) as x. remember (v6_yd v) as y. remember (v6_zd v) as z.
    assert (VL : vlin v = (x,y,z)) by (subst; reflexivity). rewrite VL, ew. clear VL.
    rewrite ev. clear Heqx Heqy Heqz. rewrite exp_above by assumption. cbv zeta.
    destruct (Rlt_le_dec PI n) as [far|near].
    { split; [|intros [q|[[q _]|[[_ q] _]]]; lra]. intro E. exfalso.
      destruct (wrap_angle n) as (th&s&hth&hs&hc&hsn).
      assert (S2 : s*s = 1) by (destruct hs; subst; ring).
      match type of E with transformLogarithm ?t = _ => assert (L := log_short t th (s*u1) (s*u2) (s*u3)) end.
      rewrite E in L. cbn [t_r1c1 t_r1c2 t_r1c3 t_r1c4 t_r2c1 t_r2c2 t_r2c3 t_r2c4 t_r3c1 t_r3c2 t_r3c3 t_r3c4] in L.
      unfold vang, vdot, vx, vy, vz in L. cbn [fst snd v6_wxd v6_wyd v6_wzd] in L.
      assert (n*n <= PI*PI).
      { replace (n*n) with (n*u1*(n*u1)+n*u2*(n*u2)+n*u3*(n*u3)) by (transitivity (n*n*(u1*u1+u2*u2+u3*u3)); [ring|rewrite hu; ring]).
        apply L; [|replace (s*u1*(s*u1)+s*u2*(s*u2)+s*u3*(s*u3)) with (s*s*(u1*u1+u2*u2+u3*u3)) by ring; rewrite S2, hu; ring|exact hth].
        rewrite hc, hsn. unfold rod9. destruct hs; subst s; repeat split; ring. }
      nra. }
    assert (hth : 0 <= n <= PI) by lra.
    destruct (Rle_lt_dec (1/1000) (sin n)) as [big|small].
    { split; [tauto|]. intros _. assert (EA := exp_above n u1 u2 u3 x y z bg hu). cbv zeta in EA. change (s_ofZ 0 : R) with 0. rewrite <- EA.
      rewrite <- ev. apply C16_log_exp_regular_proof; rewrite <- en; assumption. }
    match goal with |- transformLogarithm (mkTransform ?a ?b ?c ?px ?d ?e ?f ?py ?g ?h ?i ?pz) = _ <-> _ =>
      assert (hr : rod9 (cos n) (sin n) u1 u2 u3 a b c d e f g h i) by (repeat split) end.
    assert (s0 : 0 <= sin n) by (apply sin_ge_0; lra).
    destruct (small_sine n hth small) as [[K D]|[K D]].
    + split; [|intros [q|[[_ q]|[[q _] _]]]; lra]. intro E. exfalso.
      assert (L := log_small _ _ _ _ _ _ _ _ _ _ _ _ _ _
         (x + (1 - cos n)/n*(u2*z-u3*y) + (n - sin n)/n*(u2*(u1*y-u2*x) - u3*(u3*x-u1*z)))
         (y + (1 - cos n)/n*(u3*x-u1*z) + (n - sin n)/n*(u3*(u2*z-u3*y) - u1*(u1*y-u2*x)))
         (z + (1 - cos n)/n*(u1*y-u2*x) + (n - sin n)/n*(u1*(u3*x-u1*z) - u2*(u2*z-u3*y)))
         (0,0,0) n hr hu eq_refl eq_refl hth small ltac:(lra)).
      cbv zeta in L. unfold transformLogarithm in E. change (s_ofZ 0 : R) with 0 in E. rewrite E in L.
      unfold vang in L. cbn [v6_wxd v6_wyd v6_wzd] in L. injection L as l1 l2 l3.
      set (k := n*(2*sin n)/(2*sin n+1/1000)) in *.
      assert (KN : n = k).
      { transitivity (n*(u1*u1+u2*u2+u3*u3)); [rewrite hu; ring|].
        transitivity (n*u1*u1+n*u2*u2+n*u3*u3); [ring|]. rewrite l1, l2, l3.
        transitivity (k*(u1*u1+u2*u2+u3*u3)); [ring|rewrite hu; ring]. }
      assert (k*(2*sin n + 1/1000) = n*(2*sin n)) by (unfold k; field; lra). nra.
    + assert (HC := half_coefficient n hth small ltac:(lra)).
      assert (L := log_half _ _ _ _ _ _ _ _ _ _ _ _ _ _
         (x + (1 - cos n)/n*(u2*z-u3*y) + (n - sin n)/n*(u2*(u1*y-u2*x) - u3*(u3*x-u1*z)))
         (y + (1 - cos n)/n*(u3*x-u1*z) + (n - sin n)/n*(u3*(u2*z-u3*y) - u1*(u1*y-u2*x)))
         (z + (1 - cos n)/n*(u1*y-u2*x) + (n - sin n)/n*(u1*(u3*x-u1*z) - u2*(u2*z-u3*y)))
         n hr hu eq_refl eq_refl hth small ltac:(lra)).
      cbv zeta in L. set (m := 1 - n*n/(PI*PI)) in *.
      assert (MP : n = PI -> m = 0). { intros q. unfold m. rewrite q. field. lra. }
      set (l := transformLogarithm _) in *. clearbody l.
      assert (NZ : forall p q, n*p = n*q -> p = q).
      { intros p q h. assert (h2 : n*(p-q) = 0) by lra. apply Rmult_integral in h2. destruct h2; lra. }
      assert (NZ2 : forall p, n*p = 0 -> p = 0) by (intros p h; apply NZ; lra).
      split.
      * intro E. right. right. split; [lra|].
        destruct L as [(A&L)|[(A&B&L)|[(A&B&C&L)|(A&B&C&L)]]].
        -- rewrite E in L. exists (1,0,0). split; [left; reflexivity|].
           assert (q1 := f_equal v6_wxd L). assert (q2 := f_equal v6_wyd L). assert (q3 := f_equal v6_wzd L).
           assert (q4 := f_equal v6_xd L). assert (q5 := f_equal v6_yd L). assert (q6 := f_equal v6_zd L).
           cbn [v6_xd v6_yd v6_zd v6_wxd v6_wyd v6_wzd] in *. clear L E.
           assert (u1 = 1) by (apply NZ; lra). assert (u2 = 0) by (apply NZ2; lra). assert (u3 = 0) by (apply NZ2; lra). subst u1 u2 u3.
           split; [unfold vscale, vx, vy, vz; cbn; pair_eq; ring|].
           destruct (Req_dec n PI) as [|np]; [tauto|right].
           destruct (lin2 (m*(sin n/n) + (1-cos n)/2) (sin n/2 - (1-cos n)/n*m) y z) as [y0 z0];
             [transitivity y; [rewrite q5 at 2; field; lra|reflexivity]|transitivity z; [rewrite q6 at 2; field; lra|reflexivity]|assert (n < PI) by lra; specialize (HC ltac:(lra)); lra|].
           rewrite y0, z0. unfold vscale, vdot, vx, vy, vz. cbn. pair_eq; ring.
        -- rewrite E in L. exists (0,1,0). split; [right; left; reflexivity|].
           assert (q1 := f_equal v6_wxd L). assert (q2 := f_equal v6_wyd L). assert (q3 := f_equal v6_wzd L).
           assert (q4 := f_equal v6_xd L). assert (q5 := f_equal v6_yd L). assert (q6 := f_equal v6_zd L).
           cbn [v6_xd v6_yd v6_zd v6_wxd v6_wyd v6_wzd] in *. clear L E.
           assert (u2 = 1) by (apply NZ; lra). assert (u1 = 0) by (apply NZ2; lra). assert (u3 = 0) by (apply NZ2; lra). subst u1 u2 u3.
           split; [unfold vscale, vx, vy, vz; cbn; pair_eq; ring|].
           destruct (Req_dec n PI) as [|np]; [tauto|right].
           destruct (lin2 (m*(sin n/n) + (1-cos n)/2) (sin n/2 - (1-cos n)/n*m) z x) as [y0 z0];
             [transitivity z; [rewrite q6 at 2; field; lra|reflexivity]|transitivity x; [rewrite q4 at 2; field; lra|reflexivity]|assert (n < PI) by lra; specialize (HC ltac:(lra)); lra|].
           rewrite y0, z0. unfold vscale, vdot, vx, vy, vz. cbn. pair_eq; ring.
        -- rewrite E in L. exists (0,0,1). split; [right; right; left; reflexivity|].
           assert (q1 := f_equal v6_wxd L). assert (q2 := f_equal v6_wyd L). assert (q3 := f_equal v6_wzd L).
           assert (q4 := f_equal v6_xd L). assert (q5 := f_equal v6_yd L). assert (q6 := f_equal v6_zd L).
           cbn [v6_xd v6_yd v6_zd v6_wxd v6_wyd v6_wzd] in *. clear L E.
           assert (u3 = 1) by (apply NZ; lra). assert (u1 = 0) by (apply NZ2; lra). assert (u2 = 0) by (apply NZ2; lra). subst u1 u2 u3.
           split; [unfold vscale, vx, vy, vz; cbn; pair_eq; ring|].
           destruct (Req_dec n PI) as [|np]; [tauto|right].
           destruct (lin2 (m*(sin n/n) + (1-cos n)/2) (sin n/2 - (1-cos n)/n*m) x y) as [y0 z0];
             [transitivity x; [rewrite q4 at 2; field; lra|reflexivity]|transitivity y; [rewrite q5 at 2; field; lra|reflexivity]|assert (n < PI) by lra; specialize (HC ltac:(lra)); lra|].
           rewrite y0, z0. unfold vscale, vdot, vx, vy, vz. cbn. pair_eq; ring.
        -- exfalso. rewrite E in L. unfold vang in L. cbn [v6_wxd v6_wyd v6_wzd] in L.
           assert (q1 := f_equal (fun p => fst (fst p)) L). assert (q2 := f_equal (fun p => snd (fst p)) L). assert (q3 := f_equal snd L).
           cbn in q1, q2, q3. apply NZ2 in q1, q2, q3. subst. lra.
      * intros [q|[[_ q]|(_&e&he&hv&hl)]]; [lra|lra|].
        assert (q1 := f_equal (fun p => fst (fst p)) hv). assert (q2 := f_equal (fun p => snd (fst p)) hv). assert (q3 := f_equal snd hv).
        destruct he as [<-|[<-|[<-|[]]]]; unfold vscale, vx, vy, vz in q1, q2, q3; cbn in q1, q2, q3; clear hv.
        -- assert (u1 = 1) by (apply NZ; lra). assert (u2 = 0) by (apply NZ2; lra). assert (u3 = 0) by (apply NZ2; lra). subst u1 u2 u3.
           destruct L as [(A&->)|[(A&_)|[(A&_)|(A&_)]]]; [|exfalso; lra|exfalso; lra|exfalso; lra].
           destruct hl as [hl|hl].
           ++ rewrite (MP hl), !hl, sin_PI, cos_PI. rec_eq; field; lra.
           ++ assert (y = 0 /\ z = 0) as [-> ->].
              { assert (h2 := f_equal (fun p => snd (fst p)) hl). assert (h3 := f_equal snd hl).
                unfold vscale, vdot, vx, vy, vz in h2, h3. cbn in h2, h3. split; lra. }
              rec_eq; field; lra.
        -- assert (u2 = 1) by (apply NZ; lra). assert (u1 = 0) by (apply NZ2; lra). assert (u3 = 0) by (apply NZ2; lra). subst u1 u2 u3.
           destruct L as [(A&_)|[(A&_&->)|[(A&A'&_)|(A&A'&_)]]]; [exfalso; lra| |exfalso; lra|exfalso; lra].
           destruct hl as [hl|hl].
           ++ rewrite (MP hl), !hl, sin_PI, cos_PI. rec_eq; field; lra.
           ++ assert (x = 0 /\ z = 0) as [-> ->].
              { assert (h2 := f_equal (fun p => fst (fst p)) hl). assert (h3 := f_equal snd hl).
                unfold vscale, vdot, vx, vy, vz in h2, h3. cbn in h2, h3. split; lra. }
              rec_eq; field; lra.
        -- assert (u3 = 1) by (apply NZ; lra). assert (u1 = 0) by (apply NZ2; lra). assert (u2 = 0) by (apply NZ2; lra). subst u1 u2 u3.
           destruct L as [(A&_)|[(A&A'&_)|[(A&A'&A''&->)|(A&A'&A''&_)]]]; [exfalso; lra|exfalso; lra| |exfalso; lra].
           destruct hl as [hl|hl].
           ++ rewrite (MP hl), !hl, sin_PI, cos_PI. rec_eq; field; lra.
           ++ assert (x = 0 /\ y = 0) as [-> ->].
              { assert (h2 := f_equal (fun p => fst (fst p)) hl). assert (h3 := f_equal (fun p => snd (fst p)) hl).
                unfold vscale, vdot, vx, vy, vz in h2, h3. cbn in h2, h3. split; lra. }
              rec_eq; field; lra.
Qed.


(** Cases that meet the hypotheses: a quarter turn about z, a half turn about x, and a
    rotation near the half turn about y with a displacement along y. *)
