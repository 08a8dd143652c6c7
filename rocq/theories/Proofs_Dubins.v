(** * Lemmas for Props_Dubins *)

From Coq Require Import Reals List Lra Lia Psatz Bool Arith ZArith.
Import ListNotations.
From Verif Require Import Scalar RInst RLemmas Model_Base Model_Vec Model_Almath Model_Tools Spec_Angle Spec_Dubins Proofs_Geom.
Local Open Scope R_scope.


Definition origin : Pose2D R := mkPose2D 0 0 0.
Definition dnorm (p : Pose2D R) : R := sqrt (pose_x p * pose_x p + pose_y p * pose_y p).
Definition dlen2 (t : dubinsTangent R * dubinsTangent R) : R :=
  (dt_x (fst t) - dt_x (snd t)) * (dt_x (fst t) - dt_x (snd t)) + (dt_y (fst t) - dt_y (snd t)) * (dt_y (fst t) - dt_y (snd t)).

(** The circle centres of the code. *)
Definition cS (l : bool) (r : R) : Position2D R := mkPosition2D 0 (side_sign l * r).
Definition cT (p : Pose2D R) (l : bool) (r : R) : Position2D R :=
  mkPosition2D (pose_x p - side_sign l * r * sin (pose_theta p)) (pose_y p + side_sign l * r * cos (pose_theta p)).
Definition tang (p : Pose2D R) (r : R) (l1 l2 : bool) : dubinsTangent R * dubinsTangent R :=
  computeTangent (cS l1 r) (cT p l2 r) (if l1 then 1 else -1) r (Bool.eqb l1 l2) l1 l2.

Lemma tangents_eq : forall p r, @dubinsTangents R RScalar p r =
  [tang p r true true; tang p r true false; tang p r false true; tang p r false false].
Proof.
  intros [x y t] r. unfold dubinsTangents, dubinsCircles, tang, cS, cT, side_sign. cbn [Bool.eqb pose_x pose_y pose_theta]. rsimp.
  assert (E : forall c1 c2 c1' c2' s l a b, c1 = c1' -> c2 = c2' ->
    @computeTangent R RScalar c1 c2 s r l a b = computeTangent c1' c2' s r l a b) by (intros; subst; reflexivity).
  repeat (apply f_equal2; [apply E; apply mkPosition2D_eq; ring|]). reflexivity.
Qed.

(** Squared distance between the centres. *)
Definition cdist2 (p : Pose2D R) (r : R) (l1 l2 : bool) : R :=
  (p2_x (cT p l2 r) - p2_x (cS l1 r)) * (p2_x (cT p l2 r) - p2_x (cS l1 r)) +
  (p2_y (cT p l2 r) - p2_y (cS l1 r)) * (p2_y (cT p l2 r) - p2_y (cS l1 r)).

Lemma sgn2 : forall l, side_sign l * side_sign l = 1.
Proof. intros []; unfold side_sign; ring. Qed.

Lemma dnorm_sq : forall p, dnorm p * dnorm p = pose_x p * pose_x p + pose_y p * pose_y p /\ 0 <= dnorm p.
Proof.
  intro p. unfold dnorm. split; [apply sqrt_sqrt; nra|apply sqrt_pos].
Qed.

Lemma cauchy2 : forall a b c d, a * c + b * d <= sqrt (a * a + b * b) * sqrt (c * c + d * d).
Proof.
  intros a b c d. rewrite <- sqrt_mult by nra.
  destruct (Rle_dec (a * c + b * d) 0).
  - apply Rle_trans with 0; [assumption|apply sqrt_pos].
  - rewrite <- (sqrt_square (a * c + b * d)) by lra.
    assert (K : 0 <= (a * d - b * c) * (a * d - b * c)) by apply Rle_0_sqr.
    assert (K2 : (a * a + b * b) * (c * c + d * d) = (a * c + b * d) * (a * c + b * d) + (a * d - b * c) * (a * d - b * c)) by ring.
    rewrite K2. apply sqrt_le_1; try lra; generalize (Rle_0_sqr (a * c + b * d)); unfold Rsqr; lra.
Qed.

(** The distance between centres is within 2r of the distance of the target. *)
Lemma cdist_bounds : forall p r l1 l2, 0 <= r -> 2 * r <= dnorm p ->
  (dnorm p - 2 * r) * (dnorm p - 2 * r) <= cdist2 p r l1 l2 <= (dnorm p + 2 * r) * (dnorm p + 2 * r).
Proof.
  intros [x y t] r l1 l2 hr hd. unfold cdist2, cT, cS. cbn [p2_x p2_y pose_x pose_y pose_theta].
  destruct (dnorm_sq (mkPose2D x y t)) as [n2 n0]. cbn [pose_x pose_y] in n2.
  set (N := dnorm (mkPose2D x y t)) in *.
  set (s1 := side_sign l1). set (s2 := side_sign l2).
  assert (q1 : s1 * s1 = 1) by apply sgn2. assert (q2 : s2 * s2 = 1) by apply sgn2.
  generalize (cs2 t). set (c := cos t). set (s := sin t). intro cs.
  set (a := - (s2 * s)). set (b := s2 * c - s1).
  assert (ab : a * a + b * b <= 4).
  { assert (a * a + b * b = 2 - 2 * (s1 * s2 * c)).
    { unfold a, b. replace (- (s2 * s) * - (s2 * s) + (s2 * c - s1) * (s2 * c - s1)) with (s2 * s2 * (c * c + s * s) + s1 * s1 - 2 * (s1 * s2 * c)) by ring.
      rewrite cs, q1, q2. ring. }
    assert (-1 <= s1 * s2 * c); [|lra].
    assert (-1 <= c <= 1) by (split; nra).
    unfold s1, s2, side_sign. destruct l1, l2; lra. }
  assert (sab : sqrt (a * a + b * b) <= 2).
  { replace 2 with (sqrt (2 * 2)) by (apply sqrt_square; lra). apply sqrt_le_1; nra. }
  generalize (cauchy2 x y a b) (cauchy2 x y (-a) (-b)).
  replace (- a * - a + - b * - b) with (a * a + b * b) by ring.
  fold (dnorm (mkPose2D x y t)). change (sqrt (x * x + y * y)) with N. intros k1 k2.
  assert (K1 : x * a + y * b <= 2 * N). { apply Rle_trans with (1 := k1). nra. }
  assert (K2 : x * - a + y * - b <= 2 * N). { apply Rle_trans with (1 := k2). nra. }
  assert (E : (x - s2 * r * s - 0) * (x - s2 * r * s - 0) + (y + s2 * r * c - s1 * r) * (y + s2 * r * c - s1 * r)
    = N * N + 2 * r * (x * a + y * b) + r * r * (a * a + b * b)) by (rewrite n2; unfold a, b; ring).
  assert (K3 : - (2 * N) <= x * a + y * b) by lra.
  assert (AB0 : 0 <= a * a + b * b) by nra.
  rewrite E. split.
  - (* (N - r |w|)^2 form *)
    set (w := sqrt (a * a + b * b)) in *. assert (w0 : 0 <= w) by apply sqrt_pos.
    assert (w2 : w * w = a * a + b * b) by (apply sqrt_sqrt; exact AB0).
    assert (- (N * w) <= x * a + y * b) by lra.
    rewrite <- w2.
    apply Rle_trans with ((N - r * w) * (N - r * w)).
    + apply Rmult_le_compat; try nra.
    + nra.
  - nra.
Qed.

Lemma dist_sym : forall a b c d, (a - b) * (a - b) + (c - d) * (c - d) = (b - a) * (b - a) + (d - c) * (d - c).
Proof. intros. ring. Qed.

(** Each of the four tangents: its length and heading, as a path. *)
Lemma tang_spec0 : forall p r l1 l2, 0 <= r -> (if Bool.eqb l1 l2 then 0 else 4 * r * r) < cdist2 p r l1 l2 ->
  let len2 := cdist2 p r l1 l2 - (if Bool.eqb l1 l2 then 0 else 4 * r * r) in
  let t := tang p r l1 l2 in
  let h := Ratan2 (dt_y (snd t) - dt_y (fst t)) (dt_x (snd t) - dt_x (fst t)) in
  dlen2 t = len2 /\ dt_left (fst t) = l1 /\ dt_left (snd t) = l2 /\ 0 < len2 /\
  csc_path origin p r l1 l2 (dt_x (fst t)) (dt_y (fst t)) (dt_x (snd t)) (dt_y (snd t)) h (sqrt len2).
Proof.
  intros p r l1 l2 hr hq. cbv zeta.
  assert (G : forall X1 Y1 X2 Y2 L, 0 < L -> (X1 - X2) * (X1 - X2) + (Y1 - Y2) * (Y1 - Y2) = L * L ->
    p2_x (cS l1 r) = X1 - side_sign l1 * r * (Y2 - Y1) / L -> p2_y (cS l1 r) = Y1 + side_sign l1 * r * (X2 - X1) / L ->
    p2_x (cT p l2 r) = X2 - side_sign l2 * r * (Y2 - Y1) / L -> p2_y (cT p l2 r) = Y2 + side_sign l2 * r * (X2 - X1) / L ->
    csc_path origin p r l1 l2 X1 Y1 X2 Y2 (Ratan2 (Y2 - Y1) (X2 - X1)) L).
  { intros X1 Y1 X2 Y2 L hL e h1 h2 h3 h4.
    assert (N : (X2 - X1) * (X2 - X1) + (Y2 - Y1) * (Y2 - Y1) <> 0) by nra.
    destruct (Ratan2_cos_sin (Y2 - Y1) (X2 - X1) N) as [ec es].
    assert (Lq : sqrt ((X2 - X1) * (X2 - X1) + (Y2 - Y1) * (Y2 - Y1)) = L) by (apply sqrt_unique'; lra).
    rewrite Lq in ec, es. unfold csc_path, turn_centre, origin. cbn [pose_x pose_y pose_theta].
    rewrite ec, es, cos_0, sin_0. unfold cS, cT in *. cbn [p2_x p2_y] in *.
    split; [lra|]. split; [field; lra|]. split; [field; lra|]. split; apply mkPosition2D_eq.
    - transitivity (X1 - side_sign l1 * r * (Y2 - Y1) / L); [field; lra|]. rewrite <- h1. ring.
    - transitivity (Y1 + side_sign l1 * r * (X2 - X1) / L); [field; lra|]. rewrite <- h2. ring.
    - transitivity (X2 - side_sign l2 * r * (Y2 - Y1) / L); [field; lra|]. rewrite <- h3. ring.
    - transitivity (Y2 + side_sign l2 * r * (X2 - X1) / L); [field; lra|]. rewrite <- h4. ring. }
  unfold dlen2, tang, computeTangent, cdist2 in *. rsimp.
  set (ax := p2_x (cS l1 r)) in *. set (ay := p2_y (cS l1 r)) in *.
  set (bx := p2_x (cT p l2 r)) in *. set (by_ := p2_y (cT p l2 r)) in *. clearbody ax ay bx by_.
  rewrite (dist_sym ax bx ay by_).
  set (q := (bx - ax) * (bx - ax) + (by_ - ay) * (by_ - ay)) in *.
  assert (q0 : 0 < q) by (destruct (Bool.eqb l1 l2); nra).
  destruct (sqrt_ex q) as [e [ee [e0 e2]]]; [lra|]. rewrite ee.
  assert (ep : 0 < e) by nra.
  assert (SG : IZR (if l1 then 1 else -1) = side_sign l1 /\ IZR (- (if l1 then 1 else -1)) = - side_sign l1).
  { destruct l1; unfold side_sign; cbn [Z.opp]; split; lra. }
  destruct SG as [g1 g2]. rewrite g1, g2.
  set (sg := side_sign l1) in *. assert (s2 : sg * sg = 1) by apply sgn2.
  destruct (Bool.eqb_spec l1 l2) as [e12|n12]; cbn [fst snd dt_x dt_y dt_left].
  - subst l2. fold sg in G. rewrite Rminus_0_r, ee.
    split; [unfold q; field; lra|]. split; [reflexivity|]. split; [reflexivity|]. split; [exact q0|].
    apply G; [exact ep| | | | |].
    + rewrite e2. unfold q. field. lra.
    + field. lra.
    + field. lra.
    + field. lra.
    + field. lra.
  - assert (s12 : side_sign l2 = - sg) by (unfold sg, side_sign; destruct l1, l2; try congruence; lra).
    set (c := r * 2 / e). assert (c2 : c * e = 2 * r) by (unfold c; field; lra).
    assert (c1 : 0 <= c < 1).
    { split; [unfold c; apply Rmult_le_pos; [lra|left; apply Rinv_0_lt_compat; lra]|].
      apply Rmult_lt_reg_r with e; [exact ep|]. rewrite c2. nra. }
    destruct (sqrt_ex (1 - c * c)) as [s [es [s0 ss]]]; [nra|]. rewrite es.
    assert (sp : 0 < s) by nra.
    assert (rc : r = c * e / 2) by lra. 
    assert (L2 : q - 4 * r * r = (s * e) * (s * e)).
    { rewrite rc, <- e2. replace (s * e * (s * e)) with ((s * s) * (e * e)) by ring. rewrite ss. field. }
    rewrite L2, sqrt_square by nra.
    replace (r / e) with (c / 2) by (rewrite rc; field; lra).
    set (X1 := ax + c / 2 * (c * (bx - ax) + sg * s * (by_ - ay))).
    set (Y1 := ay + c / 2 * (- sg * s * (bx - ax) + c * (by_ - ay))).
    set (X2 := bx - c / 2 * (c * (bx - ax) + sg * s * (by_ - ay))).
    set (Y2 := by_ - c / 2 * (- sg * s * (bx - ax) + c * (by_ - ay))).
    assert (cc : c * c = 1 - s * s) by lra.
    assert (DX : X2 - X1 = s * (s * (bx - ax) - sg * c * (by_ - ay))).
    { unfold X1, X2. replace (bx - c / 2 * (c * (bx - ax) + sg * s * (by_ - ay)) - (ax + c / 2 * (c * (bx - ax) + sg * s * (by_ - ay))))
        with ((1 - c * c) * (bx - ax) - c * sg * s * (by_ - ay)) by field. rewrite cc. ring. }
    assert (DY : Y2 - Y1 = s * (s * (by_ - ay) + sg * c * (bx - ax))).
    { unfold Y1, Y2. replace (by_ - c / 2 * (- sg * s * (bx - ax) + c * (by_ - ay)) - (ay + c / 2 * (- sg * s * (bx - ax) + c * (by_ - ay))))
        with ((1 - c * c) * (by_ - ay) + c * sg * s * (bx - ax)) by field. rewrite cc. ring. }
    assert (LEN : (X1 - X2) * (X1 - X2) + (Y1 - Y2) * (Y1 - Y2) = s * e * (s * e)).
    { rewrite dist_sym, DX, DY.
      replace (s * (s * (bx - ax) - sg * c * (by_ - ay)) * (s * (s * (bx - ax) - sg * c * (by_ - ay))) +
        s * (s * (by_ - ay) + sg * c * (bx - ax)) * (s * (s * (by_ - ay) + sg * c * (bx - ax))))
        with (s * s * ((s * s + sg * sg * (c * c)) * q)) by (unfold q; ring).
      rewrite s2, cc, <- e2. ring. }
    split; [exact LEN|]. split; [reflexivity|]. split; [reflexivity|].
    assert (LP : 0 < s * e) by nra. split; [nra|].
    assert (N1 : sg * r * (Y2 - Y1) / (s * e) = c / 2 * (sg * s * (by_ - ay) + c * (bx - ax))).
    { rewrite DY. transitivity (c / 2 * (sg * s * (by_ - ay) + (sg * sg) * c * (bx - ax))); [rewrite rc; field; lra|rewrite s2; ring]. }
    assert (N2 : sg * r * (X2 - X1) / (s * e) = c / 2 * (sg * s * (bx - ax) - c * (by_ - ay))).
    { rewrite DX. transitivity (c / 2 * (sg * s * (bx - ax) - (sg * sg) * c * (by_ - ay))); [rewrite rc; field; lra|rewrite s2; ring]. }
    apply G; [exact LP|exact LEN| | | |].
    + rewrite N1. unfold X1. ring.
    + rewrite N2. unfold Y1. ring.
    + rewrite s12. replace (- sg * r * (Y2 - Y1) / (s * e)) with (- (sg * r * (Y2 - Y1) / (s * e))) by (field; lra). rewrite N1. unfold X2. ring.
    + rewrite s12. replace (- sg * r * (X2 - X1) / (s * e)) with (- (sg * r * (X2 - X1) / (s * e))) by (field; lra). rewrite N2. unfold Y2. ring.
Qed.

Lemma tang_spec : forall p r l1 l2, 0 <= r -> 4 * r * r < cdist2 p r l1 l2 ->
  let len2 := cdist2 p r l1 l2 - (if Bool.eqb l1 l2 then 0 else 4 * r * r) in
  let t := tang p r l1 l2 in
  let h := Ratan2 (dt_y (snd t) - dt_y (fst t)) (dt_x (snd t) - dt_x (fst t)) in
  dlen2 t = len2 /\ dt_left (fst t) = l1 /\ dt_left (snd t) = l2 /\ 0 < len2 /\
  csc_path origin p r l1 l2 (dt_x (fst t)) (dt_y (fst t)) (dt_x (snd t)) (dt_y (snd t)) h (sqrt len2).
Proof. intros p r l1 l2 hr hq. apply tang_spec0; [exact hr|]. destruct (Bool.eqb l1 l2); nra. Qed.

(** Circles that touch: the two ends of the tangent are the same point. *)
Lemma tang_touch : forall p r l1 l2, 0 < r -> Bool.eqb l1 l2 = false -> cdist2 p r l1 l2 = 4 * r * r ->
  dlen2 (tang p r l1 l2) = 0.
Proof.
  intros p r l1 l2 hr hn hq. unfold dlen2, tang, computeTangent, cdist2 in *. rewrite hn. rsimp.
  set (ax := p2_x (cS l1 r)) in *. set (ay := p2_y (cS l1 r)) in *.
  set (bx := p2_x (cT p l2 r)) in *. set (by_ := p2_y (cT p l2 r)) in *. clearbody ax ay bx by_.
  rewrite (dist_sym ax bx ay by_), hq.
  assert (E : sqrt (4 * r * r) = 2 * r) by (apply sqrt_unique'; [lra|ring]). rewrite E.
  cbn [fst snd dt_x dt_y].
  replace (r * 2 / (2 * r)) with 1 by (field; lra). replace (1 - 1 * 1) with 0 by ring. rewrite sqrt_0.
  replace (r / (2 * r)) with (1/2) by (field; lra). field.
Qed.
Lemma touch_path : forall p r l1 l2, 0 < r -> Bool.eqb l1 l2 = false -> cdist2 p r l1 l2 = 4 * r * r ->
  segment_length origin p r 0.
Proof.
  intros p r l1 l2 hr hn hq. unfold cdist2 in hq.
  set (wx := (p2_x (cT p l2 r) - p2_x (cS l1 r)) / (2 * r)) in *.
  set (wy := (p2_y (cT p l2 r) - p2_y (cS l1 r)) / (2 * r)) in *.
  assert (W : wx * wx + wy * wy = 1).
  { unfold wx, wy. transitivity ((4 * r * r) / (4 * r * r)); [rewrite <- hq at 1; field; lra|field; lra]. }
  assert (DX : p2_x (cT p l2 r) = p2_x (cS l1 r) + 2 * r * wx) by (unfold wx; field; lra).
  assert (DY : p2_y (cT p l2 r) = p2_y (cS l1 r) + 2 * r * wy) by (unfold wy; field; lra).
  clearbody wx wy.
  assert (S2 := sgn2 l1).
  assert (s12 : side_sign l2 = - side_sign l1) by (unfold side_sign; destruct l1, l2; try discriminate; lra).
  set (s1 := side_sign l1) in *.
  destruct (Ratan2_cos_sin (s1 * wx) (- s1 * wy)) as [ec es].
  { assert (- s1 * wy * (- s1 * wy) + s1 * wx * (s1 * wx) = s1 * s1 * (wx * wx + wy * wy)) by ring. rewrite W, S2 in H. lra. }
  set (h := Ratan2 (s1 * wx) (- s1 * wy)) in *.
  assert (N1 : sqrt (- s1 * wy * (- s1 * wy) + s1 * wx * (s1 * wx)) = 1).
  { transitivity (sqrt 1); [f_equal|apply sqrt_1]. transitivity (s1 * s1 * (wx * wx + wy * wy)); [ring|rewrite W, S2; ring]. }
  rewrite N1 in ec, es.
  exists l1, l2, (p2_x (cS l1 r) + r * wx), (p2_y (cS l1 r) + r * wy), (p2_x (cS l1 r) + r * wx), (p2_y (cS l1 r) + r * wy), h.
  unfold csc_path. split; [lra|]. split; [ring|]. split; [ring|].
  unfold turn_centre. cbn [pose_x pose_y pose_theta]. rewrite ec, es, s12. fold s1.
  split; apply mkPosition2D_eq.
  - unfold cS, origin. cbn [p2_x p2_y pose_x pose_y pose_theta]. rewrite sin_0.
    transitivity (r * wx - s1 * s1 * r * wx); [field|rewrite S2; ring].
  - unfold cS, origin. cbn [p2_x p2_y pose_x pose_y pose_theta]. rewrite cos_0. fold s1.
    transitivity (s1 * r + r * wy - s1 * s1 * r * wy); [field|rewrite S2; ring].
  - transitivity (p2_x (cS l1 r) + 2 * r * wx).
    + transitivity (p2_x (cS l1 r) + r * wx + s1 * s1 * r * wx); [field|rewrite S2; ring].
    + rewrite <- DX. unfold cT. cbn [p2_x]. rewrite s12. fold s1. ring.
  - transitivity (p2_y (cS l1 r) + 2 * r * wy).
    + transitivity (p2_y (cS l1 r) + r * wy + s1 * s1 * r * wy); [field|rewrite S2; ring].
    + rewrite <- DY. unfold cT. cbn [p2_y]. rewrite s12. fold s1. ring.
Qed.

(** A path of this kind has the same length whatever it is. *)
Lemma csc_length : forall p r l1 l2 x1 y1 x2 y2 h len, csc_path origin p r l1 l2 x1 y1 x2 y2 h len ->
  len * len = cdist2 p r l1 l2 - (if Bool.eqb l1 l2 then 0 else 4 * r * r).
Proof.
  intros p r l1 l2 x1 y1 x2 y2 h len [h0 [e1 [e2 [c1 c2]]]].
  unfold turn_centre, origin in c1. unfold turn_centre in c2. cbn [pose_x pose_y pose_theta] in *.
  rewrite sin_0, cos_0 in c1. injection c1 as a1 a2. injection c2 as b1 b2.
  unfold cdist2, cT, cS. cbn [p2_x p2_y]. rewrite <- b1, <- b2.
  assert (X0 : x1 = side_sign l1 * r * sin h) by lra. assert (Y0 : y1 = side_sign l1 * r - side_sign l1 * r * cos h) by lra.
  subst x2 y2. rewrite X0, Y0.
  generalize (cs2 h). generalize (sgn2 l1) (sgn2 l2). 
  assert (IFF : if Bool.eqb l1 l2 then side_sign l2 = side_sign l1 else side_sign l2 = - side_sign l1).
  { destruct l1, l2; cbn; unfold side_sign; lra. }
  set (s1 := side_sign l1) in *. set (s2 := side_sign l2) in *. set (c := cos h). set (s := sin h).
  intros q1 q2 cs. clearbody s1 s2.
  destruct (Bool.eqb l1 l2); rewrite IFF.
  - transitivity (len * len * (c * c + s * s)); [rewrite cs; ring|]. ring.
  - transitivity (len * len * (c * c + s * s) + 4 * r * r * (s1 * s1) * (c * c + s * s) - 4 * r * r); [rewrite cs, q1; ring|]. ring.
Qed.

Lemma best_spec : forall l m b, (forall t, In t l -> m <= dlen2 t) \/ (exists t, In t l /\ dlen2 t < m) ->
  let r := @bestTangent R RScalar l m b in
  ((forall t, In t l -> m <= dlen2 t) -> r = b) /\
  ((exists t, In t l /\ dlen2 t < m) -> In r l /\ dlen2 r < m /\ forall t, In t l -> dlen2 r <= dlen2 t).
Proof.
  induction l as [|[t1 t2] l IH]; intros m b _; cbv zeta.
  - cbn [bestTangent]. split; [reflexivity|]. intros [t [[] _]].
  - cbn [bestTangent]. rsimp. fold (dlen2 (t1, t2)).
    change ((dt_x t1 - dt_x t2) * (dt_x t1 - dt_x t2) + (dt_y t1 - dt_y t2) * (dt_y t1 - dt_y t2)) with (dlen2 (t1, t2)).
    set (t0 := (t1, t2)).
    assert (D : forall k, (forall t, In t l -> k <= dlen2 t) \/ (exists t, In t l /\ dlen2 t < k)).
    { intro k. clear. induction l as [|a l IH]; [left; intros t []|]. destruct (Rlt_dec (dlen2 a) k) as [c|c].
      - right. exists a. split; [left; reflexivity|exact c].
      - destruct IH as [IH|[t [i h]]].
        + left. intros t [e|i]; [subst; lra|auto].
        + right. exists t. split; [right; exact i|exact h]. }
    destruct (Rltb_spec (dlen2 t0) m) as [c|c].
    + destruct (IH (dlen2 t0) t0 (D _)) as [I1 I2]. cbv zeta in *. split.
      * intro h. exfalso. specialize (h t0 (or_introl eq_refl)). lra.
      * intros _. destruct (D (dlen2 t0)) as [d|d].
        -- rewrite (I1 d). split; [left; reflexivity|]. split; [exact c|]. intros t [<-|i]; [lra|auto].
        -- destruct (I2 d) as [i1 [i2 i3]]. split; [right; exact i1|]. split; [lra|]. intros t [<-|i]; [lra|auto].
    + destruct (IH m b (D _)) as [I1 I2]. cbv zeta in *. split.
      * intro h. apply I1. intros t i. apply h. right. exact i.
      * intros [t [[<-|i] h]]; [lra|]. destruct I2 as [i1 [i2 i3]]; [eauto|].
        split; [right; exact i1|]. split; [exact i2|]. intros u [<-|j]; [lra|auto].
Qed.

Lemma best_dec : forall l m, (forall t, In t l -> m <= dlen2 t) \/ (exists t, In t l /\ dlen2 t < m).
Proof.
  intros l m. induction l as [|a l IH]; [left; intros t []|]. destruct (Rlt_dec (dlen2 a) m) as [c|c].
  - right. exists a. split; [left; reflexivity|exact c].
  - destruct IH as [IH|[t [i h]]].
    + left. intros t [e|i]; [subst; lra|auto].
    + right. exists t. split; [right; exact i|exact h].
Qed.

Lemma C34_throws_proof : forall (p : Pose2D R) (r : R),
  (getDubinsSolutions p r = Throw <-> sqrt (pose_x p * pose_x p + pose_y p * pose_y p) < 4 * r) /\
  (4 * r <= sqrt (pose_x p * pose_x p + pose_y p * pose_y p) ->
   exists a b, getDubinsSolutions p r = Ok [a; b; p]).
Proof.
  intros p r. unfold getDubinsSolutions. rsimp.
  destruct (Rltb_spec (sqrt (pose_x p * pose_x p + pose_y p * pose_y p)) (4 * r)) as [c|c].
  - split; [tauto|]. intro h. lra.
  - destruct (bestTangent _ _ _) as [t1 t2]. split; [split; [discriminate|contradiction]|].
    intros _. do 2 eexists. reflexivity.
Qed.


(** The chosen tangent. *)
Lemma chosen : forall (p : Pose2D R) r, 0 <= r -> 4 * r < dnorm p -> dnorm p + 2 * r <= 10 ^ 19 ->
  exists l1 l2, @bestTangent R RScalar (dubinsTangents p r) flt_max (mkTangent 0 0 false, mkTangent 0 0 false) = tang p r l1 l2 /\
    forall k1 k2, dlen2 (tang p r l1 l2) <= dlen2 (tang p r k1 k2).
Proof.
  intros p r hr hd hm. rewrite tangents_eq.
  assert (F : forall l1 l2, dlen2 (tang p r l1 l2) < @flt_max R RScalar).
  { intros l1 l2. destruct (cdist_bounds p r l1 l2 hr) as [b1 b2]; [lra|].
    assert (4 * r * r < cdist2 p r l1 l2) by nra.
    destruct (tang_spec p r l1 l2 hr H) as [e _]. rewrite e.
    assert (cdist2 p r l1 l2 <= 10 ^ 38).
    { apply Rle_trans with (1 := b2). replace (10 ^ 38) with (10 ^ 19 * 10 ^ 19) by (rewrite <- pow_add; reflexivity).
      apply Rmult_le_compat; lra. }
    assert (E : (if Bool.eqb l1 l2 then 0 else 4 * r * r) >= 0) by (destruct (Bool.eqb l1 l2); nra).
    apply Rle_lt_trans with (10 ^ 38); [lra|].
    unfold flt_max. cbn [s_ofZ RScalar]. rewrite pow_IZR. apply IZR_lt. vm_compute. reflexivity. }
  set (L := [tang p r true true; tang p r true false; tang p r false true; tang p r false false]).
  destruct (best_spec L flt_max (mkTangent 0 0 false, mkTangent 0 0 false) (best_dec _ _)) as [_ B].
  destruct B as [B1 [_ B3]].
  { exists (tang p r true true). split; [left; reflexivity|apply F]. }
  assert (IL : forall k1 k2, In (tang p r k1 k2) L) by (intros [] []; cbn; tauto).
  assert (X : exists l1 l2, bestTangent L flt_max (mkTangent 0 0 false, mkTangent 0 0 false) = tang p r l1 l2).
  { destruct B1 as [e|[e|[e|[e|[]]]]]; rewrite <- e; eauto. }
  destruct X as [l1 [l2 e]]. exists l1, l2. split; [exact e|]. intros k1 k2. rewrite <- e. apply B3. apply IL.
Qed.

Lemma C34_path_far_proof : forall (p : Pose2D R) (r : R), 0 <= r ->
  4 * r < sqrt (pose_x p * pose_x p + pose_y p * pose_y p) ->
  sqrt (pose_x p * pose_x p + pose_y p * pose_y p) + 2 * r <= 10 ^ 19 ->
  exists l1 l2 a b h len, getDubinsSolutions p r = Ok [a; b; p] /\
    csc_path (mkPose2D 0 0 0) p r l1 l2 (pose_x a) (pose_y a) (pose_x b) (pose_y b) h len /\ 0 < len /\
    same_angle (pose_theta a) h /\ same_angle (pose_theta b) h /\
    forall k1 k2 x1 y1 x2 y2 h' len', csc_path (mkPose2D 0 0 0) p r k1 k2 x1 y1 x2 y2 h' len' -> len <= len'.
Proof.
  intros p r hr hd hm. destruct (chosen p r hr hd hm) as [l1 [l2 [e m]]].
  assert (Q : forall k1 k2, 4 * r * r < cdist2 p r k1 k2).
  { intros k1 k2. destruct (cdist_bounds p r k1 k2 hr) as [b _]; unfold dnorm in *; nra. }
  destruct (tang_spec p r l1 l2 hr (Q l1 l2)) as [T1 [T2 [T3 [T4 T5]]]]. cbv zeta in *.
  unfold getDubinsSolutions. rsimp. rewrite Rltb_false by lra. rewrite e.
  destruct (tang p r l1 l2) as [t1 t2] eqn:ET. cbn [fst snd] in *.
  exists l1, l2. do 2 eexists.
  exists (Ratan2 (dt_y t2 - dt_y t1) (dt_x t2 - dt_x t1)), (sqrt (dlen2 (t1, t2))).
  split; [reflexivity|]. cbn [pose_x pose_y pose_theta].
  split; [rewrite T1; exact T5|]. split; [apply sqrt_lt_R0; lra|].
  assert (S0 : forall x, same_angle x x) by (intro x; exists 0%Z; lra).
  assert (S1 : forall x, same_angle (2 * PI + x) x) by (intro x; exists (-1)%Z; lra).
  assert (S2 : forall x y, same_angle (2 * PI - (y - x) + y) x) by (intros x y; exists (-1)%Z; lra).
  split; [|split].
  - destruct (dt_left t1); cbn [andb negb];
      match goal with |- same_angle (if ?b then _ else _) _ => destruct b | _ => idtac end; auto;
      match goal with |- same_angle (if ?b then _ else _) _ => destruct b | _ => idtac end; auto.
  - destruct (dt_left t2); cbn [andb negb];
      match goal with |- same_angle (if ?b then _ else _) _ => destruct b | _ => idtac end; auto;
      match goal with |- same_angle (if ?b then _ else _) _ => destruct b | _ => idtac end; auto.
  - intros k1 k2 x1 y1 x2 y2 h' len' P.
    generalize (csc_length _ _ _ _ _ _ _ _ _ _ P). intro E.
    destruct (tang_spec p r k1 k2 hr (Q k1 k2)) as [U1 _]. cbv zeta in U1.
    specialize (m k1 k2). rewrite U1, <- E in m.
    destruct P as [P0 _]. rewrite <- (sqrt_square len') by exact P0. apply sqrt_le_1; nra.
Qed.


Definition headings (p : Pose2D R) (t : dubinsTangent R * dubinsTangent R) : list (Pose2D R) :=
  let '(t1, t2) := t in
  let angle1 := Ratan2 (dt_y t2 - dt_y t1) (dt_x t2 - dt_x t1) in
  let angle2 := pose_theta p - angle1 in
  [mkPose2D (dt_x t1) (dt_y t1)
     (if (if dt_left t1 then Rltb angle1 0 else Rltb 0 angle1) then 2 * PI + angle1 else angle1);
   mkPose2D (dt_x t2) (dt_y t2)
     (if (if dt_left t2 then Rltb angle2 0 else Rltb 0 angle2) then 2 * PI - angle2 + pose_theta p else angle1); p].

Lemma solutions_eq : forall p r, 4 * r <= dnorm p -> getDubinsSolutions p r =
  Ok (headings p (@bestTangent R RScalar (dubinsTangents p r) flt_max (mkTangent 0 0 false, mkTangent 0 0 false))).
Proof.
  intros p r h. unfold getDubinsSolutions. rsimp. rewrite Rltb_false by exact h.
  destruct (bestTangent _ _ _) as [t1 t2]. unfold headings. f_equal.
  destruct (dt_left t1), (dt_left t2); cbn [andb negb]; reflexivity.
Qed.

Lemma cos_sin_same : forall a b, same_angle a b -> cos b = cos a /\ sin b = sin a.
Proof.
  intros a b [k ->]. rewrite cos_plus, sin_plus.
  assert (E : cos (IZR k * (2*PI)) = 1 /\ sin (IZR k * (2*PI)) = 0).
  { assert (N : forall n : nat, cos (INR n * (2*PI)) = 1 /\ sin (INR n * (2*PI)) = 0).
    { intro n. replace (INR n * (2*PI)) with (0 + 2 * INR n * PI) by ring.
      rewrite cos_period, sin_period, cos_0, sin_0. auto. }
    destruct (Z_le_dec 0 k) as [l|l].
    - rewrite <- (Z2Nat.id k l), <- INR_IZR_INZ. apply N.
    - replace (IZR k * (2*PI)) with (- (INR (Z.to_nat (- k)) * (2*PI))).
      + rewrite cos_neg, sin_neg. destruct (N (Z.to_nat (-k))) as [-> ->]. split; ring.
      + rewrite INR_IZR_INZ, Z2Nat.id, opp_IZR by lia. ring. }
  destruct E as [-> ->]. split; ring.
Qed.

(** From (0,0,0), with a null heading at both ends of an empty segment, no path goes far. *)
Lemma no_null_path : forall p r l1 l2 x y h len, 0 < r -> 4 * r <= dnorm p -> cos h = 1 -> sin h = 0 ->
  ~ csc_path origin p r l1 l2 x y x y h len.
Proof.
  intros p r l1 l2 x y h len hr hd hc hs (h0&e1&e2&c1&c2). unfold turn_centre, origin in *.
  cbn [pose_x pose_y pose_theta] in *. rewrite hc, hs in *. rewrite sin_0, cos_0 in c1.
  assert (X1 := f_equal p2_x c1). assert (Y1 := f_equal p2_y c1). assert (X2 := f_equal p2_x c2). assert (Y2 := f_equal p2_y c2).
  cbn [p2_x p2_y] in *.
  destruct (dnorm_sq p) as [n2 n0].
  assert (cs := cs2 (pose_theta p)). assert (S2 := sgn2 l2). set (s2 := side_sign l2) in *.
  set (c := cos (pose_theta p)) in *. set (s := sin (pose_theta p)) in *.
  assert (PX : pose_x p = s2 * r * s) by lra. assert (PY : pose_y p = s2 * r - s2 * r * c) by lra.
  assert (K : dnorm p * dnorm p = s2 * s2 * (r * r * (c * c + s * s) + r * r - 2 * r * r * c)).
  { rewrite n2, PX, PY. ring. }
  rewrite S2, cs in K. assert (-1 <= c) by nra. assert (0 < r * r) by nra. nra.
Qed.

Lemma headings_null : forall p t, dlen2 t = 0 ->
  exists a b, headings p t = [a; b; p] /\ pose_x a = pose_x b /\ pose_y a = pose_y b /\ pose_theta a = 0.
Proof.
  intros p [t1 t2] h. unfold dlen2 in h. cbn [fst snd] in h.
  assert (dt_x t1 - dt_x t2 = 0 /\ dt_y t1 - dt_y t2 = 0) as [hx hy].
  { generalize (Rle_0_sqr (dt_x t1 - dt_x t2)) (Rle_0_sqr (dt_y t1 - dt_y t2)). unfold Rsqr. intros.
    split; [assert (e : (dt_x t1 - dt_x t2) * (dt_x t1 - dt_x t2) = 0) by lra
           |assert (e : (dt_y t1 - dt_y t2) * (dt_y t1 - dt_y t2) = 0) by lra]; apply Rmult_integral in e; lra. }
  unfold headings. replace (dt_y t2 - dt_y t1) with 0 by lra. replace (dt_x t2 - dt_x t1) with 0 by lra.
  rewrite Ratan2_00. do 2 eexists. split; [reflexivity|]. cbn [pose_x pose_y pose_theta].
  split; [lra|]. split; [lra|]. rewrite Rltb_false by lra. destruct (dt_left t1); reflexivity.
Qed.

Lemma headings_path : forall p t, let h := Ratan2 (dt_y (snd t) - dt_y (fst t)) (dt_x (snd t) - dt_x (fst t)) in
  exists a b, headings p t = [a; b; p] /\ pose_x a = dt_x (fst t) /\ pose_y a = dt_y (fst t) /\
    pose_x b = dt_x (snd t) /\ pose_y b = dt_y (snd t) /\ same_angle (pose_theta a) h /\ same_angle (pose_theta b) h.
Proof.
  intros p [t1 t2]. cbn [fst snd]. cbv zeta. do 2 eexists. split; [reflexivity|]. cbn [pose_x pose_y pose_theta].
  set (h := Ratan2 (dt_y t2 - dt_y t1) (dt_x t2 - dt_x t1)).
  assert (S0 : forall x, same_angle x x) by (intro x; exists 0%Z; lra).
  assert (S1 : forall x, same_angle (2 * PI + x) x) by (intro x; exists (-1)%Z; lra).
  assert (S2 : forall x y, same_angle (2 * PI - (y - x) + y) x) by (intros x y; exists (-1)%Z; lra).
  do 4 (split; [reflexivity|]).
  split; match goal with |- same_angle (if ?b then _ else _) _ => destruct b end; auto.
Qed.

Lemma C34_path_exact_proof : forall (p : Pose2D R) (r : R), 0 < r ->
  4 * r <= sqrt (pose_x p * pose_x p + pose_y p * pose_y p) ->
  let start := mkPose2D 0 0 0 in
  exists a b, getDubinsSolutions p r = Ok [a; b; p] /\
    ((exists l1 l2 h len, describes start p r a b l1 l2 h len) <->
     (~ segment_length start p r 0 /\ exists len, segment_length start p r len /\ len * len < (2 ^ 24 - 1) * 2 ^ 104)).
Proof.
  intros p r hr hd start. change start with origin. clear start.
  rewrite solutions_eq by exact hd. fold (dnorm p) in hd.
  assert (hr0 : 0 <= r) by lra.
  assert (Q : forall k1 k2, 4 * r * r <= cdist2 p r k1 k2).
  { intros k1 k2. destruct (cdist_bounds p r k1 k2 hr0) as [b _]; nra. }
  assert (FM : @flt_max R RScalar = (2 ^ 24 - 1) * 2 ^ 104).
  { unfold flt_max. cbn [s_ofZ RScalar]. rewrite !pow_IZR, <- minus_IZR, <- mult_IZR. apply f_equal. vm_compute. reflexivity. }
  rewrite <- FM.
  set (L := dubinsTangents p r). set (d0 := (mkTangent 0 0 false, mkTangent 0 0 false)).
  assert (IL : forall k1 k2, In (tang p r k1 k2) L) by (intros [] []; unfold L; rewrite tangents_eq; cbn; tauto).
  assert (LI : forall t, In t L -> exists k1 k2, t = tang p r k1 k2).
  { intros t i. unfold L in i. rewrite tangents_eq in i. destruct i as [e|[e|[e|[e|[]]]]]; rewrite <- e; eauto. }
  assert (LEN : forall k1 k2, dlen2 (tang p r k1 k2) = cdist2 p r k1 k2 - (if Bool.eqb k1 k2 then 0 else 4 * r * r)).
  { intros k1 k2. destruct (Bool.eqb k1 k2) eqn:eb.
    - destruct (tang_spec0 p r k1 k2 hr0) as [e _]; [rewrite eb; generalize (Q k1 k2); nra|]. cbv zeta in e. rewrite eb in e. exact e.
    - destruct (Req_dec (cdist2 p r k1 k2) (4 * r * r)) as [e|n].
      + rewrite (tang_touch p r k1 k2 hr eb e). lra.
      + destruct (tang_spec0 p r k1 k2 hr0) as [e _]; [rewrite eb; generalize (Q k1 k2); lra|]. cbv zeta in e. rewrite eb in e. exact e. }
  destruct (best_spec L flt_max d0 (best_dec _ _)) as [B0 B1]. cbv zeta in *.
  set (t := bestTangent L flt_max d0) in *.
  assert (NULL : dlen2 t = 0 -> forall a b l1 l2 h len, headings p t = [a; b; p] -> ~ describes origin p r a b l1 l2 h len).
  { intros z a b l1 l2 h len e (cp&sa&_). destruct (headings_null p t z) as (a'&b'&e'&hx&hy&ht).
    rewrite e in e'. injection e' as <- <-. rewrite <- hx, <- hy in cp. rewrite ht in sa.
    destruct (cos_sin_same 0 h sa) as [ec es]. rewrite cos_0 in ec. rewrite sin_0 in es.
    exact (no_null_path p r l1 l2 (pose_x a) (pose_y a) h len hr hd ec es cp). }
  destruct (headings_path p t) as (a&b&e&ax&ay&bx&by_&sa&sb). cbv zeta in sa, sb.
  exists a, b. split; [rewrite e; reflexivity|].
  assert (FP : 0 < @flt_max R RScalar) by (unfold flt_max; cbn [s_ofZ RScalar]; apply IZR_lt; reflexivity).
  split.
  - intros (l1&l2&h&len&ds).
    assert (T : exists u, In u L /\ dlen2 u < @flt_max R RScalar).
    { destruct (best_dec L (@flt_max R RScalar)) as [all|ex]; [|exact ex]. exfalso.
      assert (z : dlen2 t = 0) by (rewrite (B0 all); unfold d0, dlen2; cbn; ring).
      exact (NULL z a b l1 l2 h len e ds). }
    destruct (B1 T) as (it&lt&min).
    split.
    + intros (k1&k2&x1&y1&x2&y2&h'&cp). apply csc_length in cp.
      assert (z : dlen2 t = 0).
      { generalize (min _ (IL k1 k2)). rewrite LEN, <- cp. unfold dlen2.
        generalize (Rle_0_sqr (dt_x (fst t) - dt_x (snd t))) (Rle_0_sqr (dt_y (fst t) - dt_y (snd t))). unfold Rsqr. lra. }
      exact (NULL z a b l1 l2 h len e ds).
    + exists len. destruct ds as (cp&_). split; [do 7 eexists; exact cp|].
      destruct cp as (_&e1&e2&_). rewrite ax, bx in e1. rewrite ay, by_ in e2.
      assert (len * len = dlen2 t).
      { unfold dlen2. rewrite e1, e2. transitivity (len * len * (cos h * cos h + sin h * sin h)); [rewrite cs2; ring|ring]. }
      lra.
  - intros (nz&len&(k1&k2&x1&y1&x2&y2&h'&cp)&small). apply csc_length in cp. rewrite <- LEN in cp.
    destruct B1 as (it&lt&min); [exists (tang p r k1 k2); split; [apply IL|lra]|].
    destruct (LI t it) as (l1&l2&et).
    assert (POS : (if Bool.eqb l1 l2 then 0 else 4 * r * r) < cdist2 p r l1 l2).
    { generalize (Q l1 l2). destruct (Bool.eqb l1 l2) eqn:eb; [nra|]. intro q.
      destruct (Req_dec (cdist2 p r l1 l2) (4 * r * r)) as [e4|n4]; [|lra].
      exfalso. apply nz. exact (touch_path p r l1 l2 hr eb e4). }
    destruct (tang_spec0 p r l1 l2 hr0 POS) as (_&_&_&_&path). cbv zeta in path. rewrite <- et in path.
    exists l1, l2. do 2 eexists. split; [rewrite ax, ay, bx, by_; exact path|]. split; assumption.
Qed.


Lemma C34_shortest_proof : forall (p : Pose2D R) (r : R) a b l1 l2 h len, 0 < r ->
  getDubinsSolutions p r = Ok [a; b; p] -> describes (mkPose2D 0 0 0) p r a b l1 l2 h len ->
  0 < len /\ forall len', segment_length (mkPose2D 0 0 0) p r len' -> len <= len'.
Proof.
  intros p r a b l1 l2 h len hr g ds. change (mkPose2D 0 0 0) with origin in *.
  assert (hd : 4 * r <= dnorm p).
  { destruct (Rlt_dec (dnorm p) (4 * r)) as [c|c]; [|lra].
    destruct (C34_throws_proof p r) as [T _]. apply T in c. rewrite c in g. discriminate. }
  destruct (C34_path_exact_proof p r hr hd) as (a'&b'&g'&X). rewrite g in g'. injection g' as <- <-.
  destruct X as [X _]. destruct X as (nz&_); [eauto|].
  assert (hr0 : 0 <= r) by lra. 
  assert (Q : forall k1 k2, 4 * r * r <= cdist2 p r k1 k2).
  { intros k1 k2. destruct (cdist_bounds p r k1 k2 hr0) as [q _]; nra. }
  rewrite solutions_eq in g by exact hd.
  assert (inj : forall (A : Type) (u v : A), Ok u = Ok v -> u = v) by (intros A u v k; injection k; auto). apply inj in g.
  set (L := dubinsTangents p r) in *. set (d0 := (mkTangent 0 0 false, mkTangent 0 0 false)) in *.
  assert (IL : forall k1 k2, In (tang p r k1 k2) L) by (intros [] []; unfold L; rewrite tangents_eq; cbn; tauto).
  destruct (best_spec L flt_max d0 (best_dec _ _)) as [B0 B1]. cbv zeta in *.
  destruct ds as (cp&sa&_). assert (l0 : 0 <= len) by exact (proj1 cp).
  assert (ln : len <> 0) by (intro z; subst len; apply nz; do 7 eexists; exact cp).
  split; [lra|].
  set (t := bestTangent L flt_max d0) in *.
  destruct (headings_path p t) as (a'&b'&e&ax&ay&bx&by_&_). rewrite e in g. injection g as <- <-.
  assert (LT : len * len = dlen2 t).
  { destruct cp as (_&e1&e2&_). rewrite ax, bx in e1. rewrite ay, by_ in e2.
    unfold dlen2. rewrite e1, e2. transitivity (len * len * (cos h * cos h + sin h * sin h)); [rewrite cs2; ring|ring]. }
  destruct B1 as (_&_&min).
  { destruct (best_dec L (@flt_max R RScalar)) as [all|ex]; [|exact ex]. exfalso.
    assert (z : dlen2 t = 0) by (rewrite (B0 all); unfold d0, dlen2; cbn; ring). rewrite z in LT. apply ln. nra. }
  intros len' (k1&k2&x1&y1&x2&y2&h'&cp'). assert (l0' : 0 <= len') by exact (proj1 cp').
  assert (E := csc_length _ _ _ _ _ _ _ _ _ _ cp').
  destruct (Rle_dec len len') as [|c]; [assumption|exfalso].
  assert (D : dlen2 (tang p r k1 k2) = cdist2 p r k1 k2 - (if Bool.eqb k1 k2 then 0 else 4 * r * r)).
  { assert (len' <> 0) by (intro z; subst len'; apply nz; do 7 eexists; exact cp').
    destruct (tang_spec0 p r k1 k2 hr0) as [e' _]; [|exact e'].
    assert (0 < len' * len') by nra. lra. }
  generalize (min _ (IL k1 k2)). rewrite D, <- E, <- LT. nra.
Qed.


Lemma C34_turn_sign_exact_proof : forall (p : Pose2D R) (r : R), 0 < r ->
  4 * r <= sqrt (pose_x p * pose_x p + pose_y p * pose_y p) -> - PI <= pose_theta p <= PI ->
  let start := mkPose2D 0 0 0 in
  ~ segment_length start p r 0 -> (exists len, segment_length start p r len /\ len * len < (2 ^ 24 - 1) * 2 ^ 104) ->
  exists l1 l2 a b h len, getDubinsSolutions p r = Ok [a; b; p] /\
    describes start p r a b l1 l2 h len /\ - PI < h <= PI /\
    (l1 = true -> 0 <= pose_theta a <= 2 * PI) /\
    (l1 = false -> (- (2 * PI) <= pose_theta a <= 0 <-> h <= 0)) /\
    (l2 = false -> - (2 * PI) <= pose_theta p - pose_theta b <= 0) /\
    (l2 = true -> (0 <= pose_theta p - pose_theta b <= 2 * PI <-> h <= pose_theta p)).
Proof.
  intros p r hr hd hth start. change start with origin. clear start. intros nz (len&(k1&k2&x1&y1&x2&y2&h'&cp)&small).
  assert (hr0 : 0 <= r) by lra.
  assert (Q : forall k1 k2, 4 * r * r <= cdist2 p r k1 k2).
  { intros j1 j2. destruct (cdist_bounds p r j1 j2 hr0) as [q _]; unfold dnorm in *; nra. }
  assert (FM : @flt_max R RScalar = (2 ^ 24 - 1) * 2 ^ 104).
  { unfold flt_max. cbn [s_ofZ RScalar]. rewrite !pow_IZR, <- minus_IZR, <- mult_IZR. apply f_equal. vm_compute. reflexivity. }
  rewrite <- FM in small.
  assert (POS : forall l1 l2, (if Bool.eqb l1 l2 then 0 else 4 * r * r) < cdist2 p r l1 l2).
  { intros l1 l2. generalize (Q l1 l2). destruct (Bool.eqb l1 l2) eqn:eb; [nra|]. intro q.
    destruct (Req_dec (cdist2 p r l1 l2) (4 * r * r)) as [e4|n4]; [|lra].
    exfalso. apply nz. exact (touch_path p r l1 l2 hr eb e4). }
  apply csc_length in cp.
  assert (IL : forall k1 k2, In (tang p r k1 k2) (dubinsTangents p r)) by (intros [] []; rewrite tangents_eq; cbn; tauto).
  destruct (best_spec (dubinsTangents p r) flt_max (mkTangent 0 0 false, mkTangent 0 0 false) (best_dec _ _)) as [_ B1]. cbv zeta in *.
  destruct B1 as (it&_&_).
  { exists (tang p r k1 k2). split; [apply IL|]. destruct (tang_spec0 p r k1 k2 hr0 (POS k1 k2)) as [e _]. cbv zeta in e. lra. }
  rewrite solutions_eq by exact hd.
  set (t := bestTangent _ _ _) in *. clearbody t.
  assert (exists l1 l2, t = tang p r l1 l2) as (l1&l2&et).
  { rewrite tangents_eq in it. destruct it as [e|[e|[e|[e|[]]]]]; rewrite <- e; eauto. }
  destruct (tang_spec0 p r l1 l2 hr0 (POS l1 l2)) as (_&T2&T3&_&T5). cbv zeta in *. rewrite <- et in *. clear et it.
  destruct (headings_path p t) as (a&b&e&ax&ay&bx&by_&sa&sb). cbv zeta in *.
  exists l1, l2, a, b. do 2 eexists. rewrite e. split; [reflexivity|].
  split; [split; [rewrite ax, ay, bx, by_; exact T5|split; eassumption]|].
  destruct t as [t1 t2]. cbn [fst snd] in *. unfold headings in e. rewrite T2, T3 in e.
  generalize (Ratan2_range (dt_y t2 - dt_y t1) (dt_x t2 - dt_x t1)).
  set (h := Ratan2 (dt_y t2 - dt_y t1) (dt_x t2 - dt_x t1)) in *. intro hh. split; [lra|].
  injection e as <- <-. cbn [pose_x pose_y pose_theta].
  split; [|split; [|split]]; intros ->.
  - destruct (Rltb_spec h 0); lra.
  - destruct (Rltb_spec 0 h); lra.
  - destruct (Rltb_spec 0 (pose_theta p - h)); lra.
  - destruct (Rltb_spec (pose_theta p - h) 0); lra.
Qed.


Lemma C34_turn_sign_refuted_proof :
  let p := mkPose2D (-49/8) (-1) 0 in
  exists a b h len, getDubinsSolutions p 1 = Ok [a; b; p] /\
    csc_path (mkPose2D 0 0 0) p 1 false true (pose_x a) (pose_y a) (pose_x b) (pose_y b) h len /\
    2 * PI < pose_theta a /\ pose_theta p - pose_theta b < - (2 * PI).
Proof.
  cbv zeta. set (p := mkPose2D (-49/8) (-1) 0).
  assert (N : 6 < dnorm p < 7).
  { unfold dnorm, p. cbn [pose_x pose_y]. split.
    - replace 6 with (sqrt (6 * 6)) by (apply sqrt_square; lra). apply sqrt_lt_1; lra.
    - replace 7 with (sqrt (7 * 7)) by (apply sqrt_square; lra). apply sqrt_lt_1; lra. }
  assert (H19 : 9 <= 10 ^ 19) by (rewrite pow_IZR; apply IZR_le; vm_compute; discriminate).
  destruct (chosen p 1) as [l1 [l2 [e m]]]; try lra.
  assert (V : forall k1 k2, dlen2 (tang p 1 k1 k2) = 49/8 * (49/8) + match k1, k2 with true, true => 1 | true, false => 5 | false, true => -3 | false, false => 1 end).
  { intros k1 k2. assert (C : cdist2 p 1 k1 k2 = 49/8 * (49/8) + match k1, k2 with true, true => 1 | true, false => 9 | false, true => 1 | false, false => 1 end).
    { unfold cdist2, cT, cS, p. cbn [p2_x p2_y pose_x pose_y pose_theta]. rewrite sin_0, cos_0. destruct k1, k2; unfold side_sign; lra. }
    destruct (tang_spec p 1 k1 k2) as [E _]; [lra| |].
    - rewrite C. destruct k1, k2; lra.
    - cbv zeta in E. rewrite E, C. destruct k1, k2; cbn [Bool.eqb]; lra. }
  assert (L : l1 = false /\ l2 = true).
  { generalize (m false true). rewrite !V. destruct l1, l2; intro; split; auto; lra. }
  destruct L as [-> ->].
  assert (Q : 4 * 1 * 1 < cdist2 p 1 false true).
  { destruct (cdist_bounds p 1 false true) as [b _]; try lra. nra. }
  destruct (tang_spec p 1 false true Rle_0_1 Q) as [T1 [T2 [T3 [T4 T5]]]]. cbv zeta in *.
  rewrite solutions_eq by lra. rewrite e.
  destruct (tang p 1 false true) as [t1 t2]. cbn [fst snd] in *. unfold headings. rewrite T2, T3.
  generalize (Ratan2_range (dt_y t2 - dt_y t1) (dt_x t2 - dt_x t1)).
  set (h := Ratan2 (dt_y t2 - dt_y t1) (dt_x t2 - dt_x t1)) in *. intro hh.
  assert (hp : 0 < h).
  { destruct (Rlt_dec 0 h) as [c|c]; [exact c|]. exfalso.
    destruct T5 as [P0 [P1 [P2 [P3 P4]]]]. unfold turn_centre, origin, p in P3, P4.
    cbn [pose_x pose_y pose_theta] in *. rewrite sin_0, cos_0 in *. unfold side_sign in *.
    injection P3 as P5 P6. injection P4 as P7 P8.
    set (len := sqrt _) in *.
    assert (sin h <= 0).
    { destruct (Req_dec h 0) as [z|z]; [rewrite z, sin_0; lra|]. left.
      rewrite <- (Ropp_involutive (sin h)), <- sin_neg. apply Ropp_lt_gt_0_contravar. apply sin_gt_0; lra. }
    assert (len * sin h <= 0) by nra. assert (1/2 <= cos h) by lra. assert (0 <= len * cos h) by nra. lra. }
  do 2 eexists. exists h. eexists. split; [reflexivity|]. cbn [pose_x pose_y pose_theta].
  split; [exact T5|]. rewrite Rltb_true by lra. unfold p. cbn [pose_theta]. rewrite Rltb_true by lra. split; lra.
Qed.


Lemma C34_touching_refuted_proof :
  let p := mkPose2D 0 4 0 in
  getDubinsSolutions p 1 = Ok [mkPose2D 0 2 0; mkPose2D 0 2 0; p] /\
  (forall l1 l2 len, ~ csc_path (mkPose2D 0 0 0) p 1 l1 l2 0 2 0 2 0 len) /\
  csc_path (mkPose2D 0 0 0) p 1 true false 0 2 0 2 PI 0.
Proof.
  cbv zeta. set (p := mkPose2D 0 4 0).
  assert (N : dnorm p = 4). { unfold dnorm, p. cbn [pose_x pose_y]. apply sqrt_unique'; lra. }
  assert (C : forall k1 k2, cdist2 p 1 k1 k2 = match k1, k2 with true, true => 16 | true, false => 4 | false, true => 36 | false, false => 16 end).
  { unfold cdist2, cT, cS, p. cbn [p2_x p2_y pose_x pose_y pose_theta]. rewrite sin_0, cos_0. intros [] []; unfold side_sign; lra. }
  assert (S4 : sqrt 4 = 2) by (apply sqrt_unique'; lra).
  assert (TF : tang p 1 true false = (mkTangent 0 2 true, mkTangent 0 2 false)).
  { unfold tang, computeTangent, cT, cS, p, side_sign. cbn [Bool.eqb p2_x p2_y pose_x pose_y pose_theta]. rsimp. rewrite sin_0, cos_0.
    match goal with |- context[1 * 2 / sqrt ?x] => replace x with 4 by lra end. rewrite S4.
    replace (1 - 1 * 2 / 2 * (1 * 2 / 2)) with 0 by lra. rewrite sqrt_0. f_equal; f_equal; lra. }
  assert (V : forall k1 k2, (k1, k2) <> (true, false) -> 0 < dlen2 (tang p 1 k1 k2)).
  { intros k1 k2 n. destruct (tang_spec p 1 k1 k2) as [E _]; [lra| |].
    - rewrite C. destruct k1, k2; try congruence; lra.
    - cbv zeta in E. rewrite E, C. destruct k1, k2; try congruence; cbn [Bool.eqb]; lra. }
  split; [|split].
  - rewrite solutions_eq by lra. rewrite tangents_eq.
    set (L := [tang p 1 true true; tang p 1 true false; tang p 1 false true; tang p 1 false false]).
    assert (Z : dlen2 (tang p 1 true false) = 0) by (rewrite TF; unfold dlen2; cbn; ring).
    destruct (best_spec L flt_max (mkTangent 0 0 false, mkTangent 0 0 false) (best_dec _ _)) as [_ B].
    destruct B as [B1 [_ B3]].
    { exists (tang p 1 true false). split; [right; left; reflexivity|]. rewrite Z. unfold flt_max. cbn [s_ofZ RScalar]. apply IZR_lt. reflexivity. }
    specialize (B3 (tang p 1 true false) (or_intror (or_introl eq_refl))). rewrite Z in B3.
    set (b := bestTangent L flt_max (mkTangent 0 0 false, mkTangent 0 0 false)) in *.
    assert (E : b = tang p 1 true false).
    { destruct B1 as [e|[e|[e|[e|[]]]]]; [exfalso| |exfalso|exfalso].
      - generalize (V true true). rewrite e. intro v. assert (0 < dlen2 b) by (apply v; congruence). lra.
      - symmetry. exact e.
      - generalize (V false true). rewrite e. intro v. assert (0 < dlen2 b) by (apply v; congruence). lra.
      - generalize (V false false). rewrite e. intro v. assert (0 < dlen2 b) by (apply v; congruence). lra. }
    rewrite E, TF. unfold headings. cbn [dt_x dt_y dt_left]. rewrite !Rminus_eq_0, Ratan2_00. unfold p. cbn [pose_theta].
    rewrite Rminus_0_r, Rltb_false by lra. reflexivity.
  - intros l1 l2 len [_ [_ [_ [P _]]]]. unfold turn_centre in P. cbn [pose_x pose_y pose_theta] in P.
    apply (f_equal (@p2_y R)) in P. cbn [p2_y] in P. rewrite cos_0 in P. destruct l1; unfold side_sign in P; lra.
  - unfold csc_path, turn_centre, p, side_sign. cbn [pose_x pose_y pose_theta]. rewrite sin_PI, cos_PI, sin_0, cos_0.
    split; [lra|]. split; [lra|]. split; [lra|]. split; apply mkPosition2D_eq; lra.
Qed.


Lemma C34_overflow_refuted_proof :
  let p := mkPose2D (10 ^ 20) 0 0 in
  getDubinsSolutions p 1 = Ok [mkPose2D 0 0 0; mkPose2D 0 0 0; p] /\
  forall l1 l2 h len, ~ csc_path (mkPose2D 0 0 0) p 1 l1 l2 0 0 0 0 h len.
Proof.
  cbv zeta. set (p := mkPose2D (10 ^ 20) 0 0).
  assert (T : IZR (10 ^ 20) = 10 ^ 20) by (rewrite pow_IZR; reflexivity).
  assert (T0 : 100 < 10 ^ 20) by (rewrite <- T; apply IZR_lt; reflexivity).
  assert (N : dnorm p = 10 ^ 20). { unfold dnorm, p. cbn [pose_x pose_y]. apply sqrt_unique'; lra. }
  assert (C : forall k1 k2, cdist2 p 1 k1 k2 = 10 ^ 20 * 10 ^ 20 + (if Bool.eqb k1 k2 then 0 else 4)).
  { unfold cdist2, cT, cS, p. cbn [p2_x p2_y pose_x pose_y pose_theta]. rewrite sin_0, cos_0. intros [] []; unfold side_sign; cbn [Bool.eqb]; ring. }
  assert (V : forall k1 k2, @flt_max R RScalar <= dlen2 (tang p 1 k1 k2)).
  { intros k1 k2. destruct (tang_spec p 1 k1 k2) as [E _]; [lra| |].
    - rewrite C. destruct (Bool.eqb k1 k2); nra.
    - cbv zeta in E. rewrite E, C.
      assert (@flt_max R RScalar <= 10 ^ 20 * 10 ^ 20).
      { unfold flt_max. cbn [s_ofZ RScalar]. rewrite <- T, <- mult_IZR. apply IZR_le. vm_compute. discriminate. }
      destruct (Bool.eqb k1 k2); lra. }
  split.
  - rewrite solutions_eq by lra. rewrite tangents_eq.
    set (L := [tang p 1 true true; tang p 1 true false; tang p 1 false true; tang p 1 false false]).
    destruct (best_spec L flt_max (mkTangent 0 0 false, mkTangent 0 0 false) (best_dec _ _)) as [B _].
    cbv zeta in B. rewrite B.
    + unfold headings. cbn [dt_x dt_y dt_left]. rewrite !Rminus_eq_0, Ratan2_00. unfold p. cbn [pose_theta].
      rewrite Rminus_0_r, Rltb_false by lra. reflexivity.
    + intros t [<-|[<-|[<-|[<-|[]]]]]; apply V.
  - intros l1 l2 h len [_ [_ [_ [_ P]]]]. unfold turn_centre, p in P. cbn [pose_x pose_y pose_theta] in P.
    apply (f_equal (@p2_x R)) in P. cbn [p2_x] in P. rewrite sin_0 in P. generalize (SIN_bound h). unfold side_sign in P. destruct l2; lra.
Qed.
