(** * Lemmas for Props_Float *)


From Coq Require Import Reals ZArith List Bool Lra Lia Psatz.
Import ListNotations.
From Flocq Require Import Core.Core IEEE754.BinarySingleNaN.
From Verif Require Import Scalar RInst RLemmas Model_Base Model_Vec Model_Rigid F32 Spec_Geom Spec_Round.
From Verif Require Import Proofs_Geom F32Err NormLemmas Proofs_Round.
Local Open Scope R_scope.

Lemma tmat_place : forall M p, meq (tmat (place M p)) M.
Proof. intros M p i j hi hj. destruct i as [|[|[|i]]]; [| | |lia]; destruct j as [|[|[|j]]]; try lia; reflexivity. Qed.
Lemma tpos_place : forall M p, tpos (place M p) = p.
Proof. intros M [[a b] c]. reflexivity. Qed.
Lemma place_ext : forall M N p, meq M N -> place M p = place N p.
Proof. intros M N p h. unfold place. rewrite !h by lia. reflexivity. Qed.

Lemma meq_proper : forall A B, meq A B -> proper_rotation A -> proper_rotation B.
Proof.
  intros A B h [h1 h2]. split.
  - intros i j hi hj. rewrite <- (h1 i j hi hj). unfold mmul, mtrans, sum3. rewrite !h by lia. reflexivity.
  - rewrite <- h2. unfold mdet. rewrite !h by lia. reflexivity.
Qed.
Lemma rigid_place : forall M p, proper_rotation M -> rigid (place M p).
Proof. intros M p h. unfold rigid. apply meq_proper with (2 := h). intros i j hi hj. symmetry. now apply tmat_place. Qed.

Lemma proper_mul : forall A B, proper_rotation A -> proper_rotation B -> proper_rotation (mmul A B).
Proof.
  intros A B hA hB. pose proof (rigid_mul (place A (0, 0, 0)) (place B (0, 0, 0)) (rigid_place A _ hA) (rigid_place B _ hB)) as h.
  apply meq_proper with (2 := h). intros i j hi hj. rewrite tmat_mul by assumption.
  unfold mmul, sum3. rewrite !tmat_place by lia. reflexivity.
Qed.
Lemma RX_proper : forall a, proper_rotation (RX a).
Proof.
  intros a. pose proof (cs2 a) as h. split.
  - intros i j hi hj. destruct i as [|[|[|i]]]; [| | |lia]; destruct j as [|[|[|j]]]; try lia; unfold mmul, mtrans, RX, of_rows, mident, sum3; cbn; lra.
  - unfold mdet, RX, of_rows. cbn. lra.
Qed.
Lemma RY_proper : forall a, proper_rotation (RY a).
Proof.
  intros a. pose proof (cs2 a) as h. split.
  - intros i j hi hj. destruct i as [|[|[|i]]]; [| | |lia]; destruct j as [|[|[|j]]]; try lia; unfold mmul, mtrans, RY, of_rows, mident, sum3; cbn; lra.
  - unfold mdet, RY, of_rows. cbn. lra.
Qed.
Lemma RZ_proper : forall a, proper_rotation (RZ a).
Proof.
  intros a. pose proof (cs2 a) as h. split.
  - intros i j hi hj. destruct i as [|[|[|i]]]; [| | |lia]; destruct j as [|[|[|j]]]; try lia; unfold mmul, mtrans, RZ, of_rows, mident, sum3; cbn; lra.
  - unfold mdet, RZ, of_rows. cbn. lra.
Qed.

Lemma sq_abs : forall x e, Rabs x <= e -> x * x <= e * e.
Proof. intros x e h. apply Rabs_le_inv in h. nra. Qed.

Lemma C68_rotations_proof : forall (L : libm32) (e : R) (x : f32), accurate L e -> is_finite x = true ->
  close (2 * e) (@t_fromRotX f32 (F32Scalar L) x) (place (RX (val x)) (0, 0, 0)) /\
  close (2 * e) (@t_fromRotY f32 (F32Scalar L) x) (place (RY (val x)) (0, 0, 0)) /\
  close (2 * e) (@t_fromRotZ f32 (F32Scalar L) x) (place (RZ (val x)) (0, 0, 0)).
Proof.
  intros L e x ha hx. destruct (ha x hx) as [fc [ec [fs es]]].
  assert (e0 : 0 <= e) by (apply Rle_trans with (2 := ec); apply Rabs_pos).
  destruct one_rd as [f1 v1]. destruct zero_rd as [f0 v0]. destruct (opp_rd _ fs) as [fo vo].
  assert (q1 : (val (l_cos L x) - cos (val x)) * (val (l_cos L x) - cos (val x)) <= e * e) by now apply sq_abs.
  assert (q2 : (val (l_sin L x) - sin (val x)) * (val (l_sin L x) - sin (val x)) <= e * e) by now apply sq_abs.
  unfold val in q1, q2.
  assert (K : forall a r, finite_t a -> proper_rotation r -> tpos (tval a) = (0, 0, 0) ->
    sum3 (fun i => sum3 (fun j => (tmat (tval a) i j - r i j) * (tmat (tval a) i j - r i j))) <= 2 * e * (2 * e) ->
    close (2 * e) a (place r (0, 0, 0))).
  { intros a r h1 h2 h3 h4. split; [exact h1|]. split; [now apply rigid_place|]. split; [|now rewrite tpos_place].
    apply fro_le; [lra|]. exact h4. }
  repeat split; try (apply K).
  all: try (unfold finite_t, coefs, t_fromRotX, t_fromRotY, t_fromRotZ;
    cbn [t_r1c1 t_r1c2 t_r1c3 t_r1c4 t_r2c1 t_r2c2 t_r2c3 t_r2c4 t_r3c1 t_r3c2 t_r3c3 t_r3c4 s_neg s_cos s_sin s_ofZ F32Scalar];
    repeat apply Forall_cons; try apply Forall_nil; assumption).
  all: try apply RX_proper; try apply RY_proper; try apply RZ_proper.
  all: unfold tval, tpos, tmat, RX, RY, RZ, of_rows, sum3, t_fromRotX, t_fromRotY, t_fromRotZ, val.
  all: cbn [t_r1c1 t_r1c2 t_r1c3 t_r1c4 t_r2c1 t_r2c2 t_r2c3 t_r2c4 t_r3c1 t_r3c2 t_r3c3 t_r3c4 s_neg s_cos s_sin s_ofZ F32Scalar].
  all: rewrite ?vo, ?v0, ?v1; try reflexivity; lra.
Qed.


Lemma mulAssign_mul : forall L a b, @t_mulAssign f32 (F32Scalar L) a b = @t_mul f32 (F32Scalar L) a b.
Proof. intros L [] []. reflexivity. Qed.

Lemma close_fro : forall d a r, close d a r -> fro (mdiff (tmat (tval a)) (tmat r)) <= d.
Proof. intros d a r h. apply h. Qed.

Lemma rot3 : forall L e wx wy wz, accurate L e -> e <= / 100 -> is_finite wx = true -> is_finite wy = true -> is_finite wz = true ->
  let a := @t_from3DRotation f32 (F32Scalar L) wx wy wz in
  finite_t a /\ fro (mdiff (tmat (tval a)) (mmul (RZ (val wz)) (mmul (RY (val wy)) (RX (val wx))))) <= 7 * e + bpow radix2 (-19).
Proof.
  intros L e wx wy wz ha he hx hy hz a.
  destruct (C68_rotations_proof L e wx ha hx) as [cX _]. destruct (C68_rotations_proof L e wy ha hy) as [_ [cY _]]. destruct (C68_rotations_proof L e wz ha hz) as [_ [_ cZ]].
  assert (e0 : 0 <= e) by (destruct (ha wx hx) as [_ [h _]]; apply Rle_trans with (2 := h); apply Rabs_pos).
  assert (h19 : 32 * ulp1 = bpow radix2 (-19)) by (rewrite u_pow; change 32 with (bpow radix2 5); rewrite <- bpow_plus; reflexivity).
  assert (n0 : vnorm (0, 0, 0) <= 0) by (apply vnorm_le; [lra|]; unfold vdot, vx, vy, vz; cbn [fst snd]; lra).
  assert (b1 : 100 <= bpow radix2 50) by (apply Rle_trans with (bpow radix2 7); [cbn; lra|apply bpow_le; lia]).
  unfold a, t_from3DRotation. cbv zeta. rewrite !mulAssign_mul.
  set (Z := @t_fromRotZ f32 (F32Scalar L) wz) in *. set (Y := @t_fromRotY f32 (F32Scalar L) wy) in *. set (X := @t_fromRotX f32 (F32Scalar L) wx) in *.
  set (rZ := place (RZ (val wz)) (0, 0, 0)) in *. set (rY := place (RY (val wy)) (0, 0, 0)) in *. set (rX := place (RX (val wx)) (0, 0, 0)) in *.
  assert (pos0 : forall M, vnorm (tpos (place M (0, 0, 0))) <= 0) by (intro M; rewrite tpos_place; exact n0).
  assert (g1 : vnorm (vsub (tpos (tval Z)) (tpos rZ)) <= 0).
  { destruct cZ as [_ [_ [_ h]]]. rewrite h. apply vnorm_le; [lra|]. unfold vdot, vsub, vx, vy, vz; cbn [fst snd]; lra. }
  assert (E1 : 2 * e <= / 4) by lra. assert (E2 : 2 * e <= / 5) by lra. assert (B0 : 0 + 0 <= bpow radix2 50) by lra. assert (B1 : 0 <= bpow radix2 50) by lra.
  destruct (step L Z rZ Y rY (2 * e) (2 * e) 0 0 0 (proj1 cZ) (proj1 (proj2 cZ)) (close_fro _ _ _ cZ) E1 cY E2 (pos0 _) g1 (pos0 _) B0 B1) as [j1 [j2 [j3 [j4 j5]]]].
  assert (E3 : 2 * e + 5 / 4 * (2 * e) + 16 * ulp1 <= / 4) by (unfold ulp1; lra).
  pose proof (bpow_gt_0 radix2 (-147)) as z0.
  assert (z1 : 3 * bpow radix2 (-147) <= / 4 * ulp1) by apply pos_small.
  assert (B2 : 0 + 0 + (0 + 2 * e * 0 + 5 * ulp1 * (2 * 0 + 0 + 0) + 2 * bpow radix2 (-147)) <= bpow radix2 50) by (unfold ulp1 in *; lra).
  destruct (step L _ _ X rX (2 * e) _ _ 0 _ j1 j2 j3 E3 cX E2 (pos0 _) j5 j4 B2 B1) as [k1 [k2 [k3 _]]].
  split; [exact k1|]. apply Rle_trans with (2 * e + 5 / 4 * (2 * e) + 16 * ulp1 + 5 / 4 * (2 * e) + 16 * ulp1); [|lra].
  apply Rle_trans with (2 := k3). apply Req_le, fro_ext. intros i j hi hj. unfold mdiff. f_equal. f_equal.
  rewrite (tmat_mul _ rX i j hi hj). unfold mmul, sum3. rewrite !(tmat_mul rZ rY) by lia. unfold mmul, sum3.
  unfold rX, rY, rZ. rewrite !tmat_place by lia. ring.
Qed.

Lemma set_close : forall d (a : Transform f32) M x y z, finite_t a -> proper_rotation M -> fro (mdiff (tmat (tval a)) M) <= d ->
  is_finite x = true -> is_finite y = true -> is_finite z = true ->
  close d (set_t_r3c4 z (set_t_r2c4 y (set_t_r1c4 x a))) (place M (val x, val y, val z)).
Proof.
  intros d a M x y z k1 h k2 f1 f2 f3. destruct a as [a11 a12 a13 a14 a21 a22 a23 a24 a31 a32 a33 a34].
  split; [|split; [|split]].
  - unfold finite_t, coefs in *.
    cbn [t_r1c1 t_r1c2 t_r1c3 t_r1c4 t_r2c1 t_r2c2 t_r2c3 t_r2c4 t_r3c1 t_r3c2 t_r3c3 t_r3c4 set_t_r1c4 set_t_r2c4 set_t_r3c4] in *.
    fl k1. repeat apply Forall_cons; try apply Forall_nil; assumption.
  - now apply rigid_place.
  - apply Rle_trans with (2 := k2). apply Req_le, fro_ext. intros i j hi hj. unfold mdiff. rewrite (tmat_place _ _ i j hi hj). reflexivity.
  - rewrite tpos_place. reflexivity.
Qed.

Lemma pos6_unfold : forall L x y z wx wy wz, @t_fromPosition6 f32 (F32Scalar L) x y z wx wy wz =
  set_t_r3c4 z (set_t_r2c4 y (set_t_r1c4 x (@t_from3DRotation f32 (F32Scalar L) wx wy wz))).
Proof. reflexivity. Qed.
Local Opaque t_from3DRotation t_fromPosition6.

Lemma C68_pose_proof : forall (L : libm32) (e : R) (p : Position6D f32), accurate L e -> e <= / 100 -> finite_pose p ->
  close (7 * e + bpow radix2 (-19))
    (@t_fromPosition6 f32 (F32Scalar L) (p6_x p) (p6_y p) (p6_z p) (p6_wx p) (p6_wy p) (p6_wz p)) (pose_exact p).
Proof.
  intros L e p ha he [f1 [f2 [f3 [f4 [f5 f6]]]]].
  destruct (rot3 L e _ _ _ ha he f4 f5 f6) as [k1 k2]. rewrite pos6_unfold. unfold pose_exact.
  apply set_close; try assumption.
  apply proper_mul; [apply RZ_proper|]. apply proper_mul; [apply RY_proper|apply RX_proper].
Qed.


Lemma C68_kinematics_proof : forall (L : libm32) (e M : R) (l : list (Position6D f32)) (w : vec3),
  accurate L e -> 0 <= e <= / 100 -> Forall finite_pose l ->
  Forall (fun p => vnorm (tpos (pose_exact p)) <= M) l -> 0 <= M <= bpow radix2 30 ->
  let n := INR (length l) in let k := 9 * e + bpow radix2 (-18) in n * k <= / 4 ->
  let F := @product f32 (F32Scalar L) (map (fun p => @t_fromPosition6 f32 (F32Scalar L) (p6_x p) (p6_y p) (p6_z p) (p6_wx p) (p6_wy p) (p6_wz p)) l) in
  let G := product (map pose_exact l) in
  finite_t F /\ rigid G /\
  vnorm (vsub (motion (tval F) w) (motion G w)) <= n * k * (vnorm w + n * M) + n * bpow radix2 (-145).
Proof.
  intros L e M l w ha [he0 he] hf hM hMM n k hn F G.
  set (d := 7 * e + bpow radix2 (-19)).
  assert (h18 : 64 * ulp1 = bpow radix2 (-18)) by (rewrite u_pow; change 64 with (bpow radix2 6); rewrite <- bpow_plus; reflexivity).
  assert (h19 : 32 * ulp1 = bpow radix2 (-19)) by (rewrite u_pow; change 32 with (bpow radix2 5); rewrite <- bpow_plus; reflexivity).
  assert (h20 : 16 * ulp1 = bpow radix2 (-20)) by (rewrite u_pow; change 16 with (bpow radix2 4); rewrite <- bpow_plus; reflexivity).
  assert (hk : 5 / 4 * d + bpow radix2 (-20) <= k) by (unfold d, k; rewrite <- h18, <- h19, <- h20; unfold ulp1; lra).
  assert (d0 : 0 <= d) by (unfold d; rewrite <- h19; unfold ulp1; lra).
  assert (hl : Forall2 (close d) (map (fun p => @t_fromPosition6 f32 (F32Scalar L) (p6_x p) (p6_y p) (p6_z p) (p6_wx p) (p6_wy p) (p6_wz p)) l) (map pose_exact l)).
  { clear hM hn F G n. induction hf as [|p l hp hl IH]; [constructor|]. cbn [map]. constructor; [|exact IH]. now apply C68_pose_proof. }
  assert (hM' : Forall (fun r => vnorm (tpos r) <= M) (map pose_exact l)) by (apply Forall_map; exact hM).
  assert (n0 : 0 <= n) by apply pos_INR.
  assert (hn' : INR (length (map (fun p => @t_fromPosition6 f32 (F32Scalar L) (p6_x p) (p6_y p) (p6_z p) (p6_wx p) (p6_wy p) (p6_wz p)) l)) * (5 / 4 * d + bpow radix2 (-20)) <= / 4).
  { rewrite map_length. fold n. apply Rle_trans with (2 := hn). now apply Rmult_le_compat_l. }
  destruct (C67_chain_proof L _ _ d M hl hM' d0 hMM hn') as [c1 [c2 _]].
  pose proof (C67_points_proof L _ _ d M w hl hM' d0 hMM hn') as c3. rewrite map_length in c3. fold n F G in c1, c2, c3.
  split; [exact c1|]. split; [exact c2|]. apply Rle_trans with (1 := c3). apply Rplus_le_compat_r.
  apply Rmult_le_compat_r; [|now apply Rmult_le_compat_l].
  pose proof (vnorm_pos w). assert (0 <= n * M) by (apply Rmult_le_pos; lra). lra.
Qed.


(** ** isTransform *)

Lemma vdot_near : forall a b q r E, vnorm q = 1 -> vnorm r = 1 -> vnorm (vsub a q) <= E -> vnorm (vsub b r) <= E ->
  Rabs (vdot a b - vdot q r) <= 2 * E + E * E.
Proof.
  intros a b q r E hq hr ha hb.
  replace (vdot a b - vdot q r) with (vdot (vsub a q) r + vdot q (vsub b r) + vdot (vsub a q) (vsub b r))
    by (unfold vdot, vsub, vx, vy, vz; cbn [fst snd]; ring).
  pose proof (vdot_cs (vsub a q) r) as h1. pose proof (vdot_cs q (vsub b r)) as h2. pose proof (vdot_cs (vsub a q) (vsub b r)) as h3.
  rewrite hr in h1. rewrite hq in h2.
  assert (h4 : vnorm (vsub a q) * vnorm (vsub b r) <= E * E) by (apply Rmult_le_compat; try assumption; apply vnorm_pos).
  apply Rle_trans with (1 := Rabs_triang _ _). pose proof (Rabs_triang (vdot (vsub a q) r) (vdot q (vsub b r))). lra.
Qed.
Lemma vcross_le : forall u v, vnorm (vcross u v) <= vnorm u * vnorm v.
Proof.
  intros u v. apply vnorm_le; [apply Rmult_le_pos; apply vnorm_pos|].
  replace (vnorm u * vnorm v * (vnorm u * vnorm v)) with (vnorm u * vnorm u * (vnorm v * vnorm v)) by ring. rewrite !vnorm_sq.
  pose proof (Rle_0_sqr (vdot u v)) as h. unfold Rsqr in h.
  replace (vdot (vcross u v) (vcross u v)) with (vdot u u * vdot v v - vdot u v * vdot u v) by (unfold vdot, vcross, vx, vy, vz; cbn [fst snd]; ring). lra.
Qed.
Lemma row_near : forall A B i E, (i < 3)%nat -> fro (mdiff A B) <= E -> vnorm (vsub (row A i) (row B i)) <= E.
Proof.
  intros A B i E hi h. apply Rle_trans with (2 := h). apply vnorm_le; [apply fro_pos|]. rewrite fro_sq.
  destruct i as [|[|[|i]]]; [| | |lia]; unfold vdot, vsub, row, mdiff, sum3, vx, vy, vz; cbn [fst snd];
    repeat match goal with |- context [?a - ?b] => let x := fresh "x" in set (x := a - b) end; nra.
Qed.
Lemma det_near : forall A Q E, fro (mdiff A Q) <= E -> E <= / 100 ->
  vnorm (row Q 0) = 1 -> vnorm (row Q 1) = 1 -> vnorm (row Q 2) = 1 -> Rabs (mdet A - mdet Q) <= 304 / 100 * E.
Proof.
  intros A Q E h hE q0 q1 q2.
  pose proof (row_near A Q 0 E ltac:(lia) h) as d0. pose proof (row_near A Q 1 E ltac:(lia) h) as d1. pose proof (row_near A Q 2 E ltac:(lia) h) as d2.
  assert (E0 : 0 <= E) by (apply Rle_trans with (2 := h); apply fro_pos).
  set (a0 := row A 0) in *. set (a1 := row A 1) in *. set (a2 := row A 2) in *. set (r0 := row Q 0) in *. set (r1 := row Q 1) in *. set (r2 := row Q 2) in *.
  replace (mdet A - mdet Q) with (vdot (vsub a0 r0) (vcross a1 a2) + vdot r0 (vcross (vsub a1 r1) a2) + vdot r0 (vcross r1 (vsub a2 r2)))
    by (unfold mdet, a0, a1, a2, r0, r1, r2, vdot, vcross, vsub, row, vx, vy, vz; cbn [fst snd]; ring).
  assert (n1 : vnorm a1 <= 1 + E) by (pose proof (vnorm_near a1 r1); lra).
  assert (n2 : vnorm a2 <= 1 + E) by (pose proof (vnorm_near a2 r2); lra).
  pose proof (vnorm_pos a1) as p1. pose proof (vnorm_pos a2) as p2.
  pose proof (vnorm_pos (vsub a0 r0)) as z0. pose proof (vnorm_pos (vsub a1 r1)) as z1. pose proof (vnorm_pos (vsub a2 r2)) as z2.
  pose proof (vdot_cs (vsub a0 r0) (vcross a1 a2)) as h1. pose proof (vcross_le a1 a2) as h2.
  pose proof (vdot_cs r0 (vcross (vsub a1 r1) a2)) as h3. pose proof (vcross_le (vsub a1 r1) a2) as h4.
  pose proof (vdot_cs r0 (vcross r1 (vsub a2 r2))) as h5. pose proof (vcross_le r1 (vsub a2 r2)) as h6.
  rewrite q0 in h3, h5. rewrite q1 in h6.
  assert (k1 : vnorm a1 * vnorm a2 <= (1 + E) * (1 + E)) by (apply Rmult_le_compat; lra).
  assert (k1' : (1 + E) * (1 + E) <= 10201 / 10000) by nra.
  assert (k2 : vnorm (vsub a0 r0) * vnorm (vcross a1 a2) <= E * (10201 / 10000)) by (apply Rmult_le_compat; try lra; apply vnorm_pos).
  assert (k3 : vnorm (vsub a1 r1) * vnorm a2 <= E * (101 / 100)) by (apply Rmult_le_compat; lra).
  apply Rle_trans with (1 := Rabs_triang _ _). pose proof (Rabs_triang (vdot (vsub a0 r0) (vcross a1 a2)) (vdot r0 (vcross (vsub a1 r1) a2))). lra.
Qed.

(** Values up to an error *)
Definition apx (x : f32) (r e : R) : Prop := fin x /\ Rabs (v32 x - r) <= e.
Lemma apx_mul : forall x y r s a b e f, apx x r e -> apx y s f -> Rabs r <= a -> Rabs s <= b -> (a + e) * (b + f) <= huge ->
  apx (Bmult mode_NE x y) (r * s) (a * f + b * e + e * f + ulp1 * ((a + e) * (b + f)) + tiny).
Proof.
  intros x y r s a b e f [fx ex] [fy ey] ha hb hh.
  pose proof (Rabs_pos (v32 x - r)) as e0. pose proof (Rabs_pos (v32 y - s)) as f0.
  pose proof (Rabs_pos r) as r0. pose proof (Rabs_pos s) as s0.
  assert (hx : Rabs (v32 x) <= a + e) by (abs2; apply Rabs_le; lra).
  assert (hy : Rabs (v32 y) <= b + f) by (abs2; apply Rabs_le; lra).
  assert (hp : Rabs (v32 x * v32 y) <= (a + e) * (b + f)) by (rewrite Rabs_mult; apply Rmult_le_compat; try assumption; apply Rabs_pos).
  destruct (mul_rd x y fx fy) as [h1 h2]; [lra|]. split; [exact h1|]. rewrite h2.
  pose proof (rd_err (v32 x * v32 y)) as E.
  replace (rd (v32 x * v32 y) - r * s) with ((rd (v32 x * v32 y) - v32 x * v32 y) + (r * (v32 y - s) + s * (v32 x - r) + (v32 x - r) * (v32 y - s))) by ring.
  apply Rle_trans with (1 := Rabs_triang _ _).
  assert (t1 : Rabs (r * (v32 y - s)) <= a * f) by (rewrite Rabs_mult; apply Rmult_le_compat; try assumption).
  assert (t2 : Rabs (s * (v32 x - r)) <= b * e) by (rewrite Rabs_mult; apply Rmult_le_compat; try assumption).
  assert (t3 : Rabs ((v32 x - r) * (v32 y - s)) <= e * f) by (rewrite Rabs_mult; apply Rmult_le_compat; try assumption).
  assert (t4 : ulp1 * Rabs (v32 x * v32 y) <= ulp1 * ((a + e) * (b + f))) by (apply Rmult_le_compat_l; [unfold ulp1; lra|exact hp]).
  abs2. apply Rle_trans with (ulp1 * Rabs (v32 x * v32 y) + tiny + (a * f + b * e + e * f)); [|lra].
  apply Rplus_le_compat; apply Rabs_le; lra.
Qed.
Lemma apx_add : forall x y r s a b e f, apx x r e -> apx y s f -> Rabs r <= a -> Rabs s <= b -> a + b + e + f <= huge ->
  apx (Bplus mode_NE x y) (r + s) (e + f + ulp1 * (a + b + e + f) + tiny).
Proof. intros x y r s a b e f [fx ex] [fy ey] ha hb hh. exact (add_err x y r s a b e f fx fy ha hb ex ey hh). Qed.
Lemma apx_sub : forall x y r s a b e f, apx x r e -> apx y s f -> Rabs r <= a -> Rabs s <= b -> a + b + e + f <= huge ->
  apx (Bminus mode_NE x y) (r - s) (e + f + ulp1 * (a + b + e + f) + tiny).
Proof.
  intros x y r s a b e f [fx ex] [fy ey] ha hb hh.
  assert (hs : Rabs (v32 x - v32 y) <= a + b + e + f) by (abs2; apply Rabs_le; lra).
  destruct (sub_rd x y fx fy) as [h1 h2]; [lra|]. split; [exact h1|]. rewrite h2.
  pose proof (rd_err (v32 x - v32 y)) as E.
  assert (ulp1 * Rabs (v32 x - v32 y) <= ulp1 * (a + b + e + f)) by (apply Rmult_le_compat_l; [unfold ulp1; lra|exact hs]).
  abs2. apply Rabs_le. lra.
Qed.
Lemma apx_le : forall x r e e', apx x r e -> e <= e' -> apx x r e'.
Proof. intros x r e e' [h1 h2] h. split; [exact h1|]. lra. Qed.
Lemma apx_self : forall x, fin x -> apx x (v32 x) 0.
Proof. intros x h. split; [exact h|]. rewrite Rminus_diag_eq by reflexivity. rewrite Rabs_R0. lra. Qed.

Lemma apx_dot : forall x1 y1 x2 y2 x3 y3, fin x1 -> fin y1 -> fin x2 -> fin y2 -> fin x3 -> fin y3 ->
  Rabs (v32 x1) <= 102 / 100 -> Rabs (v32 y1) <= 102 / 100 -> Rabs (v32 x2) <= 102 / 100 -> Rabs (v32 y2) <= 102 / 100 -> Rabs (v32 x3) <= 102 / 100 -> Rabs (v32 y3) <= 102 / 100 ->
  apx (Bplus mode_NE (Bplus mode_NE (Bmult mode_NE x1 y1) (Bmult mode_NE x2 y2)) (Bmult mode_NE x3 y3))
      (v32 x1 * v32 y1 + v32 x2 * v32 y2 + v32 x3 * v32 y3) (10 * ulp1).
Proof.
  intros x1 y1 x2 y2 x3 y3 f1 g1 f2 g2 f3 g3 a1 b1 a2 b2 a3 b3.
  assert (B : forall x y, Rabs x <= 102 / 100 -> Rabs y <= 102 / 100 -> Rabs (x * y) <= 10404 / 10000).
  { intros x y hx hy. rewrite Rabs_mult. replace (10404 / 10000) with (102 / 100 * (102 / 100)) by field. apply Rmult_le_compat; try assumption; apply Rabs_pos. }
  pose proof (B _ _ a1 b1) as c1. pose proof (B _ _ a2 b2) as c2. pose proof (B _ _ a3 b3) as c3.
  pose proof huge_big as hb. pose proof tiny_small as ts.
  destruct (dot3_err x1 y1 x2 y2 x3 y3 f1 g1 f2 g2 f3 g3) as [h1 h2]; [lra|]. split; [exact h1|].
  apply Rle_trans with (1 := h2). unfold ulp1. lra.
Qed.
Lemma apx_triple : forall x y z, fin x -> fin y -> fin z -> Rabs (v32 x) <= 102 / 100 -> Rabs (v32 y) <= 102 / 100 -> Rabs (v32 z) <= 102 / 100 ->
  apx (Bmult mode_NE (Bmult mode_NE x y) z) (v32 x * v32 y * v32 z) (5 / 2 * ulp1) /\ Rabs (v32 x * v32 y * v32 z) <= 107 / 100.
Proof.
  intros x y z fx fy fz hx hy hz. pose proof huge_big as hb. pose proof tiny_small as ts.
  assert (h1 : Rabs (v32 x * v32 y) <= 10404 / 10000).
  { rewrite Rabs_mult. replace (10404 / 10000) with (102 / 100 * (102 / 100)) by field. apply Rmult_le_compat; try assumption; apply Rabs_pos. }
  pose proof (apx_mul x y _ _ _ _ 0 0 (apx_self x fx) (apx_self y fy) hx hy ltac:(lra)) as h2.
  apply apx_le with (e' := 11 / 10 * ulp1) in h2; [|unfold ulp1; lra].
  pose proof (apx_mul _ z _ _ _ _ _ 0 h2 (apx_self z fz) h1 hz ltac:(unfold ulp1; lra)) as h3. split.
  - apply apx_le with (1 := h3). unfold ulp1. lra.
  - rewrite Rabs_mult. apply Rle_trans with (10404 / 10000 * (102 / 100)); [|lra]. apply Rmult_le_compat; try assumption; apply Rabs_pos.
Qed.

Lemma one_apx : apx (f32_ofZ 1) 1 0.
Proof. split; [apply one_rd|]. rewrite (proj2 one_rd). rewrite Rminus_diag_eq by reflexivity. rewrite Rabs_R0. lra. Qed.

Lemma eps_val : fin (f32_frac 1 10000) /\ 9999 / 100000000 <= v32 (f32_frac 1 10000).
Proof.
  split; [reflexivity|].
  rewrite <- SF2R_B2SF. replace (B2SF (f32_frac 1 10000)) with (SpecFloat.S754_finite false 13743895 (-37)) by (vm_compute; reflexivity).
  cbn [SF2R]. unfold F2R. cbn [Fnum Fexp cond_Zopp bpow]. change (Z.pow_pos radix2 37) with 137438953472%Z. lra.
Qed.

Lemma small_test : forall x e r, apx x r e -> Rabs r + e <= 9999 / 100000000 -> Bltb (f32_frac 1 10000) (Babs x) = false.
Proof.
  intros x e r [fx ex] h. destruct eps_val as [f1 h1]. rewrite Bltb_correct; [|exact f1|now rewrite is_finite_Babs].
  rewrite B2R_Babs. apply Rlt_bool_false. apply Rle_trans with (2 := h1).
  replace (v32 x) with ((v32 x - r) + r) by ring. pose proof (Rabs_triang (v32 x - r) r). lra.
Qed.

Lemma rows_unit : forall r, rigid r -> vnorm (row (tmat r) 0) = 1 /\ vnorm (row (tmat r) 1) = 1 /\ vnorm (row (tmat r) 2) = 1.
Proof.
  intros r hr. pose proof (trans_orth r hr) as h.
  assert (e0 := h 0%nat 0%nat ltac:(lia) ltac:(lia)). assert (e1 := h 1%nat 1%nat ltac:(lia) ltac:(lia)). assert (e2 := h 2%nat 2%nat ltac:(lia) ltac:(lia)).
  unfold mmul, mtrans, mident, sum3 in e0, e1, e2. cbn [Nat.eqb] in e0, e1, e2.
  unfold vnorm, vdot, row, vx, vy, vz. cbn [fst snd]. rewrite e0, e1, e2, sqrt_1. tauto.
Qed.
Lemma cols_unit : forall r, rigid r ->
  let c i := row (mtrans (tmat r)) i in
  vnorm (c 0%nat) = 1 /\ vnorm (c 1%nat) = 1 /\ vnorm (c 2%nat) = 1 /\ vdot (c 0%nat) (c 1%nat) = 0 /\ vdot (c 0%nat) (c 2%nat) = 0 /\ vdot (c 1%nat) (c 2%nat) = 0.
Proof.
  intros r hr c. pose proof (proj1 hr) as h.
  assert (e0 := h 0%nat 0%nat ltac:(lia) ltac:(lia)). assert (e1 := h 1%nat 1%nat ltac:(lia) ltac:(lia)). assert (e2 := h 2%nat 2%nat ltac:(lia) ltac:(lia)).
  assert (e3 := h 0%nat 1%nat ltac:(lia) ltac:(lia)). assert (e4 := h 0%nat 2%nat ltac:(lia) ltac:(lia)). assert (e5 := h 1%nat 2%nat ltac:(lia) ltac:(lia)).
  unfold mmul, mtrans, mident, sum3 in e0, e1, e2, e3, e4, e5. cbn [Nat.eqb] in e0, e1, e2, e3, e4, e5.
  unfold c, vnorm, vdot, row, mtrans, vx, vy, vz. cbn [fst snd]. rewrite e0, e1, e2, e3, e4, e5, sqrt_1. tauto.
Qed.

Lemma coord_b : forall v, vnorm v <= 102 / 100 -> Rabs (vx v) <= 102 / 100 /\ Rabs (vy v) <= 102 / 100 /\ Rabs (vz v) <= 102 / 100.
Proof. intros v h. destruct (vnorm_coord v) as [h1 [h2 h3]]. lra. Qed.

Lemma C67_isTransform_proof : forall (L : libm32) (a : Transform f32) (r : Transform R),
  finite_t a -> rigid r -> fro (mdiff (tmat (tval a)) (tmat r)) <= bpow radix2 (-15) ->
  @t_isTransform f32 (F32Scalar L) a (@t_isTransform_default_eps f32 (F32Scalar L)) = true.
Proof.
  intros L a r fa hr hE. set (E := bpow radix2 (-15)) in *.
  assert (vE : E = / 32768) by reflexivity.
  destruct (rows_unit r hr) as [r0 [r1 r2]]. destruct (cols_unit r hr) as [c0 [c1 [c2 [c01 [c02 c12]]]]].
  pose proof (det_near _ _ E hE ltac:(lra) r0 r1 r2) as hdet. rewrite (proj2 hr) in hdet.
  pose proof (row_near _ _ 0 E ltac:(lia) hE) as d0. pose proof (row_near _ _ 1 E ltac:(lia) hE) as d1. pose proof (row_near _ _ 2 E ltac:(lia) hE) as d2.
  assert (hE' : fro (mdiff (mtrans (tmat (tval a))) (mtrans (tmat r))) <= E).
  { apply Rle_trans with (2 := hE). rewrite <- (fro_trans (mdiff (tmat (tval a)) (tmat r))). apply Req_le. reflexivity. }
  pose proof (row_near _ _ 0 E ltac:(lia) hE') as g0. pose proof (row_near _ _ 1 E ltac:(lia) hE') as g1. pose proof (row_near _ _ 2 E ltac:(lia) hE') as g2.
  pose proof (vdot_near _ _ _ _ E c0 c1 g0 g1) as o01. rewrite c01 in o01.
  pose proof (vdot_near _ _ _ _ E c0 c2 g0 g2) as o02. rewrite c02 in o02.
  pose proof (vdot_near _ _ _ _ E c1 c2 g1 g2) as o12. rewrite c12 in o12.
  pose proof (vdot_near _ _ _ _ E r0 r0 d0 d0) as n0. rewrite <- (vnorm_sq (row (tmat r) 0)), r0 in n0.
  pose proof (vdot_near _ _ _ _ E r1 r1 d1 d1) as n1. rewrite <- (vnorm_sq (row (tmat r) 1)), r1 in n1.
  pose proof (vdot_near _ _ _ _ E r2 r2 d2 d2) as n2. rewrite <- (vnorm_sq (row (tmat r) 2)), r2 in n2.
  pose proof (vnorm_near (row (tmat (tval a)) 0) (row (tmat r) 0)) as m0.
  pose proof (vnorm_near (row (tmat (tval a)) 1) (row (tmat r) 1)) as m1.
  pose proof (vnorm_near (row (tmat (tval a)) 2) (row (tmat r) 2)) as m2.
  destruct (coord_b (row (tmat (tval a)) 0) ltac:(lra)) as [h11 [h12 h13]]. destruct (coord_b (row (tmat (tval a)) 1) ltac:(lra)) as [h21 [h22 h23]]. destruct (coord_b (row (tmat (tval a)) 2) ltac:(lra)) as [h31 [h32 h33]].
  destruct a as [a11 a12 a13 a14 a21 a22 a23 a24 a31 a32 a33 a34].
  unfold vdot, row, mtrans, tmat, of_rows, tval, val, mdet, vx, vy, vz in o01, o02, o12, n0, n1, n2, hdet, h11, h12, h13, h21, h22, h23, h31, h32, h33.
  unfold finite_t, coefs in fa.
  cbn [fst snd t_r1c1 t_r1c2 t_r1c3 t_r1c4 t_r2c1 t_r2c2 t_r2c3 t_r2c4 t_r3c1 t_r3c2 t_r3c3 t_r3c4] in o01, o02, o12, n0, n1, n2, hdet, h11, h12, h13, h21, h22, h23, h31, h32, h33, fa.
  clear m0 m1 m2 d0 d1 d2 g0 g1 g2 c0 c1 c2 c01 c02 c12 r0 r1 r2 hE hE'.
  fl fa. pose proof huge_big as hb. pose proof tiny_small as ts. pose proof tiny_pos as tp.
  assert (W : forall x, Rabs x <= 2 * E + E * E -> Rabs x + 10 * ulp1 <= 9999 / 100000000) by (intros x hx; rewrite vE in hx; unfold ulp1; lra).
  assert (W1 : forall x y, apx x y (10 * ulp1) -> Rabs (y - 1 * 1) <= 2 * E + E * E -> Bltb (f32_frac 1 10000) (Babs (Bminus mode_NE x (f32_ofZ 1))) = false).
  { intros x y hx hy. apply small_test with (e := 20 * ulp1) (r := y - 1).
    - assert (hy2 : Rabs y <= 2) by (rewrite vE in hy; abs2; apply Rabs_le; lra).
      assert (h1 : Rabs 1 <= 1) by (rewrite Rabs_R1; lra).
      apply apx_le with (1 := apx_sub _ _ _ _ _ _ _ _ hx one_apx hy2 h1 ltac:(unfold ulp1; lra)). unfold ulp1. lra.
    - rewrite Rmult_1_l in hy. rewrite vE in hy. unfold ulp1. lra. }
  unfold t_isTransform, t_isTransform_default_eps.
  cbn [t_r1c1 t_r1c2 t_r1c3 t_r1c4 t_r2c1 t_r2c2 t_r2c3 t_r2c4 t_r3c1 t_r3c2 t_r3c3 t_r3c4 s_add s_sub s_mul s_abs s_ltb s_ofZ s_frac F32Scalar].
  rewrite (small_test _ _ _ (apx_dot a12 a11 a22 a21 a32 a31 ltac:(assumption) ltac:(assumption) ltac:(assumption) ltac:(assumption) ltac:(assumption) ltac:(assumption) h12 h11 h22 h21 h32 h31))
    by (apply W; match goal with |- Rabs ?x <= _ => match type of o01 with Rabs ?y <= _ => replace x with y by ring end end; exact o01).
  rewrite (small_test _ _ _ (apx_dot a13 a11 a23 a21 a33 a31 ltac:(assumption) ltac:(assumption) ltac:(assumption) ltac:(assumption) ltac:(assumption) ltac:(assumption) h13 h11 h23 h21 h33 h31))
    by (apply W; match goal with |- Rabs ?x <= _ => match type of o02 with Rabs ?y <= _ => replace x with y by ring end end; exact o02).
  rewrite (small_test _ _ _ (apx_dot a13 a12 a23 a22 a33 a32 ltac:(assumption) ltac:(assumption) ltac:(assumption) ltac:(assumption) ltac:(assumption) ltac:(assumption) h13 h12 h23 h22 h33 h32))
    by (apply W; match goal with |- Rabs ?x <= _ => match type of o12 with Rabs ?y <= _ => replace x with y by ring end end; exact o12).
  rewrite (W1 _ _ (apx_dot a11 a11 a12 a12 a13 a13 ltac:(assumption) ltac:(assumption) ltac:(assumption) ltac:(assumption) ltac:(assumption) ltac:(assumption) h11 h11 h12 h12 h13 h13)) by exact n0.
  rewrite (W1 _ _ (apx_dot a21 a21 a22 a22 a23 a23 ltac:(assumption) ltac:(assumption) ltac:(assumption) ltac:(assumption) ltac:(assumption) ltac:(assumption) h21 h21 h22 h22 h23 h23)) by exact n1.
  rewrite (W1 _ _ (apx_dot a31 a31 a32 a32 a33 a33 ltac:(assumption) ltac:(assumption) ltac:(assumption) ltac:(assumption) ltac:(assumption) ltac:(assumption) h31 h31 h32 h32 h33 h33)) by exact n2.
  unfold t_determinant. cbn [t_r1c1 t_r1c2 t_r1c3 t_r1c4 t_r2c1 t_r2c2 t_r2c3 t_r2c4 t_r3c1 t_r3c2 t_r3c3 t_r3c4 s_add s_sub s_mul F32Scalar].
  destruct (apx_triple a11 a22 a33 ltac:(assumption) ltac:(assumption) ltac:(assumption) h11 h22 h33) as [t1 u1].
  destruct (apx_triple a12 a23 a31 ltac:(assumption) ltac:(assumption) ltac:(assumption) h12 h23 h31) as [t2 u2].
  destruct (apx_triple a13 a21 a32 ltac:(assumption) ltac:(assumption) ltac:(assumption) h13 h21 h32) as [t3 u3].
  destruct (apx_triple a11 a23 a32 ltac:(assumption) ltac:(assumption) ltac:(assumption) h11 h23 h32) as [t4 u4].
  destruct (apx_triple a12 a21 a33 ltac:(assumption) ltac:(assumption) ltac:(assumption) h12 h21 h33) as [t5 u5].
  destruct (apx_triple a13 a22 a31 ltac:(assumption) ltac:(assumption) ltac:(assumption) h13 h22 h31) as [t6 u6].
  set (p1 := v32 a11 * v32 a22 * v32 a33) in *. set (p2 := v32 a12 * v32 a23 * v32 a31) in *. set (p3 := v32 a13 * v32 a21 * v32 a32) in *.
  set (p4 := v32 a11 * v32 a23 * v32 a32) in *. set (p5 := v32 a12 * v32 a21 * v32 a33) in *. set (p6 := v32 a13 * v32 a22 * v32 a31) in *.
  assert (tri : forall x y a b, Rabs x <= a -> Rabs y <= b -> Rabs (x + y) <= a + b) by (intros; abs2; apply Rabs_le; lra).
  assert (trm : forall x y a b, Rabs x <= a -> Rabs y <= b -> Rabs (x - y) <= a + b) by (intros; abs2; apply Rabs_le; lra).
  pose proof (apx_add _ _ _ _ _ _ _ _ t1 t2 u1 u2 ltac:(unfold ulp1; lra)) as s2. pose proof (tri _ _ _ _ u1 u2) as w2.
  apply apx_le with (e' := 8 * ulp1) in s2; [|unfold ulp1; lra].
  pose proof (apx_add _ _ _ _ _ _ _ _ s2 t3 w2 u3 ltac:(unfold ulp1; lra)) as s3. pose proof (tri _ _ _ _ w2 u3) as w3.
  apply apx_le with (e' := 14 * ulp1) in s3; [|unfold ulp1; lra].
  pose proof (apx_sub _ _ _ _ _ _ _ _ s3 t4 w3 u4 ltac:(unfold ulp1; lra)) as s4. pose proof (trm _ _ _ _ w3 u4) as w4.
  apply apx_le with (e' := 21 * ulp1) in s4; [|unfold ulp1; lra].
  pose proof (apx_sub _ _ _ _ _ _ _ _ s4 t5 w4 u5 ltac:(unfold ulp1; lra)) as s5. pose proof (trm _ _ _ _ w4 u5) as w5.
  apply apx_le with (e' := 30 * ulp1) in s5; [|unfold ulp1; lra].
  pose proof (apx_sub _ _ _ _ _ _ _ _ s5 t6 w5 u6 ltac:(unfold ulp1; lra)) as s6. pose proof (trm _ _ _ _ w5 u6) as w6.
  apply apx_le with (e' := 40 * ulp1) in s6; [|unfold ulp1; lra].
  assert (h1 : Rabs 1 <= 1) by (rewrite Rabs_R1; lra).
  pose proof (apx_sub _ _ _ _ _ _ _ _ s6 one_apx w6 h1 ltac:(unfold ulp1; lra)) as s7.
  apply apx_le with (e' := 50 * ulp1) in s7; [|unfold ulp1; lra].
  rewrite (small_test _ _ _ s7); [reflexivity|].
  match goal with |- Rabs ?x + _ <= _ => match type of hdet with Rabs ?y <= _ => replace x with y by (unfold p1, p2, p3, p4, p5, p6; ring) end end.
  rewrite vE in hdet. unfold ulp1. lra.
Qed.


Local Opaque t_isTransform.
Lemma C67_rebuilt_proof : forall (L : libm32) (a : Transform f32) (r : Transform R),
  finite_t a -> rigid r -> fro (mdiff (tmat (tval a)) (tmat r)) <= bpow radix2 (-15) ->
  @t_ofVector f32 (F32Scalar L) (coefs a) = a.
Proof.
  intros L a r fa hr hE. pose proof (C67_isTransform_proof L a r fa hr hE) as h.
  destruct a as [a11 a12 a13 a14 a21 a22 a23 a24 a31 a32 a33 a34].
  unfold t_ofVector, coefs. cbn [length Nat.eqb orb nth t_r1c1 t_r1c2 t_r1c3 t_r1c4 t_r2c1 t_r2c2 t_r2c3 t_r2c4 t_r3c1 t_r3c2 t_r3c3 t_r3c4]. cbv zeta.
  rewrite h. reflexivity.
Qed.


Lemma C67_chain_valid_proof : forall (L : libm32) (l : list (Transform f32)) (rs : list (Transform R)) (d M : R),
  Forall2 (close d) l rs -> Forall (fun r => vnorm (tpos r) <= M) rs -> 0 <= d -> 0 <= M <= bpow radix2 30 ->
  INR (length l) * (5 / 4 * d + bpow radix2 (-20)) <= bpow radix2 (-15) ->
  let P := @product f32 (F32Scalar L) l in
  @t_isTransform f32 (F32Scalar L) P (@t_isTransform_default_eps f32 (F32Scalar L)) = true /\
  @t_ofVector f32 (F32Scalar L) (coefs P) = P.
Proof.
  intros L l rs d M hl hM hd hMM hn P.
  assert (h15 : bpow radix2 (-15) = / 32768) by reflexivity.
  assert (hn' : INR (length l) * (5 / 4 * d + bpow radix2 (-20)) <= / 4) by lra.
  destruct (C67_chain_proof L l rs d M hl hM hd hMM hn') as [c1 [c2 [c3 _]]].
  assert (c4 : fro (mdiff (tmat (tval P)) (tmat (product rs))) <= bpow radix2 (-15)) by (apply Rle_trans with (1 := c3); exact hn).
  split; [exact (C67_isTransform_proof L _ _ c1 c2 c4)|exact (C67_rebuilt_proof L _ _ c1 c2 c4)].
Qed.


(** ** Vectors *)

Lemma bp1 : forall a b, (a <= b)%Z -> bpow radix2 a <= bpow radix2 b.
Proof. intros. now apply bpow_le. Qed.

Lemma norm_gen : forall L (p : Position3D f32), finite_p p -> bpow radix2 (-51) <= vnorm (pval p) <= bpow radix2 52 ->
  apx (@p3_norm f32 (F32Scalar L) p) (vnorm (pval p)) (29 / 10 * ulp1 * vnorm (pval p)).
Proof.
  intros L p [fx [fy fz]] [h1 h2]. set (N := vnorm (pval p)) in *.
  pose proof (vnorm_sq (pval p)) as hN. fold N in hN. unfold vdot, pval, vx, vy, vz in hN. cbn [fst snd] in hN.
  unfold p3_norm. cbn [s_add s_mul s_sqrt F32Scalar].
  set (x := p3_x p) in *. set (y := p3_y p) in *. set (z := p3_z p) in *. unfold val in hN.
  pose proof (bpow_gt_0 radix2 (-51)) as N0'. assert (N0 : 0 < N) by lra.
  assert (A : Rabs (v32 x * v32 x) + Rabs (v32 y * v32 y) + Rabs (v32 z * v32 z) = N * N).
  { rewrite hN. rewrite !Rabs_pos_eq by nra. reflexivity. }
  assert (Q1 : N * N <= / 100 * huge).
  { apply Rle_trans with (bpow radix2 52 * bpow radix2 52); [apply Rmult_le_compat; lra|]. rewrite <- bpow_plus.
    apply Rle_trans with (bpow radix2 (-7 + 126)); [apply bpow_le; lia|]. rewrite bpow_plus. fold huge.
    apply Rmult_le_compat_r; [apply bpow_ge_0|]. cbn. lra. }
  assert (T1 : tiny <= / 1000 * ulp1 * N).
  { apply Rle_trans with (bpow radix2 (-34) * bpow radix2 (-51)).
    - rewrite <- bpow_plus. apply bpow_le. lia.
    - apply Rmult_le_compat; try apply bpow_ge_0; try lra. rewrite u_pow. apply Rle_trans with (bpow radix2 (-10 + -24)); [apply bpow_le; lia|].
      rewrite bpow_plus. apply Rmult_le_compat_r; [apply bpow_ge_0|]. cbn. lra. }
  assert (T2 : 6 * tiny <= / 100 * ulp1 * (N * N)).
  { apply Rle_trans with (bpow radix2 (-147)); [pose proof tiny_le; pose proof tiny_pos; lra|].
    apply Rle_trans with (bpow radix2 (-31) * (bpow radix2 (-51) * bpow radix2 (-51))).
    - rewrite <- !bpow_plus. apply bpow_le. lia.
    - apply Rmult_le_compat; try (rewrite <- bpow_plus); try apply bpow_ge_0.
      + rewrite u_pow. change (-31)%Z with (-7 + -24)%Z. rewrite bpow_plus. apply Rmult_le_compat_r; [apply bpow_ge_0|]. cbn. lra.
      + rewrite bpow_plus. apply Rmult_le_compat; try apply bpow_ge_0; lra. }
  destruct (dot3_err x x y y z z fx fx fy fy fz fz) as [fs es]; [rewrite A; exact Q1|]. cbv zeta in es. rewrite A, <- hN in es.
  set (s := Bplus mode_NE (Bplus mode_NE (Bmult mode_NE x x) (Bmult mode_NE y y)) (Bmult mode_NE z z)) in *.
  assert (N2 : 0 < N * N) by (apply Rmult_lt_0_compat; lra).
  assert (s1 : (1 - 32 / 10 * ulp1) * (N * N) <= v32 s <= (1 + 32 / 10 * ulp1) * (N * N)) by (abs2; unfold ulp1 in *; lra).
  assert (s0 : 0 <= v32 s) by (unfold ulp1 in *; lra).
  destruct (sqrt_rd s fs s0) as [g1 g2]. split; [exact g1|]. rewrite g2. set (w := sqrt (v32 s)).
  assert (w0 : 0 <= w) by apply sqrt_pos. assert (ww : w * w = v32 s) by (apply sqrt_sqrt; exact s0).
  assert (w1 : w <= N * (1 + 17 / 10 * ulp1)).
  { apply Rsqr_incr_0_var; [|unfold ulp1; nra]. unfold Rsqr. rewrite ww. apply Rle_trans with (1 := proj2 s1). unfold ulp1. lra. }
  assert (w2 : N * (1 - 17 / 10 * ulp1) <= w).
  { apply Rsqr_incr_0_var; [|exact w0]. unfold Rsqr. rewrite ww. apply Rle_trans with (2 := proj1 s1). unfold ulp1. lra. }
  pose proof (rd_err w) as E. rewrite (Rabs_pos_eq w w0) in E. abs2. apply Rabs_le. unfold ulp1 in *. lra.
Qed.

Lemma C69_norm_proof : forall (L : libm32) (p : Position3D f32), finite_p p ->
  bpow radix2 (-50) <= vnorm (pval p) <= bpow radix2 50 ->
  let n := @p3_norm f32 (F32Scalar L) p in
  is_finite n = true /\ Rabs (val n - vnorm (pval p)) <= 3 * bpow radix2 (-24) * vnorm (pval p).
Proof.
  intros L p hp [h1 h2] n. destruct (norm_gen L p hp) as [g1 g2].
  { pose proof (bp1 (-51) (-50) ltac:(lia)). pose proof (bp1 50 52 ltac:(lia)). lra. }
  split; [exact g1|]. rewrite <- u_pow. apply Rle_trans with (1 := g2). pose proof (vnorm_pos (pval p)). unfold ulp1. lra.
Qed.


Lemma dist_norm : forall L a b, @p3_distance f32 (F32Scalar L) a b = @p3_norm f32 (F32Scalar L) (@p3_sub f32 (F32Scalar L) a b).
Proof. reflexivity. Qed.

Lemma C69_distance_proof : forall (L : libm32) (a b : Position3D f32), finite_p a -> finite_p b ->
  vnorm (pval a) <= bpow radix2 50 -> vnorm (pval b) <= bpow radix2 50 -> bpow radix2 (-50) <= vnorm (vsub (pval a) (pval b)) ->
  let n := @p3_distance f32 (F32Scalar L) a b in let e := vnorm (vsub (pval a) (pval b)) in
  is_finite n = true /\ Rabs (val n - e) <= 5 * bpow radix2 (-24) * e.
Proof.
  intros L a b [fa1 [fa2 fa3]] [fb1 [fb2 fb3]] ha hb hd n e.
  destruct (vnorm_coord (pval a)) as [ax [ay az]]. destruct (vnorm_coord (pval b)) as [bx [by_ bz]].
  assert (B : forall u v : f32, fin u -> fin v -> Rabs (v32 u) <= bpow radix2 50 -> Rabs (v32 v) <= bpow radix2 50 ->
    apx (Bminus mode_NE u v) (v32 u - v32 v) (ulp1 * Rabs (v32 u - v32 v) + tiny)).
  { intros u v hu hv h1 h2. pose proof huge_big as hh. assert (b50 : bpow radix2 50 = 1125899906842624) by (cbn; lra).
    destruct (sub_rd u v hu hv) as [g1 g2]; [abs2; apply Rabs_le; lra|]. split; [exact g1|]. rewrite g2. apply rd_err. }
  set (d := @p3_sub f32 (F32Scalar L) a b).
  destruct (B _ _ fa1 fb1 ltac:(unfold pval, vx in *; cbn [fst snd] in *; unfold val in *; lra) ltac:(unfold pval, vx in *; cbn [fst snd] in *; unfold val in *; lra)) as [f1 e1].
  destruct (B _ _ fa2 fb2 ltac:(unfold pval, vy in *; cbn [fst snd] in *; unfold val in *; lra) ltac:(unfold pval, vy in *; cbn [fst snd] in *; unfold val in *; lra)) as [f2 e2].
  destruct (B _ _ fa3 fb3 ltac:(unfold pval, vz in *; cbn [fst snd] in *; unfold val in *; lra) ltac:(unfold pval, vz in *; cbn [fst snd] in *; unfold val in *; lra)) as [f3 e3].
  assert (fd : finite_p d) by (split; [exact f1|split; [exact f2|exact f3]]).
  set (D := vsub (pval a) (pval b)) in *. pose proof tiny_pos as tp.
  assert (hD : vnorm (vsub (pval d) D) <= ulp1 * vnorm D + 2 * tiny).
  { apply Rle_trans with (vnorm (vadd (vscale ulp1 (Rabs (vx D), Rabs (vy D), Rabs (vz D))) (tiny, tiny, tiny))).
    - apply vnorm_mono; assumption.
    - apply Rle_trans with (1 := vnorm_tri _ _). rewrite vnorm_scale, vnorm_abs, Rabs_pos_eq by (unfold ulp1; lra). apply Rplus_le_compat_l.
      apply vnorm_le; [lra|]. unfold vdot, vx, vy, vz. cbn [fst snd]. nra. }
  assert (T1 : tiny <= / 1000 * ulp1 * vnorm D).
  { apply Rle_trans with (bpow radix2 (-34) * bpow radix2 (-50)).
    - rewrite <- bpow_plus. apply bpow_le. lia.
    - apply Rmult_le_compat; try apply bpow_ge_0; try lra. rewrite u_pow. apply Rle_trans with (bpow radix2 (-10 + -24)); [apply bpow_le; lia|].
      rewrite bpow_plus. apply Rmult_le_compat_r; [apply bpow_ge_0|]. cbn. lra. }
  pose proof (vnorm_near (pval d) D) as n1. pose proof (vnorm_near D (pval d)) as n2. rewrite vnorm_vsub_sym in n2.
  assert (D0 : 0 < vnorm D) by (apply Rlt_le_trans with (2 := hd); apply bpow_gt_0).
  assert (D1 : vnorm D <= bpow radix2 50 + bpow radix2 50).
  { unfold D. replace (vsub (pval a) (pval b)) with (vadd (pval a) (vscale (- 1) (pval b))).
    - apply Rle_trans with (1 := vnorm_tri _ _). rewrite vnorm_neg. lra.
    - unfold vsub, vadd, vscale, vx, vy, vz. cbn [fst snd]. f_equal; [f_equal|]; ring. }
  assert (b1 : 4 * bpow radix2 50 = bpow radix2 52) by (change 4 with (bpow radix2 2); rewrite <- bpow_plus; reflexivity).
  assert (b2 : 2 * bpow radix2 (-51) = bpow radix2 (-50)) by (change 2 with (bpow radix2 1); rewrite <- bpow_plus; reflexivity).
  destruct (norm_gen L d fd) as [g1 g2]; [unfold ulp1 in *; lra|].
  split; [exact g1|]. rewrite <- u_pow. change (val n) with (v32 (@p3_norm f32 (F32Scalar L) d)).
  set (v := v32 (@p3_norm f32 (F32Scalar L) d)) in *. unfold e. abs2. apply Rabs_le. unfold ulp1 in *. lra.
Qed.


Lemma C69_normalize_proof : forall (L : libm32) (p : Position3D f32), finite_p p ->
  bpow radix2 (-50) <= vnorm (pval p) <= bpow radix2 50 ->
  exists u, @p3_normalize f32 (F32Scalar L) p = Ok u /\ finite_p u /\
    vnorm (vsub (pval u) (vscale (/ vnorm (pval p)) (pval p))) <= 6 * bpow radix2 (-24) /\
    @p3_isUnitVector f32 (F32Scalar L) u (f32_frac 1 10000) = true.
Proof.
  intros L p hp [h1 h2]. rewrite <- u_pow.
  assert (bb : bpow radix2 (-51) <= vnorm (pval p) <= bpow radix2 52).
  { pose proof (bp1 (-51) (-50) ltac:(lia)). pose proof (bp1 50 52 ltac:(lia)). lra. }
  destruct (norm_gen L p hp bb) as [g1 g2].
  set (N := vnorm (pval p)) in *. unfold p3_normalize, p3_div. set (w := @p3_norm f32 (F32Scalar L) p) in *. clearbody w.
  assert (N0 : 0 < N) by (apply Rlt_le_trans with (2 := h1); apply bpow_gt_0).
  assert (w0 : N * (1 - 29 / 10 * ulp1) <= v32 w <= N * (1 + 29 / 10 * ulp1)) by (abs2; unfold ulp1 in *; lra).
  assert (wp : 0 < v32 w) by (unfold ulp1 in *; lra).
  cbn [s_eqb s_ofZ s_div F32Scalar].
  assert (ne : Beqb w (f32_ofZ 0) = false).
  { rewrite Beqb_correct; [|exact g1|reflexivity]. rewrite (proj2 zero_rd). apply Req_bool_false. lra. }
  rewrite ne. clear ne.
  assert (q0 : 0 < / v32 w) by now apply Rinv_0_lt_compat.
  assert (qN : Rabs (/ v32 w * N - 1) <= 3 * ulp1).
  { assert (e : / v32 w * N - 1 = / v32 w * (N - v32 w)) by (field; lra). rewrite e, Rabs_mult, (Rabs_pos_eq (/ v32 w)) by lra.
    apply Rmult_le_reg_l with (v32 w); [exact wp|]. rewrite <- Rmult_assoc, Rinv_r, Rmult_1_l by lra.
    apply Rabs_le. unfold ulp1 in *. lra. }
  assert (N1 : N <= 1125899906842624) by (apply Rle_trans with (1 := h2); cbn; lra).
  assert (N2 : / N <= 1125899906842624).
  { apply Rle_trans with (/ bpow radix2 (-50)); [apply Rinv_le; [apply bpow_gt_0|exact h1]|]. rewrite <- bpow_opp. cbn. lra. }
  assert (iN : 0 < / N) by now apply Rinv_0_lt_compat.
  assert (q1 : / v32 w <= 2 * / N).
  { apply Rmult_le_reg_r with N; [exact N0|]. rewrite (Rmult_assoc 2), Rinv_l by lra. abs2. unfold ulp1 in *. lra. }
  pose proof huge_big as hh. pose proof tiny_small as ts. pose proof tiny_pos as tp.
  destruct (div_rd (f32_ofZ 1) w (proj1 one_rd) g1 ltac:(lra)) as [i1 i2].
  { rewrite (proj2 one_rd). unfold Rdiv. rewrite Rmult_1_l, Rabs_pos_eq by lra. lra. }
  set (i := Bdiv mode_NE (f32_ofZ 1) w) in *. rewrite (proj2 one_rd) in i2. unfold Rdiv in i2. rewrite Rmult_1_l in i2.
  pose proof (rd_err (/ v32 w)) as E. rewrite <- i2, (Rabs_pos_eq (/ v32 w)) in E by lra. clear i2. clearbody i.
  assert (iE : Rabs (v32 i * N - 1) <= 41 / 10 * ulp1).
  { replace (v32 i * N - 1) with ((v32 i - / v32 w) * N + (/ v32 w * N - 1)) by ring.
    assert (t1 : Rabs ((v32 i - / v32 w) * N) <= ulp1 * (/ v32 w * N) + tiny * N).
    { rewrite Rabs_mult, (Rabs_pos_eq N) by lra. rewrite <- Rmult_assoc, <- Rmult_plus_distr_r. apply Rmult_le_compat_r; [lra|exact E]. }
    assert (t2 : tiny * N <= / 1000000000000000000000000000000 * 1125899906842624) by (apply Rmult_le_compat; lra).
    apply Rle_trans with (1 := Rabs_triang _ _). assert (/ v32 w * N <= 1 + 3 * ulp1) by (abs2; lra). unfold ulp1 in *. lra. }
  assert (C : forall x : f32, fin x -> Rabs (v32 x) <= N -> apx (Bmult mode_NE x i) (v32 x * / N) (52 / 10 * ulp1 * Rabs (v32 x * / N) + tiny)).
  { intros x fx hx. set (y := v32 x * / N). assert (hy : v32 x = y * N) by (unfold y; field; lra).
    assert (y1 : Rabs y <= 1).
    { unfold y. rewrite Rabs_mult, (Rabs_pos_eq (/ N)) by lra. apply Rmult_le_reg_r with N; [exact N0|]. rewrite Rmult_assoc, Rinv_l by lra. lra. }
    assert (xi : v32 x * v32 i = y * (v32 i * N)) by (rewrite hy; ring).
    assert (b : Rabs (v32 i * N) <= 1 + 41 / 10 * ulp1) by (abs2; apply Rabs_le; lra).
    assert (b2 : Rabs (y * (v32 i * N)) <= Rabs y * (1 + 41 / 10 * ulp1)) by (rewrite Rabs_mult; apply Rmult_le_compat_l; [apply Rabs_pos|exact b]).
    pose proof (Rabs_pos y) as y0.
    destruct (mul_rd x i fx i1) as [m1 m2]; [rewrite xi; unfold ulp1 in *; lra|]. split; [exact m1|]. rewrite m2, xi.
    pose proof (rd_err (y * (v32 i * N))) as E2.
    replace (rd (y * (v32 i * N)) - y) with ((rd (y * (v32 i * N)) - y * (v32 i * N)) + y * (v32 i * N - 1)) by ring.
    apply Rle_trans with (1 := Rabs_triang _ _).
    assert (t3 : Rabs (y * (v32 i * N - 1)) <= Rabs y * (41 / 10 * ulp1)) by (rewrite Rabs_mult; apply Rmult_le_compat_l; [apply Rabs_pos|exact iE]).
    unfold ulp1 in *. lra. }
  destruct hp as [fx [fy fz]]. destruct (vnorm_coord (pval p)) as [cx [cy cz]]. fold N in cx, cy, cz.
  unfold pval, vx, vy, vz, val in cx, cy, cz. cbn [fst snd] in cx, cy, cz.
  destruct (C _ fx cx) as [ux ex]. destruct (C _ fy cy) as [uy ey]. destruct (C _ fz cz) as [uz ez].
  set (u := @p3_scale f32 (F32Scalar L) p i). exists u. split; [reflexivity|].
  assert (fu : finite_p u) by (split; [exact ux|split; [exact uy|exact uz]]). split; [exact fu|].
  set (d := vscale (/ N) (pval p)).
  assert (nd : vnorm d = 1).
  { unfold d. rewrite vnorm_scale, Rabs_pos_eq by lra. fold N. now apply Rinv_l, Rgt_not_eq. }
  assert (hu : vnorm (vsub (pval u) d) <= 6 * ulp1).
  { apply Rle_trans with (vnorm (vadd (vscale (52 / 10 * ulp1) (Rabs (vx d), Rabs (vy d), Rabs (vz d))) (tiny, tiny, tiny))).
    - apply vnorm_mono.
      + unfold d, u, p3_scale, pval, vsub, vadd, vscale, vx, vy, vz, val. cbn [fst snd p3_x p3_y p3_z s_mul F32Scalar]. rewrite (Rmult_comm (/ N)). exact ex.
      + unfold d, u, p3_scale, pval, vsub, vadd, vscale, vx, vy, vz, val. cbn [fst snd p3_x p3_y p3_z s_mul F32Scalar]. rewrite (Rmult_comm (/ N)). exact ey.
      + unfold d, u, p3_scale, pval, vsub, vadd, vscale, vx, vy, vz, val. cbn [fst snd p3_x p3_y p3_z s_mul F32Scalar]. rewrite (Rmult_comm (/ N)). exact ez.
    - apply Rle_trans with (1 := vnorm_tri _ _). rewrite vnorm_scale, vnorm_abs, nd, Rabs_pos_eq by (unfold ulp1; lra).
      assert (vnorm (tiny, tiny, tiny) <= 2 * tiny) by (apply vnorm_le; [lra|]; unfold vdot, vx, vy, vz; cbn [fst snd]; nra).
      unfold ulp1. lra. }
  split; [exact hu|]. clearbody u.
  pose proof (vnorm_near (pval u) d) as n1. pose proof (vnorm_near d (pval u)) as n2. rewrite vnorm_vsub_sym in n2. rewrite nd in n1, n2.
  assert (o1 : bpow radix2 (-51) <= / 2) by (change (/ 2) with (bpow radix2 (-1)); apply bpow_le; lia).
  assert (o2 : 2 <= bpow radix2 52) by (change 2 with (bpow radix2 1); apply bpow_le; lia).
  pose proof (norm_gen L u fu ltac:(unfold ulp1 in *; lra)) as ag.
  unfold p3_isUnitVector. cbn [s_abs s_sub s_leb s_ofZ F32Scalar].
  set (m := @p3_norm f32 (F32Scalar L) u) in *. clearbody m.
  assert (vu : Rabs (vnorm (pval u)) <= 2) by (rewrite Rabs_pos_eq by apply vnorm_pos; unfold ulp1 in *; lra).
  assert (r1 : Rabs 1 <= 1) by (rewrite Rabs_R1; lra).
  apply apx_le with (e' := 6 * ulp1) in ag; [|rewrite Rabs_pos_eq in vu by apply vnorm_pos; unfold ulp1 in *; lra].
  pose proof (apx_sub _ _ _ _ _ _ _ _ one_apx ag r1 vu ltac:(unfold ulp1; lra)) as [k1 k2].
  destruct eps_val as [v1 v2]. rewrite Bleb_correct; [|now rewrite is_finite_Babs|exact v1].
  apply Rle_bool_true. rewrite B2R_Babs. apply Rle_trans with (2 := v2).
  abs2. apply Rabs_le. unfold ulp1 in *. lra.
Qed.


Lemma C69_products_proof : forall (L : libm32) (a b : Position3D f32), finite_p a -> finite_p b ->
  vnorm (pval a) <= bpow radix2 50 -> vnorm (pval b) <= bpow radix2 50 ->
  let d := @p3_dotProduct f32 (F32Scalar L) a b in let c := @p3_crossProduct f32 (F32Scalar L) a b in
  let A i := Rabs (vc (pval a) i) in let B i := Rabs (vc (pval b) i) in
  is_finite d = true /\ finite_p c /\
  Rabs (val d - vdot (pval a) (pval b)) <= 4 * bpow radix2 (-24) * (A 0%nat * B 0%nat + A 1%nat * B 1%nat + A 2%nat * B 2%nat) + bpow radix2 (-147) /\
  Rabs (vx (pval c) - vx (vcross (pval a) (pval b))) <= 4 * bpow radix2 (-24) * (A 1%nat * B 2%nat + A 2%nat * B 1%nat) + bpow radix2 (-147) /\
  Rabs (vy (pval c) - vy (vcross (pval a) (pval b))) <= 4 * bpow radix2 (-24) * (A 2%nat * B 0%nat + A 0%nat * B 2%nat) + bpow radix2 (-147) /\
  Rabs (vz (pval c) - vz (vcross (pval a) (pval b))) <= 4 * bpow radix2 (-24) * (A 0%nat * B 1%nat + A 1%nat * B 0%nat) + bpow radix2 (-147).
Proof.
  intros L a b [fa1 [fa2 fa3]] [fb1 [fb2 fb3]] ha hb d c A B. rewrite <- u_pow.
  destruct (vnorm_coord (pval a)) as [ax [ay az]]. destruct (vnorm_coord (pval b)) as [bx [by_ bz]].
  unfold A, B, vc, pval, vdot, vcross, vx, vy, vz, val in *. cbn [fst snd] in *. clear A B.
  pose proof tiny_le as tl. pose proof tiny_pos as tp.
  assert (X : forall x y z w : f32, fin x -> fin y -> fin z -> fin w -> Rabs (v32 x) <= bpow radix2 50 -> Rabs (v32 y) <= bpow radix2 50 -> Rabs (v32 z) <= bpow radix2 50 -> Rabs (v32 w) <= bpow radix2 50 ->
    apx (Bminus mode_NE (Bmult mode_NE x y) (Bmult mode_NE z w)) (v32 x * v32 y - v32 z * v32 w)
      (4 * ulp1 * (Rabs (v32 x) * Rabs (v32 y) + Rabs (v32 z) * Rabs (v32 w)) + bpow radix2 (-147))).
  { intros x y z w hx hy hz hw bx' by' bz' bw'. pose proof (prod_small _ _ bx' by') as p1. pose proof (prod_small _ _ bz' bw') as p2.
    pose proof (bpow_gt_0 radix2 126) as hp. fold huge in hp. pose proof huge_big as hh. pose proof tiny_small as ts.
    pose proof (Rabs_pos (v32 x * v32 y)) as q1. pose proof (Rabs_pos (v32 z * v32 w)) as q2.
    assert (m1 : apx (Bmult mode_NE x y) (v32 x * v32 y) (ulp1 * Rabs (v32 x * v32 y) + tiny)) by (apply mul_err; try assumption; lra).
    assert (m2 : apx (Bmult mode_NE z w) (v32 z * v32 w) (ulp1 * Rabs (v32 z * v32 w) + tiny)) by (apply mul_err; try assumption; lra).
    apply apx_le with (1 := apx_sub _ _ _ _ _ _ _ _ m1 m2 (Rle_refl _) (Rle_refl _) ltac:(unfold ulp1; lra)). rewrite <- !Rabs_mult. unfold ulp1. lra. }
  assert (bb : Rabs (v32 (p3_x a)) <= bpow radix2 50 /\ Rabs (v32 (p3_y a)) <= bpow radix2 50 /\ Rabs (v32 (p3_z a)) <= bpow radix2 50 /\
    Rabs (v32 (p3_x b)) <= bpow radix2 50 /\ Rabs (v32 (p3_y b)) <= bpow radix2 50 /\ Rabs (v32 (p3_z b)) <= bpow radix2 50) by (repeat split; lra).
  destruct bb as [q1 [q2 [q3 [q4 [q5 q6]]]]].
  destruct (dot3_err _ _ _ _ _ _ fa1 fb1 fa2 fb2 fa3 fb3 (sum3_small _ _ _ _ _ _ q1 q4 q2 q5 q3 q6)) as [d1 d2]. cbv zeta in d2.
  destruct (X _ _ _ _ fa2 fb3 fa3 fb2 q2 q6 q3 q5) as [c1 e1]. destruct (X _ _ _ _ fa3 fb1 fa1 fb3 q3 q4 q1 q6) as [c2 e2]. destruct (X _ _ _ _ fa1 fb2 fa2 fb1 q1 q5 q2 q4) as [c3 e3].
  split; [exact d1|]. split; [split; [exact c1|split; [exact c2|exact c3]]|].
  split; [|split; [exact e1|split; [exact e2|exact e3]]].
  apply Rle_trans with (1 := d2). rewrite <- !Rabs_mult.
  pose proof (Rabs_pos (v32 (p3_x a) * v32 (p3_x b))). pose proof (Rabs_pos (v32 (p3_y a) * v32 (p3_y b))). pose proof (Rabs_pos (v32 (p3_z a) * v32 (p3_z b))).
  unfold ulp1. lra.
Qed.


Lemma C69_range_proof : forall L : libm32,
  let tiny3 := mkPosition3D (binary_normalize 24 128 prec_gt_0_24 prec_lt_emax_24 mode_NE 1 (-80) false) (f32_ofZ 0) (f32_ofZ 0) in
  let huge3 := mkPosition3D (binary_normalize 24 128 prec_gt_0_24 prec_lt_emax_24 mode_NE 1 80 false) (f32_ofZ 0) (f32_ofZ 0) in
  finite_p tiny3 /\ 0 < vx (pval tiny3) /\ @p3_normalize f32 (F32Scalar L) tiny3 = Throw /\
  finite_p huge3 /\ @p3_norm f32 (F32Scalar L) huge3 = B754_infinity false /\
  exists u, @p3_normalize f32 (F32Scalar L) huge3 = Ok u /\ pval u = (0, 0, 0).
Proof.
  intros L tiny3 huge3. split; [repeat split|]. split.
  { unfold pval, vx, tiny3, val. cbn [fst snd p3_x]. rewrite <- SF2R_B2SF.
    replace (B2SF _) with (SpecFloat.S754_finite false 8388608 (-103)) by (vm_compute; reflexivity).
    cbn [SF2R cond_Zopp]. apply F2R_gt_0. reflexivity. }
  assert (n0 : @p3_norm f32 (F32Scalar L) tiny3 = B754_zero false) by (apply B2SF_inj; vm_compute; reflexivity).
  assert (n1 : @p3_norm f32 (F32Scalar L) huge3 = B754_infinity false) by (apply B2SF_inj; vm_compute; reflexivity).
  split; [unfold p3_normalize; rewrite n0; reflexivity|]. split; [repeat split|]. split; [exact n1|].
  exists (@p3_scale f32 (F32Scalar L) huge3 (Bdiv mode_NE (f32_ofZ 1) (B754_infinity false))). split; [unfold p3_normalize; rewrite n1; reflexivity|].
  assert (z1 : B2SF (Bmult mode_NE (p3_x huge3) (Bdiv mode_NE (f32_ofZ 1) (B754_infinity false))) = SpecFloat.S754_zero false) by (vm_compute; reflexivity).
  assert (z2 : B2SF (Bmult mode_NE (p3_y huge3) (Bdiv mode_NE (f32_ofZ 1) (B754_infinity false))) = SpecFloat.S754_zero false) by (vm_compute; reflexivity).
  assert (z3 : B2SF (Bmult mode_NE (p3_z huge3) (Bdiv mode_NE (f32_ofZ 1) (B754_infinity false))) = SpecFloat.S754_zero false) by (vm_compute; reflexivity).
  assert (w : forall x : f32, B2SF x = SpecFloat.S754_zero false -> val x = 0) by (intros x hx; unfold val; rewrite <- SF2R_B2SF, hx; reflexivity).
  unfold pval. apply f_equal2; [apply f_equal2|]; apply w; assumption.
Qed.


Definition correct_round (r : R) : f32 := binary_normalize 24 128 prec_gt_0_24 prec_lt_emax_24 mode_NE (ZnearestE (r * bpow radix2 30)) (-30) false.
Lemma correct_round_ok : forall r, Rabs r <= 1 -> is_finite (correct_round r) = true /\ Rabs (val (correct_round r) - r) <= bpow radix2 (-23).
Proof.
  intros r hr. set (m := ZnearestE (r * bpow radix2 30)). set (y := F2R (Float radix2 m (-30))).
  assert (b30 : bpow radix2 30 = 1073741824) by (cbn; lra).
  assert (hy : Rabs (y - r) <= / 2 * / 1073741824).
  { pose proof (Znearest_half (fun x => negb (Z.even x)) (r * bpow radix2 30)) as h. fold m in h. rewrite b30 in h.
    unfold y, F2R. cbn [Fnum Fexp]. replace (bpow radix2 (-30)) with (/ 1073741824) by (cbn; lra).
    abs2. apply Rabs_le. lra. }
  pose proof huge_big as hh. pose proof tiny_small as ts. pose proof (bpow_gt_0 radix2 126) as hp. fold huge in hp.
  assert (hy1 : Rabs y <= 2) by (abs2; apply Rabs_le; lra).
  generalize (binary_normalize_correct 24 128 prec_gt_0_24 prec_lt_emax_24 mode_NE m (-30) false). cbv zeta.
  change (F2R (Float radix2 m (-30))) with y.
  change (round radix2 (SpecFloat.fexp 24 128) (round_mode mode_NE) y) with (rd y).
  rewrite Rlt_bool_true by (apply rd_lt; lra). intros [h1 [h2 _]]. split; [exact h2|]. unfold val, correct_round. fold m. rewrite h1.
  pose proof (rd_err y) as E. assert (e23 : bpow radix2 (-23) = 2 * ulp1) by (rewrite u_pow; change 2 with (bpow radix2 1); rewrite <- bpow_plus; reflexivity). rewrite e23.
  assert (y2 : Rabs y <= 1 + / 1000000) by (abs2; apply Rabs_le; lra).
  assert (E' : Rabs (rd y - y) <= 11 / 10 * ulp1) by (unfold ulp1 in *; lra). clear E y2 hy1. abs2. apply Rabs_le. unfold ulp1 in *. lra.
Qed.
Lemma C68_accurate_proof : exists L : libm32, accurate L (bpow radix2 (-23)).
Proof.
  exists {| l_cos := fun x => correct_round (cos (val x)); l_sin := fun x => correct_round (sin (val x)); l_acos := fun x => x; l_atan2 := fun x y => x |}.
  intros x hx. cbn [l_cos l_sin].
  destruct (correct_round_ok (cos (val x))) as [h1 h2]; [apply Rabs_le; apply COS_bound|].
  destruct (correct_round_ok (sin (val x))) as [h3 h4]; [apply Rabs_le; apply SIN_bound|]. tauto.
Qed.
