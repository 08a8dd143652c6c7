(** * Constructors, tests and vectors in binary32, with libm functions of a given accuracy *)

From Coq Require Import Reals ZArith List Bool Lra Lia Psatz.
Import ListNotations.
From Flocq Require Import Core.Core IEEE754.BinarySingleNaN.
From Verif Require Import Scalar RInst RLemmas Model_Base Model_Vec Model_Rigid F32 Spec_Geom Spec_Round.
From Verif Require Import Proofs_Geom F32Err NormLemmas Proofs_Round.
Local Open Scope R_scope.
From Verif Require Proofs_Float.

(** C68: with functions cos and sin within [e] of the exact values, the three elementary
    rotations have no infinity and no NaN, are within 2 e of the exact rotation matrices of the
    angle and do not translate. *)
Theorem C68_rotations : forall (L : libm32) (e : R) (x : f32), accurate L e -> is_finite x = true ->
  close (2 * e) (@t_fromRotX f32 (F32Scalar L) x) (place (RX (val x)) (0, 0, 0)) /\
  close (2 * e) (@t_fromRotY f32 (F32Scalar L) x) (place (RY (val x)) (0, 0, 0)) /\
  close (2 * e) (@t_fromRotZ f32 (F32Scalar L) x) (place (RZ (val x)) (0, 0, 0)).
Proof. exact @Proofs_Float.C68_rotations_proof. Qed.
Print Assumptions C68_rotations.

(** C68: the transform of a Position6D of finite floats is within 7 e + 2^-19 of the exact
    rotation of its angles, and translates exactly by its first three floats. *)
Theorem C68_pose : forall (L : libm32) (e : R) (p : Position6D f32), accurate L e -> e <= / 100 -> finite_pose p ->
  close (7 * e + bpow radix2 (-19))
    (@t_fromPosition6 f32 (F32Scalar L) (p6_x p) (p6_y p) (p6_z p) (p6_wx p) (p6_wy p) (p6_wz p)) (pose_exact p).
Proof. exact @Proofs_Float.C68_pose_proof. Qed.
Print Assumptions C68_pose.

(** C68: forward kinematics of n joints. The product of the transforms of n Position6D, with
    positions no longer than M, is finite and moves every point w as the exact product of
    rigid transforms does, up to n (9 e + 2^-18) (|w| + n M). *)
Theorem C68_kinematics : forall (L : libm32) (e M : R) (l : list (Position6D f32)) (w : vec3),
  accurate L e -> 0 <= e <= / 100 -> Forall finite_pose l ->
  Forall (fun p => vnorm (tpos (pose_exact p)) <= M) l -> 0 <= M <= bpow radix2 30 ->
  let n := INR (length l) in let k := 9 * e + bpow radix2 (-18) in n * k <= / 4 ->
  let F := @product f32 (F32Scalar L) (map (fun p => @t_fromPosition6 f32 (F32Scalar L) (p6_x p) (p6_y p) (p6_z p) (p6_wx p) (p6_wy p) (p6_wz p)) l) in
  let G := product (map pose_exact l) in
  finite_t F /\ rigid G /\
  vnorm (vsub (motion (tval F) w) (motion G w)) <= n * k * (vnorm w + n * M) + n * bpow radix2 (-145).
Proof. exact @Proofs_Float.C68_kinematics_proof. Qed.
Print Assumptions C68_kinematics.

(** C67: isTransform with its default tolerance accepts every transform of finite floats whose
    rotation part is within 2^-15 of a rotation, in spite of the rounding errors of its own
    dot products and determinant. *)
Theorem C67_isTransform : forall (L : libm32) (a : Transform f32) (r : Transform R),
  finite_t a -> rigid r -> fro (mdiff (tmat (tval a)) (tmat r)) <= bpow radix2 (-15) ->
  @t_isTransform f32 (F32Scalar L) a (@t_isTransform_default_eps f32 (F32Scalar L)) = true.
Proof. exact @Proofs_Float.C67_isTransform_proof. Qed.
Print Assumptions C67_isTransform.

(** C67: a transform of floats within 2^-15 of a rigid one is rebuilt bit for bit from its own
    vector: the constructor from a vector does not renormalise it. *)
Theorem C67_rebuilt : forall (L : libm32) (a : Transform f32) (r : Transform R),
  finite_t a -> rigid r -> fro (mdiff (tmat (tval a)) (tmat r)) <= bpow radix2 (-15) ->
  @t_ofVector f32 (F32Scalar L) (coefs a) = a.
Proof. exact @Proofs_Float.C67_rebuilt_proof. Qed.
Print Assumptions C67_rebuilt.

(** C67: hence the product of a chain of n transforms, n (5/4 d + 2^-20) being at most 2^-15,
    passes isTransform and is rebuilt bit for bit from its vector. *)
Theorem C67_chain_valid : forall (L : libm32) (l : list (Transform f32)) (rs : list (Transform R)) (d M : R),
  Forall2 (close d) l rs -> Forall (fun r => vnorm (tpos r) <= M) rs -> 0 <= d -> 0 <= M <= bpow radix2 30 ->
  INR (length l) * (5 / 4 * d + bpow radix2 (-20)) <= bpow radix2 (-15) ->
  let P := @product f32 (F32Scalar L) l in
  @t_isTransform f32 (F32Scalar L) P (@t_isTransform_default_eps f32 (F32Scalar L)) = true /\
  @t_ofVector f32 (F32Scalar L) (coefs P) = P.
Proof. exact @Proofs_Float.C67_chain_valid_proof. Qed.
Print Assumptions C67_chain_valid.

(** C69: the norm of a Position3D of finite floats, between 2^-50 and 2^50, is finite and
    within three units of relative rounding error of the exact norm. *)
Theorem C69_norm : forall (L : libm32) (p : Position3D f32), finite_p p ->
  bpow radix2 (-50) <= vnorm (pval p) <= bpow radix2 50 ->
  let n := @p3_norm f32 (F32Scalar L) p in
  is_finite n = true /\ Rabs (val n - vnorm (pval p)) <= 3 * bpow radix2 (-24) * vnorm (pval p).
Proof. exact @Proofs_Float.C69_norm_proof. Qed.
Print Assumptions C69_norm.

(** C69: the distance of two points of finite floats no farther than 2^50 from the origin and
    at least 2^-50 apart is finite and within five units of relative rounding error of the
    exact distance: there is no cancellation. *)
Theorem C69_distance : forall (L : libm32) (a b : Position3D f32), finite_p a -> finite_p b ->
  vnorm (pval a) <= bpow radix2 50 -> vnorm (pval b) <= bpow radix2 50 -> bpow radix2 (-50) <= vnorm (vsub (pval a) (pval b)) ->
  let n := @p3_distance f32 (F32Scalar L) a b in let e := vnorm (vsub (pval a) (pval b)) in
  is_finite n = true /\ Rabs (val n - e) <= 5 * bpow radix2 (-24) * e.
Proof. exact @Proofs_Float.C69_distance_proof. Qed.
Print Assumptions C69_distance.

(** C69: normalize of such a vector returns a vector of finite floats within 6/2^24 of the
    exact unit vector of the same direction, which isUnitVector accepts with its default
    tolerance. *)
Theorem C69_normalize : forall (L : libm32) (p : Position3D f32), finite_p p ->
  bpow radix2 (-50) <= vnorm (pval p) <= bpow radix2 50 ->
  exists u, @p3_normalize f32 (F32Scalar L) p = Ok u /\ finite_p u /\
    vnorm (vsub (pval u) (vscale (/ vnorm (pval p)) (pval p))) <= 6 * bpow radix2 (-24) /\
    @p3_isUnitVector f32 (F32Scalar L) u (f32_frac 1 10000) = true.
Proof. exact @Proofs_Float.C69_normalize_proof. Qed.
Print Assumptions C69_normalize.

(** C69: dot products and cross products are within 4/2^24 of the sum of the absolute values
    of their terms (plus less than the smallest normal float). *)
Theorem C69_products : forall (L : libm32) (a b : Position3D f32), finite_p a -> finite_p b ->
  vnorm (pval a) <= bpow radix2 50 -> vnorm (pval b) <= bpow radix2 50 ->
  let d := @p3_dotProduct f32 (F32Scalar L) a b in let c := @p3_crossProduct f32 (F32Scalar L) a b in
  let A i := Rabs (vc (pval a) i) in let B i := Rabs (vc (pval b) i) in
  is_finite d = true /\ finite_p c /\
  Rabs (val d - vdot (pval a) (pval b)) <= 4 * bpow radix2 (-24) * (A 0%nat * B 0%nat + A 1%nat * B 1%nat + A 2%nat * B 2%nat) + bpow radix2 (-147) /\
  Rabs (vx (pval c) - vx (vcross (pval a) (pval b))) <= 4 * bpow radix2 (-24) * (A 1%nat * B 2%nat + A 2%nat * B 1%nat) + bpow radix2 (-147) /\
  Rabs (vy (pval c) - vy (vcross (pval a) (pval b))) <= 4 * bpow radix2 (-24) * (A 2%nat * B 0%nat + A 0%nat * B 2%nat) + bpow radix2 (-147) /\
  Rabs (vz (pval c) - vz (vcross (pval a) (pval b))) <= 4 * bpow radix2 (-24) * (A 0%nat * B 1%nat + A 1%nat * B 0%nat) + bpow radix2 (-147).
Proof. exact @Proofs_Float.C69_products_proof. Qed.
Print Assumptions C69_products.

(** C69: outside that range nothing of the kind holds. The squares of a vector that is not
    null can all underflow, and then normalize throws; those of a vector of finite floats can
    overflow, and then its norm is infinite and normalize returns a null vector. *)
Theorem C69_range : forall L : libm32,
  let tiny3 := mkPosition3D (binary_normalize 24 128 prec_gt_0_24 prec_lt_emax_24 mode_NE 1 (-80) false) (f32_ofZ 0) (f32_ofZ 0) in
  let huge3 := mkPosition3D (binary_normalize 24 128 prec_gt_0_24 prec_lt_emax_24 mode_NE 1 80 false) (f32_ofZ 0) (f32_ofZ 0) in
  finite_p tiny3 /\ 0 < vx (pval tiny3) /\ @p3_normalize f32 (F32Scalar L) tiny3 = Throw /\
  finite_p huge3 /\ @p3_norm f32 (F32Scalar L) huge3 = B754_infinity false /\
  exists u, @p3_normalize f32 (F32Scalar L) huge3 = Ok u /\ pval u = (0, 0, 0).
Proof. exact @Proofs_Float.C69_range_proof. Qed.
Print Assumptions C69_range.

(** C68: functions of that accuracy exist: correctly rounded cosines and sines are within
    2^-23. *)
Theorem C68_accurate : exists L : libm32, accurate L (bpow radix2 (-23)).
Proof. exact @Proofs_Float.C68_accurate_proof. Qed.
Print Assumptions C68_accurate.

(** A quarter turn about x and a translation of 3 along x, 30 times. *)

Definition turn : Transform f32 := mkTransform (f32_ofZ 1) (f32_ofZ 0) (f32_ofZ 0) (f32_ofZ 3) (f32_ofZ 0) (f32_ofZ 0) (f32_ofZ (-1)) (f32_ofZ 0) (f32_ofZ 0) (f32_ofZ 1) (f32_ofZ 0) (f32_ofZ 0).

Example ex_C67 : Forall2 (close 0) (repeat turn 30) (repeat (mkTransform 1 0 0 3 0 0 (-1) 0 0 1 0 0) 30) /\
  Forall (fun r => vnorm (tpos r) <= 3) (repeat (mkTransform 1 0 0 3 0 0 (-1) 0 0 1 0 0) 30) /\
  INR 30 * (5 / 4 * 0 + bpow radix2 (-20)) <= bpow radix2 (-15).
Proof.
  assert (v3 : B2R (f32_ofZ 3) = 3) by (cbv; lra). assert (vm : B2R (f32_ofZ (-1)) = -1) by (cbv; lra).
  assert (v1 : B2R (f32_ofZ 1) = 1) by (cbv; lra). assert (v0 : B2R (f32_ofZ 0) = 0) by reflexivity.
  assert (c : close 0 turn (mkTransform 1 0 0 3 0 0 (-1) 0 0 1 0 0)).
  { split; [repeat constructor|]. split; [apply rigid_mk; unfold so3; lra|].
    assert (e : tval turn = mkTransform 1 0 0 3 0 0 (-1) 0 0 1 0 0) by (unfold tval, turn, val; cbn [t_r1c1 t_r1c2 t_r1c3 t_r1c4 t_r2c1 t_r2c2 t_r2c3 t_r2c4 t_r3c1 t_r3c2 t_r3c3 t_r3c4]; rewrite v0, v1, v3, vm; reflexivity).
    rewrite e. split; [|reflexivity]. apply fro_le; [lra|]. unfold mdiff, sum3. apply Req_le. ring. }
  split; [|split].
  - repeat (constructor; [exact c|]). constructor.
  - assert (n : vnorm (tpos (mkTransform 1 0 0 3 0 0 (-1) 0 0 1 0 0)) <= 3) by (apply vnorm_le; [lra|]; unfold vdot, tpos, vx, vy, vz; cbn; lra).
    repeat (constructor; [exact n|]). constructor.
  - cbn [INR]. replace (bpow radix2 (-20)) with (/ 1048576) by (cbn; lra). replace (bpow radix2 (-15)) with (/ 32768) by (cbn; lra). lra.
Qed.

Example ex_C69 : let p := mkPosition3D (f32_ofZ 3) (f32_ofZ 4) (f32_ofZ 12) in
  finite_p p /\ bpow radix2 (-50) <= vnorm (pval p) <= bpow radix2 50.
Proof.
  intro p. split; [repeat split|]. replace (vnorm (pval p)) with 13.
  - split; [apply Rle_trans with (bpow radix2 0); [apply bpow_le; lia|cbn; lra]|apply Rle_trans with (bpow radix2 4); [cbn; lra|apply bpow_le; lia]].
  - symmetry. unfold vnorm, vdot, pval, p, vx, vy, vz, val. cbn [fst snd p3_x p3_y p3_z].
    assert (v3 : B2R (f32_ofZ 3) = 3) by (cbv; lra). assert (v4 : B2R (f32_ofZ 4) = 4) by (cbv; lra). assert (v12 : B2R (f32_ofZ 12) = 12) by (cbv; lra).
    rewrite v3, v4, v12. replace (3 * 3 + 4 * 4 + 12 * 12) with (13 * 13) by ring. apply sqrt_square. lra.
Qed.

Example ex_C68 : let p := mkPosition6D (f32_ofZ 1) (f32_ofZ 0) (f32_ofZ 0) (f32_ofZ 1) (f32_ofZ 2) (f32_ofZ 3) in
  finite_pose p /\ vnorm (tpos (pose_exact p)) <= 1.
Proof.
  intro p. split; [repeat split|]. unfold pose_exact. rewrite Proofs_Float.tpos_place. apply vnorm_le; [lra|]. unfold vdot, p, vx, vy, vz, val. cbn [fst snd p6_x p6_y p6_z].
  assert (v1 : B2R (f32_ofZ 1) = 1) by (cbv; lra). assert (v0 : B2R (f32_ofZ 0) = 0) by reflexivity. rewrite v0, v1. lra.
Qed.
