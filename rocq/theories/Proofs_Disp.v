(** * Lemmas for Props_Disp *)


From Coq Require Import Reals ZArith List Bool Lra Lia Psatz.
Import ListNotations.
From Flocq Require Import Core.Core IEEE754.BinarySingleNaN.
From Verif Require Import Scalar RInst RLemmas Model_Base Model_Vec Model_Rigid Model_Almath Model_Helpers F32 Spec_Geom Spec_Average Spec_Round Spec_QFloat Spec_Disp.
From Verif Require Import F32Err NormLemmas.
From Verif Require Proofs_Round Proofs_Float Proofs_QFloat.
Local Open Scope R_scope.
Import Proofs_Round Proofs_Float Proofs_QFloat.

Lemma add_round : forall L (p q : Position3D f32), finite_p p -> finite_p q -> vnorm (pval p) + vnorm (pval q) <= huge ->
  let c := @p3_add f32 (F32Scalar L) p q in
  finite_p c /\ vnorm (vsub (pval c) (vadd (pval p) (pval q))) <= ulp1 * vnorm (vadd (pval p) (pval q)) + 2 * tiny.
Proof.
  intros L p q [p1 [p2 p3]] [q1 [q2 q3]] hn c. set (s := vadd (pval p) (pval q)).
  pose proof (vnorm_tri (pval p) (pval q)) as tr. fold s in tr. pose proof (vnorm_coord s) as [c1 [c2 c3]].
  destruct (add_rd (p3_x p) (p3_x q) p1 q1) as [f1 e1]; [apply Rle_trans with (1 := c1); lra|].
  destruct (add_rd (p3_y p) (p3_y q) p2 q2) as [f2 e2]; [apply Rle_trans with (1 := c2); lra|].
  destruct (add_rd (p3_z p) (p3_z q) p3 q3) as [f3 e3]; [apply Rle_trans with (1 := c3); lra|].
  split; [repeat split; assumption|]. pose proof tiny_pos as tp.
  apply Rle_trans with (vnorm (vadd (vscale ulp1 (Rabs (vx s), Rabs (vy s), Rabs (vz s))) (tiny, tiny, tiny))).
  - apply vnorm_mono; unfold vsub, vadd, vscale, pval, val, vx, vy, vz, c, p3_add, s; cbn [fst snd p3_x p3_y p3_z s_add F32Scalar];
      [rewrite e1|rewrite e2|rewrite e3]; apply rd_err.
  - apply Rle_trans with (1 := vnorm_tri _ _). rewrite vnorm_scale, vnorm_abs, Rabs_pos_eq by (unfold ulp1; lra). apply Rplus_le_compat_l.
    apply vnorm_le; [lra|]. unfold vdot, vx, vy, vz. cbn [fst snd]. nra.
Qed.

Lemma d_mul_parts : forall L (a b : Displacement f32), let S := F32Scalar L in
  @d_mul f32 S a b = mkDisplacement (p3_add (d_P a) (q_apply (d_Q a) (d_P b))) (q_mul (d_Q a) (d_Q b)).
Proof. intros L [pa qa] [pb qb] S. reflexivity. Qed.

Lemma qmat_mul : forall P r v, unitq P -> unitq r -> mapply (qmat (hamilton P r)) v = mapply (qmat P) (mapply (qmat r) v).
Proof.
  intros [pw px py pz] [rw rx ry rz] [[v1 v2] v3] uP ur. unfold unitq, qnorm2 in *. cbn [q_w q_x q_y q_z] in *.
  assert (e1 : pw * pw = 1 - px * px - py * py - pz * pz) by lra. assert (e2 : rw * rw = 1 - rx * rx - ry * ry - rz * rz) by lra.
  unfold mapply, sum3, qmat, of_rows, hamilton, vx, vy, vz. cbn [q_w q_x q_y q_z fst snd]. apply f_equal2; [apply f_equal2|]; ring [e1 e2].
Qed.
Lemma mapply_add : forall A u v, mapply A (vadd u v) = vadd (mapply A u) (mapply A v).
Proof. intros A [[u1 u2] u3] [[v1 v2] v3]. unfold mapply, vadd, sum3, vx, vy, vz. cbn [fst snd]. apply f_equal2; [apply f_equal2|]; ring. Qed.
Lemma vadd_assoc : forall u v k, vadd u (vadd v k) = vadd (vadd u v) k.
Proof. intros [[u1 u2] u3] [[v1 v2] v3] [[w1 w2] w3]. unfold vadd, vx, vy, vz. cbn [fst snd]. apply f_equal2; [apply f_equal2|]; ring. Qed.
Lemma vadd_comm : forall u v, vadd u v = vadd v u.
Proof. intros [[u1 u2] u3] [[v1 v2] v3]. unfold vadd, vx, vy, vz. cbn [fst snd]. apply f_equal2; [apply f_equal2|]; ring. Qed.
Lemma vadd_0 : forall u, vadd u (0, 0, 0) = u.
Proof. intros [[u1 u2] u3]. unfold vadd, vx, vy, vz. cbn [fst snd]. apply f_equal2; [apply f_equal2|]; ring. Qed.
Lemma mapply_0 : forall A, mapply A (0, 0, 0) = (0, 0, 0).
Proof. intros A. unfold mapply, sum3, vx, vy, vz. cbn [fst snd]. apply f_equal2; [apply f_equal2|]; ring. Qed.

Definition cst : R := bpow radix2 (-140).
Lemma cst_pos : 0 < cst. Proof. apply bpow_gt_0. Qed.
Lemma cst_w : bpow radix2 (-145) + 4 * tiny <= / 2 * cst.
Proof.
  unfold cst. assert (e : bpow radix2 (-140) = 32 * bpow radix2 (-145)) by (change 32 with (bpow radix2 5); rewrite <- bpow_plus; reflexivity).
  assert (t : tiny <= bpow radix2 (-145)) by (unfold tiny; apply bpow_le; lia). pose proof (bpow_gt_0 radix2 (-145)). lra.
Qed.
Definition bound (k K M : R) : R := (6 * (K * (K * k)) + 512 * ulp1 * K) * M + K * cst.

Lemma dstep : forall L (p a : Displacement f32) P r t X (K k d M : R),
  k = 5 / 4 * d + 16 * ulp1 -> 0 <= d -> 0 <= M <= bpow radix2 30 -> 0 <= K -> (K + 1) * k <= / 100 ->
  near_unit (K * k) (d_Q p) P -> finite_p (d_P p) -> vnorm (vsub (pval (d_P p)) X) <= bound k K M -> vnorm X <= K * M ->
  stands_for d a (r, t) -> vnorm t <= M ->
  let c := @d_mul f32 (F32Scalar L) p a in let X' := vadd X (mapply (qmat P) t) in
  near_unit ((K + 1) * k) (d_Q c) (hamilton P r) /\ finite_p (d_P c) /\ vnorm (vsub (pval (d_P c)) X') <= bound k (K + 1) M /\ vnorm X' <= (K + 1) * M.
Proof.
  intros L p a P r t X K k d M ek hd hM hK hk hp fp hX nX [ha [fa ta]] nt c X'. cbn [fst snd] in ha, ta.
  assert (u0 : 0 < ulp1 <= / 1000000) by (unfold ulp1; lra). assert (k16 : 16 * ulp1 <= k) by lra.
  assert (z0 : 0 <= K * k) by (apply Rmult_le_pos; lra). assert (z1 : K * k <= / 100 - k) by lra.
  assert (uP : unitq P) by apply hp. assert (ur : unitq r) by apply ha.
  unfold c. rewrite d_mul_parts. cbn [d_P d_Q].
  destruct (qstep L (d_Q p) P (d_Q a) r d (K * k) (proj1 hp) uP (proj2 (proj2 hp)) ltac:(lra) ha ltac:(lra)) as [s1 [s2 s3]].
  assert (nX' : vnorm X' <= (K + 1) * M).
  { unfold X'. apply Rle_trans with (1 := vnorm_tri _ _). rewrite (mapply_isom _ _ (proj1 (qmat_proper P uP))). lra. }
  split; [split; [exact s1|split; [exact s2|apply Rle_trans with (1 := s3); lra]]|].
  assert (b30 : bpow radix2 30 <= bpow radix2 50) by (apply bpow_le; lia).
  destruct (C71_rotate_proof L (d_Q p) P (d_P a) (K * k) hp ltac:(lra) fa ltac:(rewrite ta; lra)) as [r1 r2]. rewrite ta in r2.
  set (v := q_apply (d_Q p) (d_P a)) in *.
  assert (h16 : 256 * ulp1 = bpow radix2 (-16)) by (unfold ulp1; cbn; lra).
  rewrite <- h16 in r2. pose proof tiny_pos as tp. pose proof cst_pos as cp. pose proof cst_w as cw. pose proof (bpow_gt_0 radix2 (-145)) as w0.
  assert (r3 : vnorm (vsub (pval v) (mapply (qmat P) t)) <= (11 * (K * k) + 256 * ulp1) * M + bpow radix2 (-145)).
  { apply Rle_trans with (1 := r2). apply Rplus_le_compat_r, Rmult_le_compat_l; lra. }
  set (z := K * k) in *. assert (zM0 : 0 <= z * M) by (apply Rmult_le_pos; lra). assert (uM0 : 0 <= ulp1 * M) by (apply Rmult_le_pos; lra).
  assert (uK : 0 <= 16 * (ulp1 * K) <= z) by (split; [assert (0 <= ulp1 * K) by (apply Rmult_le_pos; lra); lra|unfold z; rewrite (Rmult_comm K); replace (16 * (ulp1 * K)) with (16 * ulp1 * K) by ring; apply Rmult_le_compat_r; lra]).
  assert (uKM : 0 <= 16 * (ulp1 * K * M) <= z * M) by (split; [assert (0 <= ulp1 * K * M) by (apply Rmult_le_pos; lra); lra|replace (16 * (ulp1 * K * M)) with (16 * (ulp1 * K) * M) by ring; apply Rmult_le_compat_r; lra]).
  assert (zM1 : z * M <= / 100 * M) by (apply Rmult_le_compat_r; lra).
  assert (uB : 0 <= ulp1 * bound k K M <= / 10 * (z * M) + / 100 * cst).
  { unfold bound. fold z. replace (ulp1 * ((6 * (K * z) + 512 * ulp1 * K) * M + K * cst)) with (6 * ((ulp1 * K) * (z * M)) + 512 * (ulp1 * (ulp1 * K * M)) + ulp1 * K * cst) by ring.
    assert (0 <= (ulp1 * K) * (z * M) <= / 100 * (z * M)) by (split; [apply Rmult_le_pos; lra|apply Rmult_le_compat_r; lra]).
    assert (0 <= ulp1 * (ulp1 * K * M) <= / 1000000 * (ulp1 * K * M)) by (split; [apply Rmult_le_pos; lra|apply Rmult_le_compat_r; lra]).
    assert (0 <= ulp1 * K * cst <= / 100 * cst) by (split; [apply Rmult_le_pos; lra|apply Rmult_le_compat_r; lra]). lra. }
  pose proof (vnorm_near (pval (d_P p)) X) as n1. pose proof (vnorm_near (pval v) (mapply (qmat P) t)) as n2.
  rewrite (mapply_isom _ _ (proj1 (qmat_proper P uP))) in n2.
  assert (n3 : vnorm (pval v) <= 12 / 10 * M + bpow radix2 (-145)).
  { assert (256 * ulp1 * M <= 256 / 1000000 * M) by (apply Rmult_le_compat_r; lra). lra. }
  assert (hs : vnorm (pval (d_P p)) + vnorm (pval v) <= K * M + bound k K M + 12 / 10 * M + bpow radix2 (-145)) by lra.
  set (S := K * M + bound k K M + 12 / 10 * M + bpow radix2 (-145)) in *.
  assert (uS : ulp1 * S <= z * M * / 16 + / 10 * (z * M) + / 100 * cst + 12 / 10 * (ulp1 * M) + / 100 * bpow radix2 (-145)).
  { unfold S. assert (ulp1 * bpow radix2 (-145) <= / 100 * bpow radix2 (-145)) by (apply Rmult_le_compat_r; lra). lra. }
  assert (hh : S <= huge).
  { apply Rmult_le_reg_l with ulp1; [lra|]. apply Rle_trans with (1 := uS).
    assert (c1 : cst <= 1) by (unfold cst; change 1 with (bpow radix2 0); apply bpow_le; lia).
    assert (c2 : ulp1 * bpow radix2 60 <= ulp1 * huge) by (apply Rmult_le_compat_l; [lra|unfold huge; apply bpow_le; lia]).
    assert (c3 : ulp1 * bpow radix2 60 = 64 * bpow radix2 30).
    { assert (e : ulp1 = bpow radix2 (-24)) by (unfold ulp1; cbn; lra). rewrite e, <- bpow_plus. change 64 with (bpow radix2 6). rewrite <- bpow_plus. reflexivity. }
    assert (c4 : 1 <= bpow radix2 30) by (change 1 with (bpow radix2 0); apply bpow_le; lia).
    assert (ulp1 * M <= / 1000000 * M) by (apply Rmult_le_compat_r; lra). lra. }
  destruct (add_round L (d_P p) v fp r1 ltac:(lra)) as [a1 a2]. split; [exact a1|]. split; [|exact nX'].
  set (s := vadd (pval (d_P p)) (pval v)) in *.
  assert (a3 : ulp1 * vnorm s <= ulp1 * S) by (apply Rmult_le_compat_l; [lra|]; pose proof (vnorm_tri (pval (d_P p)) (pval v)); fold s in H; lra).
  rewrite (vsub_split _ s). apply Rle_trans with (1 := vnorm_tri _ _).
  assert (e : vsub s X' = vadd (vsub (pval (d_P p)) X) (vsub (pval v) (mapply (qmat P) t))).
  { unfold s, X'. generalize (pval (d_P p)) (pval v) (mapply (qmat P) t). intros [[x1 x2] x3] [[y1 y2] y3] [[t1 t2] t3]. destruct X as [[X1 X2] X3].
    unfold vsub, vadd, vx, vy, vz. cbn [fst snd]. apply f_equal2; [apply f_equal2|]; ring. }
  rewrite e. pose proof (vnorm_tri (vsub (pval (d_P p)) X) (vsub (pval v) (mapply (qmat P) t))) as tr.
  assert (B : bound k (K + 1) M = bound k K M + 12 * (z * M) + 6 * (k * M) + 512 * (ulp1 * M) + cst) by (unfold bound, z; ring).
  assert (kM : 0 <= k * M) by (apply Rmult_le_pos; lra). rewrite B. lra.
Qed.

Lemma many_d : forall L l rs d M k, k = 5 / 4 * d + 16 * ulp1 -> 0 <= d -> 0 <= M <= bpow radix2 30 ->
  Forall2 (stands_for d) l rs -> Forall (fun m => vnorm (snd m) <= M) rs ->
  forall p P X K, 0 <= K -> (K + INR (length l)) * k <= / 100 -> near_unit (K * k) (d_Q p) P -> finite_p (d_P p) ->
  vnorm (vsub (pval (d_P p)) X) <= bound k K M -> vnorm X <= K * M ->
  let c := fold_left (@d_mul f32 (F32Scalar L)) l p in let n := K + INR (length l) in let Q := fold_left hamilton (map fst rs) P in
  let X' := vadd X (mapply (qmat P) (moves rs (0, 0, 0))) in
  near_unit (n * k) (d_Q c) Q /\ finite_p (d_P c) /\ vnorm (vsub (pval (d_P c)) X') <= bound k n M /\
  forall w, vadd X (mapply (qmat P) (moves rs w)) = vadd (mapply (qmat Q) w) X'.
Proof.
  intros L l rs d M k ek hd hM h. induction h as [|a [r t] l rs ha hl IH]; intros hm p P X K hK hk hp fp hX nX.
  - cbn [fold_left length INR map moves fold_right] in *. rewrite Rplus_0_r, mapply_0, vadd_0. repeat split; try apply hp; try apply fp; try exact hX. intro w. apply vadd_comm.
  - inversion hm as [|x y hm1 hm2]; subst x y. cbn [snd] in hm1. change (length (a :: l)) with (Datatypes.S (length l)) in *. rewrite S_INR in *.
    pose proof (pos_INR (length l)) as n0. assert (k0 : 0 < k) by (unfold ulp1 in *; lra).
    assert (nk : 0 <= INR (length l) * k) by (apply Rmult_le_pos; lra).
    destruct (dstep L p a P r t X K k d M ek hd hM hK ltac:(lra) hp fp hX nX ha hm1) as [s1 [s2 [s3 s4]]].
    specialize (IH hm2 _ _ _ (K + 1) ltac:(lra) ltac:(lra) s1 s2 s3 s4). cbv zeta in IH. cbn [fold_left map fst].
    replace (K + (INR (length l) + 1)) with (K + 1 + INR (length l)) by ring.
    assert (E : forall w, vadd X (mapply (qmat P) (moves ((r, t) :: rs) w)) = vadd (vadd X (mapply (qmat P) t)) (mapply (qmat (hamilton P r)) (moves rs w))).
    { intro w. cbn [moves fold_right]. fold (moves rs w). unfold move. cbn [fst snd].
      rewrite mapply_add, <- (qmat_mul P r) by (apply hp || apply ha). rewrite (vadd_comm (mapply (qmat (hamilton P r)) (moves rs w))). apply vadd_assoc. }
    cbv zeta. rewrite E. destruct IH as [i1 [i2 [i3 i4]]]. split; [exact i1|]. split; [exact i2|]. split; [exact i3|].
    intro w. rewrite E. apply i4.
Qed.

Lemma C83_chain_proof : forall (L : libm32) (l : list (Displacement f32)) (ms : list (Quaternion R * vec3)) (d M : R),
  Forall2 (stands_for d) l ms -> Forall (fun m => vnorm (snd m) <= M) ms -> 0 <= d -> 0 <= M <= bpow radix2 30 ->
  let n := INR (length l) in let k := 5 / 4 * d + bpow radix2 (-20) in n * k <= / 100 ->
  let c := @dproduct f32 (F32Scalar L) l in
  near_unit (n * k) (d_Q c) (hproduct (map fst ms)) /\ finite_p (d_P c) /\
  vnorm (vsub (pval (d_P c)) (moves ms (0, 0, 0))) <= n * (6 * n * k + bpow radix2 (-15)) * M + n * bpow radix2 (-140) /\
  forall w, moves ms w = vadd (mapply (qmat (hproduct (map fst ms))) w) (moves ms (0, 0, 0)).
Proof.
  intros L l ms d M h hm hd hM n k hk c.
  assert (ek : k = 5 / 4 * d + 16 * ulp1) by (unfold k; rewrite u20; reflexivity).
  assert (vz0 : vnorm (0, 0, 0) = 0) by (unfold vnorm, vdot, vx, vy, vz; cbn [fst snd]; replace (0 * 0 + 0 * 0 + 0 * 0) with 0 by ring; apply sqrt_0).
  assert (pz : pval (d_P (@d_default f32 (F32Scalar L))) = (0, 0, 0)) by reflexivity.
  assert (one : forall w, mapply (qmat (mkQuaternion 1 0 0 0)) w = w).
  { intros [[w1 w2] w3]. unfold mapply, sum3, qmat, of_rows, vx, vy, vz. cbn [q_w q_x q_y q_z fst snd]. apply f_equal2; [apply f_equal2|]; ring. }
  assert (zadd : forall w, vadd (0, 0, 0) w = w) by (intro w; rewrite vadd_comm; apply vadd_0).
  destruct (many_d L l ms d M k ek hd hM h hm (@d_default f32 (F32Scalar L)) (mkQuaternion 1 0 0 0) (0, 0, 0) 0) as [c1 [c2 [c3 c4]]].
  - lra.
  - fold n. lra.
  - split; [apply qid_fin|]. split; [apply qid_unit|]. cbn [d_Q d_default]. rewrite qid_val, qsub_self. lra.
  - repeat split.
  - rewrite pz. replace (vsub (0, 0, 0) (0, 0, 0)) with ((0, 0, 0) : vec3) by (unfold vsub, vx, vy, vz; cbn [fst snd]; apply f_equal2; [apply f_equal2|]; ring). rewrite vz0. unfold bound. lra.
  - rewrite vz0. lra.
  - rewrite zadd, one, Rplus_0_l in *. fold n c in c1, c2, c3. split; [exact c1|]. split; [exact c2|]. split.
    + apply Rle_trans with (1 := c3). unfold bound. apply Req_le.
      assert (b15 : 512 * ulp1 = bpow radix2 (-15)) by (unfold ulp1; cbn; lra). rewrite <- b15. unfold cst. ring.
    + intro w. specialize (c4 w). rewrite zadd, one in c4. exact c4.
Qed.


Lemma C83_transform_proof : forall (L : libm32) (l : list (Displacement f32)) (ms : list (Quaternion R * vec3)) (d M : R) (w : vec3),
  Forall2 (stands_for d) l ms -> Forall (fun m => vnorm (snd m) <= M) ms -> 0 <= d -> 0 <= M <= bpow radix2 30 ->
  let n := INR (length l) in let k := 5 / 4 * d + bpow radix2 (-20) in n * k <= / 100 ->
  let t := @transformFromDisplacement f32 (F32Scalar L) (@dproduct f32 (F32Scalar L) l) in
  finite_t t /\
  vnorm (vsub (motion (tval t) w) (moves ms w)) <=
    (9 * (n * k) + bpow radix2 (-19)) * vnorm w + n * (6 * n * k + bpow radix2 (-15)) * M + n * bpow radix2 (-140).
Proof.
  intros L l ms d M w h hm hd hM n k hk t. destruct (C83_chain_proof L l ms d M h hm hd hM hk) as [c1 [c2 [c3 c4]]]. fold n k in c1, c3.
  set (c := @dproduct f32 (F32Scalar L) l) in *. set (Q := hproduct (map fst ms)) in *.
  destruct (C71_matrix_proof L (d_Q c) Q (n * k) c1 hk) as [[m1 [_ [m3 _]]] _].
  assert (ft : finite_t t).
  { unfold t, transformFromDisplacement. destruct (@transformFromQuaternion f32 (F32Scalar L) (d_Q c)). destruct c2 as [p1 [p2 p3]].
    unfold finite_t, coefs in *. cbn in *.
    repeat match goal with H : Forall _ (_ :: _) |- _ => inversion H; subst; clear H end. repeat (apply Forall_cons; [assumption|]). apply Forall_nil. }
  assert (mt : meq (tmat (tval t)) (tmat (tval (@transformFromQuaternion f32 (F32Scalar L) (d_Q c))))).
  { unfold t, transformFromDisplacement. destruct (@transformFromQuaternion f32 (F32Scalar L) (d_Q c)). intros i j hi hj. reflexivity. }
  assert (pt : tpos (tval t) = pval (d_P c)).
  { unfold t, transformFromDisplacement. destruct (@transformFromQuaternion f32 (F32Scalar L) (d_Q c)). reflexivity. }
  split; [exact ft|]. rewrite c4. unfold motion. rewrite pt.
  assert (e : vsub (vadd (mapply (tmat (tval t)) w) (pval (d_P c))) (vadd (mapply (qmat Q) w) (moves ms (0, 0, 0))) =
    vadd (mapply (mdiff (tmat (tval t)) (qmat Q)) w) (vsub (pval (d_P c)) (moves ms (0, 0, 0)))).
  { generalize (pval (d_P c)) (moves ms (0, 0, 0)). intros [[x1 x2] x3] [[y1 y2] y3]. unfold mapply, mdiff, sum3, vsub, vadd, vx, vy, vz. cbn [fst snd]. apply f_equal2; [apply f_equal2|]; ring. }
  rewrite e. apply Rle_trans with (1 := vnorm_tri _ _).
  assert (f : fro (mdiff (tmat (tval t)) (qmat Q)) <= 9 * (n * k) + bpow radix2 (-19)).
  { apply Rle_trans with (2 := m3). apply Req_le, fro_ext. intros i j hi hj. unfold mdiff. rewrite (mt i j hi hj), (tmat_place _ _ i j hi hj). reflexivity. }
  pose proof (mapply_le (mdiff (tmat (tval t)) (qmat Q)) w) as m.
  assert (fro (mdiff (tmat (tval t)) (qmat Q)) * vnorm w <= (9 * (n * k) + bpow radix2 (-19)) * vnorm w) by (apply Rmult_le_compat_r; [apply vnorm_pos|exact f]).
  lra.
Qed.
