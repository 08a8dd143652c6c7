(** * Lemmas for Props_QFloat *)


From Coq Require Import Reals ZArith List Bool Lra Lia Psatz.
Import ListNotations.
From Flocq Require Import Core.Core IEEE754.BinarySingleNaN.
From Verif Require Import Scalar RInst RLemmas Model_Base Model_Vec Model_Rigid Model_Almath Model_Helpers F32 Spec_Geom Spec_Average Spec_Round Spec_QFloat.
From Verif Require Import F32Err F64Err Wide NormLemmas.
From Verif Require Proofs_Round Proofs_Float Proofs_Odom Proofs_Geom.
Local Open Scope R_scope.
Import Proofs_Float Proofs_Odom Proofs_Round.

(** ** Norm of quaternions *)

Lemma qnorm2_pos : forall q, 0 <= qnorm2 q.
Proof. intro q. unfold qnorm2. nra. Qed.
Lemma qn_pos : forall q, 0 <= qn q.
Proof. intro q. apply sqrt_pos. Qed.
Lemma qn_sq : forall q, qn q * qn q = qnorm2 q.
Proof. intro q. apply sqrt_sqrt, qnorm2_pos. Qed.
Lemma qn_le : forall q a, 0 <= a -> qnorm2 q <= a * a -> qn q <= a.
Proof. intros q a h1 h2. apply Rsqr_incr_0_var; [|exact h1]. unfold Rsqr. now rewrite qn_sq. Qed.
Lemma qn_unit : forall q, unitq q -> qn q = 1.
Proof. intros q h. unfold qn. rewrite h. apply sqrt_1. Qed.

Definition qdot (a b : Quaternion R) : R := q_w a * q_w b + q_x a * q_x b + q_y a * q_y b + q_z a * q_z b.
Lemma qdot_cs : forall a b, Rabs (qdot a b) <= qn a * qn b.
Proof.
  intros a b. pose proof (qn_pos a) as ha. pose proof (qn_pos b) as hb.
  assert (h0 : 0 <= qn a * qn b) by now apply Rmult_le_pos.
  rewrite <- (Rabs_pos_eq _ h0). apply Rsqr_le_abs_0. unfold Rsqr.
  replace (qn a * qn b * (qn a * qn b)) with (qn a * qn a * (qn b * qn b)) by ring. rewrite !qn_sq.
  destruct a as [aw ax ay az]. destruct b as [bw bx by_ bz]. unfold qdot, qnorm2. cbn [q_w q_x q_y q_z].
  pose proof (Rle_0_sqr (aw*bx - ax*bw)). pose proof (Rle_0_sqr (aw*by_ - ay*bw)). pose proof (Rle_0_sqr (aw*bz - az*bw)).
  pose proof (Rle_0_sqr (ax*by_ - ay*bx)). pose proof (Rle_0_sqr (ax*bz - az*bx)). pose proof (Rle_0_sqr (ay*bz - az*by_)).
  unfold Rsqr in *. nra.
Qed.
Lemma qn_tri : forall a b c, qn (qsub a c) <= qn (qsub a b) + qn (qsub b c).
Proof.
  intros a b c. pose proof (qn_pos (qsub a b)) as h1. pose proof (qn_pos (qsub b c)) as h2. apply qn_le; [lra|].
  pose proof (qdot_cs (qsub a b) (qsub b c)) as h. apply Rabs_le_inv in h. destruct h as [_ h].
  replace (qnorm2 (qsub a c)) with (qnorm2 (qsub a b) + 2 * qdot (qsub a b) (qsub b c) + qnorm2 (qsub b c))
    by (unfold qnorm2, qdot, qsub; cbn [q_w q_x q_y q_z]; ring).
  rewrite <- !qn_sq. lra.
Qed.
Lemma qn_near : forall a b, qn a <= qn b + qn (qsub a b).
Proof.
  intros a b. pose proof (qn_tri a b (mkQuaternion 0 0 0 0)) as h.
  assert (e : forall q, qsub q (mkQuaternion 0 0 0 0) = q) by (intros [w1 x1 y1 z1]; unfold qsub; cbn [q_w q_x q_y q_z]; rewrite !Rminus_0_r; reflexivity).
  rewrite !e in h. lra.
Qed.
Lemma qn_sym : forall a b, qn (qsub a b) = qn (qsub b a).
Proof. intros a b. unfold qn. f_equal. unfold qnorm2, qsub. cbn [q_w q_x q_y q_z]. ring. Qed.
Lemma qn_coord : forall q, Rabs (q_w q) <= qn q /\ Rabs (q_x q) <= qn q /\ Rabs (q_y q) <= qn q /\ Rabs (q_z q) <= qn q.
Proof.
  intro q. pose proof (qn_pos q) as h0. pose proof (qn_sq q) as h. unfold qnorm2 in h.
  repeat split; rewrite <- (Rabs_pos_eq _ h0); apply Rsqr_le_abs_0; unfold Rsqr; nra.
Qed.
Lemma qn_all : forall q e, Rabs (q_w q) <= e -> Rabs (q_x q) <= e -> Rabs (q_y q) <= e -> Rabs (q_z q) <= e -> qn q <= 2 * e.
Proof.
  intros q e h1 h2 h3 h4. assert (e0 : 0 <= e) by (apply Rle_trans with (2 := h1); apply Rabs_pos). apply qn_le; [lra|].
  apply sq_abs in h1. apply sq_abs in h2. apply sq_abs in h3. apply sq_abs in h4. unfold qnorm2. lra.
Qed.
Lemma hamilton_norm : forall a b, qn (hamilton a b) = qn a * qn b.
Proof.
  intros a b. unfold qn. rewrite <- sqrt_mult by apply qnorm2_pos. f_equal.
  unfold qnorm2, hamilton. cbn [q_w q_x q_y q_z]. ring.
Qed.
Lemma hamilton_unit : forall a b, unitq a -> unitq b -> unitq (hamilton a b).
Proof.
  intros a b ha hb. unfold unitq. rewrite <- qn_sq, hamilton_norm, (qn_unit a ha), (qn_unit b hb). ring.
Qed.
Lemma hamilton_diff : forall a b r s, qn (qsub (hamilton a b) (hamilton r s)) <= qn (qsub a r) * qn s + qn a * qn (qsub b s).
Proof.
  intros a b r s. apply Rle_trans with (1 := qn_tri _ (hamilton a s) _). rewrite Rplus_comm. apply Rplus_le_compat.
  - rewrite <- hamilton_norm. apply Req_le. f_equal. unfold qsub, hamilton. cbn [q_w q_x q_y q_z]. f_equal; ring.
  - rewrite <- hamilton_norm. apply Req_le. f_equal. unfold qsub, hamilton. cbn [q_w q_x q_y q_z]. f_equal; ring.
Qed.

(** ** The product *)

Definition pm (b : bool) (x y : f32) : f32 := if b then Bplus mode_NE x y else Bminus mode_NE x y.
Definition rpm (b : bool) (x y : R) : R := if b then x + y else x - y.
Lemma pm_err : forall op x y r s a b e f, fin x -> fin y -> Rabs r <= a -> Rabs s <= b -> Rabs (v32 x - r) <= e -> Rabs (v32 y - s) <= f ->
  a + b + e + f <= huge -> fin (pm op x y) /\ Rabs (v32 (pm op x y) - rpm op r s) <= e + f + ulp1 * (a + b + e + f) + tiny.
Proof. intros [] x y r s a b e f h1 h2 h3 h4 h5 h6 h7; [now apply add_err|now apply sub_err]. Qed.
Lemma rpm_abs : forall op x y, Rabs (rpm op x y) <= Rabs x + Rabs y.
Proof. intros [] x y; unfold rpm; [apply Rabs_triang|]. unfold Rminus. rewrite <- (Rabs_Ropp y). apply Rabs_triang. Qed.

Lemma dot4_err : forall o1 o2 o3 (x1 y1 x2 y2 x3 y3 x4 y4 : f32),
  fin x1 -> fin y1 -> fin x2 -> fin y2 -> fin x3 -> fin y3 -> fin x4 -> fin y4 ->
  let S := Rabs (v32 x1 * v32 y1) + Rabs (v32 x2 * v32 y2) + Rabs (v32 x3 * v32 y3) + Rabs (v32 x4 * v32 y4) in
  S <= / 100 * huge ->
  let p := pm o3 (pm o2 (pm o1 (Bmult mode_NE x1 y1) (Bmult mode_NE x2 y2)) (Bmult mode_NE x3 y3)) (Bmult mode_NE x4 y4) in
  fin p /\ Rabs (v32 p - rpm o3 (rpm o2 (rpm o1 (v32 x1 * v32 y1) (v32 x2 * v32 y2)) (v32 x3 * v32 y3)) (v32 x4 * v32 y4)) <= 41 / 10 * ulp1 * S + 8 * tiny.
Proof.
  intros o1 o2 o3 x1 y1 x2 y2 x3 y3 x4 y4 hx1 hy1 hx2 hy2 hx3 hy3 hx4 hy4 S hS p.
  pose proof (Rabs_pos (v32 x1 * v32 y1)) as p1. pose proof (Rabs_pos (v32 x2 * v32 y2)) as p2. pose proof (Rabs_pos (v32 x3 * v32 y3)) as p3. pose proof (Rabs_pos (v32 x4 * v32 y4)) as p4.
  pose proof tiny_pos as tp. pose proof tiny_small as ts. pose proof huge_big as hb. unfold ulp1 in *.
  destruct (mul_err x1 y1 hx1 hy1) as [f1 e1]; [unfold S in hS; lra|].
  destruct (mul_err x2 y2 hx2 hy2) as [f2 e2]; [unfold S in hS; lra|].
  destruct (mul_err x3 y3 hx3 hy3) as [f3 e3]; [unfold S in hS; lra|].
  destruct (mul_err x4 y4 hx4 hy4) as [f4 e4]; [unfold S in hS; lra|].
  destruct (pm_err o1 _ _ _ _ _ _ _ _ f1 f2 (Rle_refl _) (Rle_refl _) e1 e2) as [f5 e5]; [unfold S, ulp1 in *; lra|].
  assert (q2 : Rabs (rpm o1 (v32 x1 * v32 y1) (v32 x2 * v32 y2)) <= Rabs (v32 x1 * v32 y1) + Rabs (v32 x2 * v32 y2)) by apply rpm_abs.
  destruct (pm_err o2 _ _ _ _ _ _ _ _ f5 f3 q2 (Rle_refl _) e5 e3) as [f6 e6]; [unfold S, ulp1 in *; lra|].
  assert (q3 : Rabs (rpm o2 (rpm o1 (v32 x1 * v32 y1) (v32 x2 * v32 y2)) (v32 x3 * v32 y3)) <= Rabs (v32 x1 * v32 y1) + Rabs (v32 x2 * v32 y2) + Rabs (v32 x3 * v32 y3))
    by (apply Rle_trans with (1 := rpm_abs _ _ _); lra).
  destruct (pm_err o3 _ _ _ _ _ _ _ _ f6 f4 q3 (Rle_refl _) e6 e4) as [f7 e7]; [unfold S, ulp1 in *; lra|].
  split; [exact f7|]. apply Rle_trans with (1 := e7). unfold S, ulp1 in *. lra.
Qed.

Lemma abs_dot : forall aw ax ay az bw bx by_ bz,
  Rabs (aw * bw) + Rabs (ax * bx) + Rabs (ay * by_) + Rabs (az * bz) <= qn (mkQuaternion aw ax ay az) * qn (mkQuaternion bw bx by_ bz).
Proof.
  intros. pose proof (qdot_cs (mkQuaternion (Rabs aw) (Rabs ax) (Rabs ay) (Rabs az)) (mkQuaternion (Rabs bw) (Rabs bx) (Rabs by_) (Rabs bz))) as h.
  apply Rabs_le_inv in h. destruct h as [_ h]. unfold qdot in h. cbn [q_w q_x q_y q_z] in h. rewrite <- !Rabs_mult in h.
  apply Rle_trans with (1 := h). apply Req_le. f_equal; unfold qn; f_equal; unfold qnorm2; cbn [q_w q_x q_y q_z];
    rewrite <- !Rabs_mult, !Rabs_pos_eq by nra; reflexivity.
Qed.

Lemma mul_round : forall L (a b : Quaternion f32), finite_qu a -> finite_qu b ->
  qn (quval a) * qn (quval b) <= / 100 * huge ->
  let c := @q_mul f32 (F32Scalar L) a b in
  finite_qu c /\ qn (qsub (quval c) (hamilton (quval a) (quval b))) <= 82 / 10 * ulp1 * (qn (quval a) * qn (quval b)) + 16 * tiny.
Proof.
  intros L a b [a1 [a2 [a3 a4]]] [b1 [b2 [b3 b4]]] hh c.
  destruct a as [aw ax ay az]. destruct b as [bw bx by_ bz]. cbn [q_w q_x q_y q_z] in a1, a2, a3, a4, b1, b2, b3, b4.
  set (P := qn (quval (mkQuaternion aw ax ay az)) * qn (quval (mkQuaternion bw bx by_ bz))) in *.
  unfold quval, val in P. cbn [q_w q_x q_y q_z] in P.
  pose proof tiny_pos as tp.
  assert (S1 : Rabs (v32 aw * v32 bw) + Rabs (v32 ax * v32 bx) + Rabs (v32 ay * v32 by_) + Rabs (v32 az * v32 bz) <= P) by apply abs_dot.
  assert (nb : forall x y z w, qnorm2 (mkQuaternion x y z w) = qnorm2 (mkQuaternion (v32 bw) (v32 bx) (v32 by_) (v32 bz)) ->
    qn (mkQuaternion (v32 aw) (v32 ax) (v32 ay) (v32 az)) * qn (mkQuaternion x y z w) = P).
  { intros x y z w h. unfold P. f_equal. unfold qn. now rewrite h. }
  assert (S2 : Rabs (v32 aw * v32 bx) + Rabs (v32 bw * v32 ax) + Rabs (v32 ay * v32 bz) + Rabs (v32 az * v32 by_) <= P).
  { rewrite (Rmult_comm (v32 bw)). rewrite <- (nb (v32 bx) (v32 bw) (v32 bz) (v32 by_)); [apply abs_dot|]. unfold qnorm2. cbn [q_w q_x q_y q_z]. ring. }
  assert (S3 : Rabs (v32 aw * v32 by_) + Rabs (v32 bw * v32 ay) + Rabs (v32 az * v32 bx) + Rabs (v32 ax * v32 bz) <= P).
  { rewrite (Rmult_comm (v32 bw)). rewrite <- (nb (v32 by_) (v32 bz) (v32 bw) (v32 bx)); [|unfold qnorm2; cbn [q_w q_x q_y q_z]; ring].
    pose proof (abs_dot (v32 aw) (v32 ax) (v32 ay) (v32 az) (v32 by_) (v32 bz) (v32 bw) (v32 bx)). lra. }
  assert (S4 : Rabs (v32 aw * v32 bz) + Rabs (v32 bw * v32 az) + Rabs (v32 ax * v32 by_) + Rabs (v32 ay * v32 bx) <= P).
  { rewrite (Rmult_comm (v32 bw)). rewrite <- (nb (v32 bz) (v32 by_) (v32 bx) (v32 bw)); [|unfold qnorm2; cbn [q_w q_x q_y q_z]; ring].
    pose proof (abs_dot (v32 aw) (v32 ax) (v32 ay) (v32 az) (v32 bz) (v32 by_) (v32 bx) (v32 bw)). lra. }
  destruct (dot4_err false false false aw bw ax bx ay by_ az bz) as [f1 e1]; try assumption; [lra|].
  destruct (dot4_err true true false aw bx bw ax ay bz az by_) as [f2 e2]; try assumption; [lra|].
  destruct (dot4_err true true false aw by_ bw ay az bx ax bz) as [f3 e3]; try assumption; [lra|].
  destruct (dot4_err true true false aw bz bw az ax by_ ay bx) as [f4 e4]; try assumption; [lra|].
  split; [repeat split; assumption|].
  apply Rle_trans with (2 * (41 / 10 * ulp1 * P + 8 * tiny)); [|lra].
  assert (U : forall s, s <= P -> 41 / 10 * ulp1 * s + 8 * tiny <= 41 / 10 * ulp1 * P + 8 * tiny) by (intros s hs; unfold ulp1; lra).
  unfold pm, rpm in *.
  apply qn_all; unfold qsub, hamilton, quval, c, q_mul, val; cbn [q_w q_x q_y q_z s_add s_sub s_mul F32Scalar].
  - apply Rle_trans with (1 := e1). now apply U.
  - rewrite (Rmult_comm (v32 ax)). apply Rle_trans with (1 := e2). now apply U.
  - rewrite (Rmult_comm (v32 ay)). apply Rle_trans with (1 := e3). now apply U.
  - rewrite (Rmult_comm (v32 az) (v32 bw)). apply Rle_trans with (1 := e4). now apply U.
Qed.

Lemma C71_product_proof : forall (L : libm32) (a b : Quaternion f32), finite_qu a -> finite_qu b ->
  qn (quval a) <= bpow radix2 50 -> qn (quval b) <= bpow radix2 50 ->
  let c := @q_mul f32 (F32Scalar L) a b in
  finite_qu c /\
  qn (qsub (quval c) (hamilton (quval a) (quval b))) <= 10 * bpow radix2 (-24) * (qn (quval a) * qn (quval b)) + bpow radix2 (-145).
Proof.
  intros L a b fa fb ha hb c. pose proof (qn_pos (quval a)) as pa. pose proof (qn_pos (quval b)) as pb.
  assert (p0 : 0 <= qn (quval a) * qn (quval b)) by now apply Rmult_le_pos.
  pose proof (prod_small (qn (quval a)) (qn (quval b))) as h. rewrite !Rabs_pos_eq in h by assumption. specialize (h ha hb).
  destruct (mul_round L a b fa fb) as [h1 h2]. { pose proof huge_big. lra. }
  split; [exact h1|]. fold c in h2. rewrite <- u_pow. apply Rle_trans with (1 := h2). pose proof w_tiny as t. unfold w in t. unfold ulp1. pose proof tiny_pos. lra.
Qed.


Lemma qstep : forall L p P a r d E, finite_qu p -> unitq P -> qn (qsub (quval p) P) <= E -> E <= / 4 ->
  near_unit d a r -> d <= / 5 ->
  let c := @q_mul f32 (F32Scalar L) p a in
  finite_qu c /\ unitq (hamilton P r) /\ qn (qsub (quval c) (hamilton P r)) <= E + 5 / 4 * d + 16 * ulp1.
Proof.
  intros L p P a r d E fp uP hp hE [fa [ur ha]] hd c.
  pose proof (qn_near (quval p) P) as n1. pose proof (qn_near (quval a) r) as n2. rewrite (qn_unit _ uP) in n1. rewrite (qn_unit _ ur) in n2.
  pose proof (qn_pos (quval p)) as p1. pose proof (qn_pos (quval a)) as p2.
  assert (hm : qn (quval p) * qn (quval a) <= 5 / 4 * (6 / 5)) by (apply Rmult_le_compat; lra).
  pose proof huge_big as hh. pose proof tiny_small as ts.
  destruct (mul_round L p a fp fa) as [h1 h2]; [lra|]. fold c in h1, h2.
  split; [exact h1|]. split; [now apply hamilton_unit|].
  apply Rle_trans with (1 := qn_tri _ (hamilton (quval p) (quval a)) _).
  pose proof (hamilton_diff (quval p) (quval a) P r) as h3. rewrite (qn_unit _ ur), Rmult_1_r in h3.
  pose proof (qn_pos (qsub (quval a) r)) as d0.
  assert (h4 : qn (quval p) * qn (qsub (quval a) r) <= 5 / 4 * d) by (apply Rmult_le_compat; lra).
  unfold ulp1 in *. lra.
Qed.

Lemma u20 : 16 * ulp1 = bpow radix2 (-20).
Proof. rewrite u_pow. change 16 with (bpow radix2 4). rewrite <- bpow_plus. reflexivity. Qed.

Lemma many_qu : forall L (l : list (Quaternion f32)) (rs : list (Quaternion R)) d p P E, Forall2 (near_unit d) l rs -> 0 <= d -> 0 <= E ->
  finite_qu p -> unitq P -> qn (qsub (quval p) P) <= E -> E + INR (length l) * (5 / 4 * d + bpow radix2 (-20)) <= / 4 ->
  let F := fold_left (@q_mul f32 (F32Scalar L)) l p in let G := fold_left hamilton rs P in
  finite_qu F /\ unitq G /\ qn (qsub (quval F) G) <= E + INR (length l) * (5 / 4 * d + bpow radix2 (-20)).
Proof.
  intros L l rs d p P E h. revert p P E. induction h as [|a r l rs ha hl IH]; intros p P E hd hE fp uP hp hn F G.
  - unfold F, G. cbn [fold_left length INR] in *. repeat split; try assumption; try apply fp. lra.
  - rewrite <- u20 in *. set (k := 5 / 4 * d + 16 * ulp1) in *. assert (k0 : 0 < k) by (unfold k, ulp1; lra).
    change (length (a :: l)) with (Datatypes.S (length l)) in *. rewrite S_INR in *.
    pose proof (pos_INR (length l)) as n0. assert (nk : 0 <= INR (length l) * k) by (apply Rmult_le_pos; lra).
    assert (d5 : d <= / 5) by (unfold k, ulp1 in *; lra).
    destruct (qstep L p P a r d E fp uP hp ltac:(lra) ha d5) as [s1 [s2 s3]].
    specialize (IH _ _ (E + k) hd ltac:(lra) s1 s2 ltac:(unfold k; lra) ltac:(lra)). cbv zeta in IH. destruct IH as [i1 [i2 i3]].
    split; [exact i1|]. split; [exact i2|]. apply Rle_trans with (1 := i3). lra.
Qed.

Lemma qid_val : forall L, quval (@q_id f32 (F32Scalar L)) = mkQuaternion 1 0 0 0.
Proof.
  intros L. unfold quval, q_id, val. cbn [q_w q_x q_y q_z s_ofZ F32Scalar]. rewrite (proj2 one_rd), (proj2 zero_rd). reflexivity.
Qed.
Lemma qid_fin : forall L, finite_qu (@q_id f32 (F32Scalar L)).
Proof. intros L. repeat split. Qed.
Lemma qid_unit : unitq (mkQuaternion 1 0 0 0).
Proof. unfold unitq, qnorm2. cbn [q_w q_x q_y q_z]. ring. Qed.
Lemma qsub_self : forall q, qn (qsub q q) = 0.
Proof. intros q. unfold qn, qnorm2, qsub. cbn [q_w q_x q_y q_z]. rewrite <- sqrt_0. f_equal. ring. Qed.

Lemma C71_chain_proof : forall (L : libm32) (l : list (Quaternion f32)) (rs : list (Quaternion R)) (d : R),
  Forall2 (near_unit d) l rs -> 0 <= d ->
  let k := INR (length l) * (5 / 4 * d + bpow radix2 (-20)) in k <= / 4 ->
  near_unit k (@qproduct f32 (F32Scalar L) l) (hproduct rs).
Proof.
  intros L l rs d h hd k hk.
  destruct (many_qu L l rs d (@q_id f32 (F32Scalar L)) (mkQuaternion 1 0 0 0) 0 h hd (Rle_refl 0) (qid_fin L) qid_unit) as [h1 [h2 h3]].
  - rewrite qid_val, qsub_self. lra.
  - fold k. lra.
  - split; [exact h1|]. split; [exact h2|]. fold k in h3. unfold qproduct, hproduct. lra.
Qed.


(** ** Normalisation *)

Lemma norm4 : forall L (p : Quaternion f32), finite_qu p -> bpow radix2 (-50) <= qn (quval p) <= bpow radix2 50 ->
  apx (@q_norm f32 (F32Scalar L) p) (qn (quval p)) (11 / 10 * ulp1 * qn (quval p)).
Proof.
  intros L p [fw [fx [fy fz]]] [h1 h2]. set (N := qn (quval p)) in *.
  pose proof (qn_sq (quval p)) as hN. fold N in hN. unfold qnorm2, quval in hN. cbn [q_w q_x q_y q_z] in hN.
  unfold q_norm. cbn [s_wide F32Scalar]. unfold f32_wide. cbn [wide_eval].
  set (x := q_x p) in *. set (y := q_y p) in *. set (z := q_z p) in *. set (v := q_w p) in *. unfold val in hN.
  pose proof (bpow_gt_0 radix2 (-50)) as N0'. assert (N0 : 0 < N) by lra.
  destruct (pow2_exact v fw) as [gv ev]. destruct (pow2_exact x fx) as [gx ex].
  destruct (pow2_exact y fy) as [gy ey]. destruct (pow2_exact z fz) as [gz ez].
  set (sv := Bmult mode_NE (f64_of_f32 v) (f64_of_f32 v)) in *. set (sx := Bmult mode_NE (f64_of_f32 x) (f64_of_f32 x)) in *.
  set (sy := Bmult mode_NE (f64_of_f32 y) (f64_of_f32 y)) in *. set (sz := Bmult mode_NE (f64_of_f32 z) (f64_of_f32 z)) in *.
  clearbody sv sx sy sz.
  assert (pv := Rle_0_sqr (v32 v)). assert (px := Rle_0_sqr (v32 x)). assert (py := Rle_0_sqr (v32 y)). assert (pz := Rle_0_sqr (v32 z)).
  unfold Rsqr in pv, px, py, pz. rewrite <- ev in pv, hN. rewrite <- ex in px, hN. rewrite <- ey in py, hN. rewrite <- ez in pz, hN.
  assert (Q0 : N * N <= bpow radix2 100).
  { change 100%Z with (50 + 50)%Z. rewrite bpow_plus. apply Rmult_le_compat; lra. }
  assert (Q1 : 2 * bpow radix2 100 <= huge64).
  { change 2 with (bpow radix2 1). rewrite <- bpow_plus. apply bpow_le. lia. }
  assert (T1 : tiny <= / 1000 * ulp1 * N).
  { apply Rle_trans with (bpow radix2 (-34) * bpow radix2 (-50)).
    - rewrite <- bpow_plus. apply bpow_le. lia.
    - apply Rmult_le_compat; try apply bpow_ge_0; try lra. rewrite u_pow. apply Rle_trans with (bpow radix2 (-10 + -24)); [apply bpow_le; lia|].
      rewrite bpow_plus. apply Rmult_le_compat_r; [apply bpow_ge_0|]. cbn. lra. }
  assert (T2 : tiny64 <= tiny) by (apply bpow_le; lia).
  assert (N2 : 0 < N * N) by (apply Rmult_lt_0_compat; lra).
  destruct (add64_rel sv sx gv gx) as [f1 e1]; [rewrite Rabs_pos_eq by lra; lra|].
  rewrite (Rabs_pos_eq (v64 sv + v64 sx)) in e1 by lra. set (s1 := Bplus mode_NE sv sx) in *. clearbody s1.
  assert (b1 : (1 - u64) * (v64 sv + v64 sx) <= v64 s1 <= (1 + u64) * (v64 sv + v64 sx)) by (abs2; lra). clear e1.
  assert (c1 : 0 <= v64 s1) by (unfold u64 in b1; lra).
  destruct (add64_rel s1 sy f1 gy) as [f2 e2]; [rewrite Rabs_pos_eq by lra; unfold u64 in b1; lra|].
  rewrite (Rabs_pos_eq (v64 s1 + v64 sy)) in e2 by lra. set (s2 := Bplus mode_NE s1 sy) in *. clearbody s2.
  assert (b2 : (1 - u64) * (v64 s1 + v64 sy) <= v64 s2 <= (1 + u64) * (v64 s1 + v64 sy)) by (abs2; lra). clear e2.
  assert (c2 : 0 <= v64 s2) by (unfold u64 in b2; lra).
  destruct (add64_rel s2 sz f2 gz) as [f3 e3]; [rewrite Rabs_pos_eq by lra; unfold u64 in b1, b2; lra|].
  rewrite (Rabs_pos_eq (v64 s2 + v64 sz)) in e3 by lra. set (s := Bplus mode_NE s2 sz) in *. clearbody s.
  assert (b3 : (1 - u64) * (v64 s2 + v64 sz) <= v64 s <= (1 + u64) * (v64 s2 + v64 sz)) by (abs2; lra). clear e3.
  assert (s1' : (1 - / 100 * ulp1) * (N * N) <= v64 s <= (1 + / 100 * ulp1) * (N * N)) by (rewrite hN; unfold u64, ulp1 in *; lra).
  assert (s0 : 0 <= v64 s) by (unfold ulp1 in *; lra).
  destruct (sqrt64_rd s f3 s0) as [g1 g2]. set (t := sqrt (v64 s)) in *.
  assert (w0 : 0 <= t) by apply sqrt_pos. assert (ww : t * t = v64 s) by (apply sqrt_sqrt; exact s0).
  assert (w1 : t <= N * (1 + / 100 * ulp1)).
  { apply Rsqr_incr_0_var; [|unfold ulp1; nra]. unfold Rsqr. rewrite ww. apply Rle_trans with (1 := proj2 s1'). unfold ulp1. lra. }
  assert (w2 : N * (1 - / 100 * ulp1) <= t).
  { apply Rsqr_incr_0_var; [|exact w0]. unfold Rsqr. rewrite ww. apply Rle_trans with (2 := proj1 s1'). unfold ulp1. lra. }
  pose proof (rd64_err t) as E. rewrite (Rabs_pos_eq t w0), <- g2 in E. set (r := Bsqrt mode_NE s) in *. clearbody r.
  assert (r1 : N * (1 - 3 / 100 * ulp1) <= v64 r <= N * (1 + 3 / 100 * ulp1)) by (abs2; unfold u64, ulp1 in *; lra).
  assert (Nh : 2 * N <= huge).
  { apply Rle_trans with (bpow radix2 1 * bpow radix2 50); [change (bpow radix2 1) with 2; lra|].
    rewrite <- bpow_plus. apply bpow_le. lia. }
  assert (r0 : 0 <= v64 r) by (unfold ulp1 in *; lra).
  destruct (f32_of_f64_ok r g1) as [k1 k2]; [rewrite Rabs_pos_eq by exact r0; unfold ulp1 in *; lra|].
  split; [exact k1|]. rewrite k2. pose proof (rd_err (v64 r)) as E2. rewrite (Rabs_pos_eq (v64 r) r0) in E2.
  abs2. apply Rabs_le. unfold ulp1 in *. lra.
Qed.

Lemma C71_normalize_proof : forall (L : libm32) (q : Quaternion f32), finite_qu q ->
  bpow radix2 (-50) <= qn (quval q) <= bpow radix2 50 ->
  let n := @q_norm f32 (F32Scalar L) q in
  is_finite n = true /\ Rabs (val n - qn (quval q)) <= 5 / 4 * bpow radix2 (-24) * qn (quval q) /\
  exists u, @q_normalize f32 (F32Scalar L) q = Ok u /\ near_unit (bpow radix2 (-22)) u (qdirection (quval q)).
Proof.
  intros L p hp [h1 h2] n. destruct (norm4 L p hp (conj h1 h2)) as [g1 g2]. rewrite <- u_pow.
  split; [exact g1|]. split; [apply Rle_trans with (1 := g2); pose proof (qn_pos (quval p)); unfold ulp1; lra|].
  unfold q_normalize, q_div. fold n. unfold qdirection.
  set (N := qn (quval p)) in *. change (@q_norm f32 (F32Scalar L) p) with n in g1, g2. clearbody n.
  assert (N0 : 0 < N) by (apply Rlt_le_trans with (2 := h1); apply bpow_gt_0).
  assert (w0 : N * (1 - 11 / 10 * ulp1) <= v32 n <= N * (1 + 11 / 10 * ulp1)) by (abs2; unfold ulp1 in *; lra).
  assert (wp : 0 < v32 n) by (unfold ulp1 in *; lra).
  cbv zeta. cbn [s_eqb s_ofZ s_div F32Scalar].
  assert (ne : Beqb n (f32_ofZ 0) = false).
  { rewrite Beqb_correct; [|exact g1|reflexivity]. rewrite (proj2 zero_rd). apply Req_bool_false. lra. }
  rewrite ne. clear ne.
  assert (q0 : 0 < / v32 n) by now apply Rinv_0_lt_compat.
  assert (qN : Rabs (/ v32 n * N - 1) <= 12 / 10 * ulp1).
  { assert (e : / v32 n * N - 1 = / v32 n * (N - v32 n)) by (field; lra). rewrite e, Rabs_mult, (Rabs_pos_eq (/ v32 n)) by lra.
    apply Rmult_le_reg_l with (v32 n); [exact wp|]. rewrite <- Rmult_assoc, Rinv_r, Rmult_1_l by lra.
    apply Rabs_le. unfold ulp1 in *. lra. }
  assert (N1 : N <= 1125899906842624) by (apply Rle_trans with (1 := h2); cbn; lra).
  assert (N2 : / N <= 1125899906842624).
  { apply Rle_trans with (/ bpow radix2 (-50)); [apply Rinv_le; [apply bpow_gt_0|exact h1]|]. rewrite <- bpow_opp. cbn. lra. }
  assert (iN : 0 < / N) by now apply Rinv_0_lt_compat.
  assert (q1 : / v32 n <= 2 * / N).
  { apply Rmult_le_reg_r with N; [exact N0|]. rewrite (Rmult_assoc 2), Rinv_l by lra. abs2. unfold ulp1 in *. lra. }
  pose proof huge_big as hh. pose proof tiny_small as ts. pose proof tiny_pos as tp.
  destruct (div_rd (f32_ofZ 1) n (proj1 one_rd) g1 ltac:(lra)) as [i1 i2].
  { rewrite (proj2 one_rd). unfold Rdiv. rewrite Rmult_1_l, Rabs_pos_eq by lra. lra. }
  set (i := Bdiv mode_NE (f32_ofZ 1) n) in *. rewrite (proj2 one_rd) in i2. unfold Rdiv in i2. rewrite Rmult_1_l in i2.
  pose proof (rd_err (/ v32 n)) as E. rewrite <- i2, (Rabs_pos_eq (/ v32 n)) in E by lra. clear i2. clearbody i.
  assert (iE : Rabs (v32 i * N - 1) <= 23 / 10 * ulp1).
  { replace (v32 i * N - 1) with ((v32 i - / v32 n) * N + (/ v32 n * N - 1)) by ring.
    assert (t1 : Rabs ((v32 i - / v32 n) * N) <= ulp1 * (/ v32 n * N) + tiny * N).
    { rewrite Rabs_mult, (Rabs_pos_eq N) by lra. rewrite <- Rmult_assoc, <- Rmult_plus_distr_r. apply Rmult_le_compat_r; [lra|exact E]. }
    assert (t2 : tiny * N <= / 1000000000000000000000000000000 * 1125899906842624) by (apply Rmult_le_compat; lra).
    apply Rle_trans with (1 := Rabs_triang _ _). assert (/ v32 n * N <= 1 + 12 / 10 * ulp1) by (abs2; lra). unfold ulp1 in *. lra. }
  assert (C : forall x : f32, fin x -> Rabs (v32 x) <= N ->
    fin (Bmult mode_NE x i) /\ Rabs (v32 (Bmult mode_NE x i) - v32 x / N) <= 34 / 10 * ulp1 * Rabs (v32 x / N) + tiny).
  { intros x fx hx. set (y := v32 x / N). assert (hy : v32 x = y * N) by (unfold y; field; lra).
    assert (y1 : Rabs y <= 1).
    { unfold y, Rdiv. rewrite Rabs_mult, (Rabs_pos_eq (/ N)) by lra. apply Rmult_le_reg_r with N; [exact N0|]. rewrite Rmult_assoc, Rinv_l by lra. lra. }
    assert (xi : v32 x * v32 i = y * (v32 i * N)) by (rewrite hy; ring).
    assert (b : Rabs (v32 i * N) <= 1 + 23 / 10 * ulp1) by (abs2; apply Rabs_le; lra).
    assert (b2 : Rabs (y * (v32 i * N)) <= Rabs y * (1 + 23 / 10 * ulp1)) by (rewrite Rabs_mult; apply Rmult_le_compat_l; [apply Rabs_pos|exact b]).
    pose proof (Rabs_pos y) as y0.
    destruct (mul_rd x i fx i1) as [m1 m2]; [rewrite xi; unfold ulp1 in *; lra|]. split; [exact m1|]. rewrite m2, xi.
    pose proof (rd_err (y * (v32 i * N))) as E2.
    replace (rd (y * (v32 i * N)) - y) with ((rd (y * (v32 i * N)) - y * (v32 i * N)) + y * (v32 i * N - 1)) by ring.
    apply Rle_trans with (1 := Rabs_triang _ _).
    assert (t3 : Rabs (y * (v32 i * N - 1)) <= Rabs y * (23 / 10 * ulp1)) by (rewrite Rabs_mult; apply Rmult_le_compat_l; [apply Rabs_pos|exact iE]).
    unfold ulp1 in *. lra. }
  destruct hp as [fw [fx [fy fz]]]. destruct (qn_coord (quval p)) as [cw [cx [cy cz]]]. fold N in cw, cx, cy, cz.
  destruct (C _ fw cw) as [kw ew]. destruct (C _ fx cx) as [kx ex]. destruct (C _ fy cy) as [ky ey]. destruct (C _ fz cz) as [kz ez].
  eexists. split; [reflexivity|]. unfold q_scale. cbn [s_mul F32Scalar]. split; [repeat split; assumption|].
  pose proof (qn_sq (quval p)) as hN. fold N in hN. unfold qnorm2, quval, val in hN. cbn [q_w q_x q_y q_z] in hN.
  unfold quval, val. cbn [q_w q_x q_y q_z].
  assert (un : v32 (q_w p) / N * (v32 (q_w p) / N) + v32 (q_x p) / N * (v32 (q_x p) / N) + v32 (q_y p) / N * (v32 (q_y p) / N) + v32 (q_z p) / N * (v32 (q_z p) / N) = 1).
  { apply eq_trans with ((v32 (q_w p) * v32 (q_w p) + v32 (q_x p) * v32 (q_x p) + v32 (q_y p) * v32 (q_y p) + v32 (q_z p) * v32 (q_z p)) / (N * N)); [field; lra|].
    rewrite <- hN. field. lra. }
  split; [exact un|].
  assert (h22 : 4 * ulp1 = bpow radix2 (-22)) by (rewrite u_pow; change 4 with (bpow radix2 2); rewrite <- bpow_plus; reflexivity).
  rewrite <- h22. set (e := 34 / 10 * ulp1) in *.
  assert (Sq : forall a b, Rabs a <= e * Rabs b + tiny -> Rabs b <= 1 -> a * a <= e * e * (b * b) + 3 * tiny).
  { intros a b ha hb. apply sq_abs in ha. pose proof (Rabs_pos b).
    assert (q : Rabs b * Rabs b = b * b) by (rewrite <- Rabs_mult; apply Rabs_pos_eq; nra).
    assert (z : 2 * (e * Rabs b) * tiny <= 2 * (1 * 1) * tiny).
    { apply Rmult_le_compat_r; [lra|]. apply Rmult_le_compat_l; [lra|]. apply Rmult_le_compat; try lra; unfold e, ulp1; lra. }
    assert (z2 : tiny * tiny <= 1 * tiny) by (apply Rmult_le_compat_r; lra).
    replace ((e * Rabs b + tiny) * (e * Rabs b + tiny)) with (e * e * (Rabs b * Rabs b) + 2 * (e * Rabs b) * tiny + tiny * tiny) in ha by ring. rewrite q in ha. lra. }
  assert (o1 : forall a b, a * a + b = 1 -> 0 <= b -> Rabs a <= 1).
  { intros a b h h'. rewrite <- (Rabs_pos_eq 1) by lra. apply Rsqr_le_abs_0. unfold Rsqr. lra. }
  apply qn_le; [unfold ulp1; lra|]. unfold qnorm2, qsub. cbn [q_w q_x q_y q_z].
  assert (W := Sq _ _ ew ltac:(eapply o1 with (b := v32 (q_x p) / N * (v32 (q_x p) / N) + v32 (q_y p) / N * (v32 (q_y p) / N) + v32 (q_z p) / N * (v32 (q_z p) / N)); [lra|nra])).
  assert (X := Sq _ _ ex ltac:(eapply o1 with (b := v32 (q_w p) / N * (v32 (q_w p) / N) + v32 (q_y p) / N * (v32 (q_y p) / N) + v32 (q_z p) / N * (v32 (q_z p) / N)); [lra|nra])).
  assert (Y := Sq _ _ ey ltac:(eapply o1 with (b := v32 (q_w p) / N * (v32 (q_w p) / N) + v32 (q_x p) / N * (v32 (q_x p) / N) + v32 (q_z p) / N * (v32 (q_z p) / N)); [lra|nra])).
  assert (Z := Sq _ _ ez ltac:(eapply o1 with (b := v32 (q_w p) / N * (v32 (q_w p) / N) + v32 (q_x p) / N * (v32 (q_x p) / N) + v32 (q_y p) / N * (v32 (q_y p) / N)); [lra|nra])).
  apply Rle_trans with (e * e * 1 + 12 * tiny); [rewrite <- un; lra|]. unfold e, ulp1 in *. lra.
Qed.


Lemma C71_renormalize_proof : forall (L : libm32) (q : Quaternion f32) (r : Quaternion R) (d : R), near_unit d q r -> d <= / 4 ->
  exists u, @q_normalize f32 (F32Scalar L) q = Ok u /\ near_unit (2 * d + bpow radix2 (-22)) u r /\
    Rabs (qn (quval u) - 1) <= bpow radix2 (-22).
Proof.
  intros L q r d [fq [ur hq]] hd. pose proof (qn_near (quval q) r) as n1. pose proof (qn_near r (quval q)) as n2.
  rewrite qn_sym in n2. rewrite (qn_unit r ur) in n1, n2.
  assert (b1 : bpow radix2 (-50) <= / 2) by (apply Rle_trans with (bpow radix2 (-1)); [apply bpow_le; lia|cbn; lra]).
  assert (b2 : 2 <= bpow radix2 50) by (apply Rle_trans with (bpow radix2 1); [cbn; lra|apply bpow_le; lia]).
  destruct (C71_normalize_proof L q fq ltac:(lra)) as [_ [_ [u [h1 [h2 [h3 h4]]]]]].
  exists u. split; [exact h1|].
  assert (h5 : qn (qsub (qdirection (quval q)) (quval q)) <= d).
  { set (N := qn (quval q)) in *. assert (N0 : 0 < N) by lra. 
    pose proof (qn_sq (quval q)) as s. fold N in s. unfold qnorm2 in s.
    apply Rle_trans with (Rabs (1 - N)); [|apply Rabs_le; lra].
    apply qn_le; [apply Rabs_pos|]. rewrite <- Rabs_mult, (Rabs_pos_eq ((1 - N) * (1 - N))) by apply (Rle_0_sqr (1 - N)).
    unfold qnorm2, qsub, qdirection. cbn [q_w q_x q_y q_z]. fold N. apply Req_le.
    replace ((1 - N) * (1 - N)) with (((1 - N) / N) * ((1 - N) / N) * (N * N)) by (field; lra). rewrite s. field. lra. }
  split.
  - split; [exact h2|]. split; [exact ur|].
    apply Rle_trans with (1 := qn_tri _ (qdirection (quval q)) _). pose proof (qn_tri (qdirection (quval q)) (quval q) r). lra.
  - pose proof (qn_near (quval u) (qdirection (quval q))) as m1. pose proof (qn_near (qdirection (quval q)) (quval u)) as m2. rewrite qn_sym in m2.
    rewrite (qn_unit _ h3) in m1, m2. apply Rabs_le. lra.
Qed.


(** ** The matrix of a quaternion *)

Lemma qmat_proper : forall q, unitq q -> proper_rotation (qmat q).
Proof.
  intros [w0 x y z] h. unfold unitq, qnorm2 in h. cbn [q_w q_x q_y q_z] in h.
  assert (hw : w0 * w0 = 1 - x * x - y * y - z * z) by lra.
  split.
  - intros i j hi hj. destruct i as [|[|[|i]]]; [| | |lia]; (destruct j as [|[|[|j]]]; [| | |lia]);
      unfold mmul, mtrans, qmat, of_rows, mident, sum3; cbn [q_w q_x q_y q_z Nat.eqb]; ring [hw].
  - unfold mdet, qmat, of_rows. cbn [q_w q_x q_y q_z]. ring [hw].
Qed.

Lemma qmat_diff : forall a b, fro (mdiff (qmat a) (qmat b)) <= 425 / 100 * (qn (qsub a b) * qn (mkQuaternion (q_w a + q_w b) (q_x a + q_x b) (q_y a + q_y b) (q_z a + q_z b))).
Proof.
  intros a b. set (D := qsub a b). set (s := mkQuaternion (q_w a + q_w b) (q_x a + q_x b) (q_y a + q_y b) (q_z a + q_z b)).
  set (P := qn D * qn s). assert (P0 : 0 <= P) by (apply Rmult_le_pos; apply qn_pos).
  assert (G : forall w1 x1 y1 z1, w1 * w1 + x1 * x1 + y1 * y1 + z1 * z1 <= qnorm2 s -> Rabs (qdot D (mkQuaternion w1 x1 y1 z1)) <= P).
  { intros w1 x1 y1 z1 h. apply Rle_trans with (1 := qdot_cs _ _). apply Rmult_le_compat_l; [apply qn_pos|].
    apply qn_le; [apply qn_pos|]. rewrite qn_sq. exact h. }
  assert (K : forall k w1 x1 y1 z1 r, 0 <= k -> w1 * w1 + x1 * x1 + y1 * y1 + z1 * z1 <= qnorm2 s -> r = k * qdot D (mkQuaternion w1 x1 y1 z1) -> r * r <= k * k * (P * P)).
  { intros k w1 x1 y1 z1 r hk h e. pose proof (sq_abs _ _ (G w1 x1 y1 z1 h)) as g. rewrite e.
    apply Rle_trans with (k * k * (qdot D (mkQuaternion w1 x1 y1 z1) * qdot D (mkQuaternion w1 x1 y1 z1))); [apply Req_le; ring|].
    apply Rmult_le_compat_l; [nra|exact g]. }
  destruct a as [aw ax ay az]. destruct b as [bw bx by_ bz]. unfold D, qsub in K. unfold s in K. unfold qnorm2, qdot in K. cbn [q_w q_x q_y q_z] in K.
  set (sw := aw + bw) in *. set (sx := ax + bx) in *. set (sy := ay + by_) in *. set (sz := az + bz) in *.
  apply fro_le; [lra|]. unfold mdiff, qmat, of_rows, sum3. cbn [q_w q_x q_y q_z].
  pose proof (Rle_0_sqr sw) as q1. pose proof (Rle_0_sqr sx) as q2. pose proof (Rle_0_sqr sy) as q3. pose proof (Rle_0_sqr sz) as q4. unfold Rsqr in q1, q2, q3, q4.
  pose proof (K 2 0 0 (- sy) (- sz) _ ltac:(lra) ltac:(lra) (eq_refl _)) as k11.
  pose proof (K 2 0 (- sx) 0 (- sz) _ ltac:(lra) ltac:(lra) (eq_refl _)) as k22.
  pose proof (K 2 0 (- sx) (- sy) 0 _ ltac:(lra) ltac:(lra) (eq_refl _)) as k33.
  pose proof (K 1 (- sz) sy sx (- sw) _ ltac:(lra) ltac:(lra) (eq_refl _)) as k12.
  pose proof (K 1 sy sz sw sx _ ltac:(lra) ltac:(lra) (eq_refl _)) as k13.
  pose proof (K 1 sz sy sx sw _ ltac:(lra) ltac:(lra) (eq_refl _)) as k21.
  pose proof (K 1 (- sx) (- sw) sz sy _ ltac:(lra) ltac:(lra) (eq_refl _)) as k23.
  pose proof (K 1 (- sy) sz (- sw) sx _ ltac:(lra) ltac:(lra) (eq_refl _)) as k31.
  pose proof (K 1 sx sw sz sy _ ltac:(lra) ltac:(lra) (eq_refl _)) as k32.
  unfold sw, sx, sy, sz in k11, k12, k13, k21, k22, k23, k31, k32, k33.
  match goal with |- ?g <= _ => apply Rle_trans with (3 * (2 * 2 * (P * P)) + 6 * (1 * 1 * (P * P))); [|nra] end.
  clear -k11 k12 k13 k21 k22 k23 k31 k32 k33. 
  repeat match goal with h : ?a * ?a <= _ |- _ => ring_simplify a in h end.
  match goal with |- ?a1 * ?a1 + ?a2 * ?a2 + ?a3 * ?a3 + _ + _ <= _ => ring_simplify a1 a2 a3 end.
  lra.
Qed.

Lemma two_rd : fin (f32_ofZ 2) /\ v32 (f32_ofZ 2) = 2.
Proof. split; [reflexivity|]. rewrite <- SF2R_B2SF. replace (B2SF (f32_ofZ 2)) with (SpecFloat.S754_finite false 8388608 (-22)) by (vm_compute; reflexivity).
  cbn [SF2R]. unfold F2R. cbn [Fnum Fexp cond_Zopp bpow]. change (Z.pow_pos radix2 22) with 4194304%Z. lra. Qed.
Lemma two_apx : apx (f32_ofZ 2) 2 0.
Proof. split; [apply two_rd|]. rewrite (proj2 two_rd). rewrite Rminus_diag_eq by reflexivity. rewrite Rabs_R0. lra. Qed.

Lemma rot_off : forall op a b c d, fin a -> fin b -> fin c -> fin d -> Rabs (v32 a * v32 b) + Rabs (v32 c * v32 d) <= 11 / 10 ->
  apx (Bmult mode_NE (f32_ofZ 2) (pm op (Bmult mode_NE a b) (Bmult mode_NE c d))) (2 * rpm op (v32 a * v32 b) (v32 c * v32 d)) (67 / 10 * ulp1).
Proof.
  intros op a b c d fa fb fc fd h. pose proof huge_big as hb. pose proof tiny_small as ts. pose proof tiny_pos as tp.
  pose proof (Rabs_pos (v32 a * v32 b)) as p1. pose proof (Rabs_pos (v32 c * v32 d)) as p2.
  destruct (mul_err a b fa fb) as [f1 e1]; [lra|]. destruct (mul_err c d fc fd) as [f2 e2]; [lra|].
  destruct (pm_err op _ _ _ _ _ _ _ _ f1 f2 (Rle_refl _) (Rle_refl _) e1 e2) as [f3 e3]; [unfold ulp1; lra|].
  assert (h3 : apx (pm op (Bmult mode_NE a b) (Bmult mode_NE c d)) (rpm op (v32 a * v32 b) (v32 c * v32 d)) (221 / 100 * ulp1)).
  { split; [exact f3|]. apply Rle_trans with (1 := e3). unfold ulp1 in *. lra. }
  assert (b2 : Rabs 2 <= 2) by (rewrite Rabs_pos_eq; lra).
  assert (b3 : Rabs (rpm op (v32 a * v32 b) (v32 c * v32 d)) <= 11 / 10) by (apply Rle_trans with (1 := rpm_abs _ _ _); exact h).
  apply apx_le with (1 := apx_mul _ _ _ _ _ _ _ _ two_apx h3 b2 b3 ltac:(unfold ulp1; lra)). unfold ulp1. lra.
Qed.
Lemma rot_diag : forall a b : f32, fin a -> fin b -> Rabs (v32 a * v32 a) + Rabs (v32 b * v32 b) <= 11 / 10 ->
  apx (f32_wide (WSub (WVal (f32_ofZ 1)) (WMul (WVal (f32_ofZ 2)) (WAdd (WPow2 a) (WPow2 b))))) (1 - 2 * (v32 a * v32 a + v32 b * v32 b)) (13 / 10 * ulp1).
Proof.
  intros a b fa fb h. pose proof huge_big as hb. pose proof tiny_small as ts. pose proof huge64_big as hb'. pose proof tiny64_small as ts'.
  unfold f32_wide. cbn [wide_eval].
  destruct (pow2_exact a fa) as [ga ea]. destruct (pow2_exact b fb) as [gb eb].
  set (sa := Bmult mode_NE (f64_of_f32 a) (f64_of_f32 a)) in *. set (sb := Bmult mode_NE (f64_of_f32 b) (f64_of_f32 b)) in *. clearbody sa sb.
  assert (pa := Rle_0_sqr (v32 a)). assert (pb := Rle_0_sqr (v32 b)). unfold Rsqr in pa, pb.
  rewrite (Rabs_pos_eq _ pa), (Rabs_pos_eq _ pb) in h. rewrite <- ea in *. rewrite <- eb in *. clear ea eb.
  destruct (f64_of_f32_ok (f32_ofZ 1) (proj1 one_rd)) as [g1 e1]. rewrite (proj2 one_rd) in e1.
  destruct two_apx as [t1 t2]. assert (t3 : v32 (f32_ofZ 2) = 2) by (abs2; lra). clear t2.
  destruct (f64_of_f32_ok (f32_ofZ 2) t1) as [g2 e2]. rewrite t3 in e2.
  set (one := f64_of_f32 (f32_ofZ 1)) in *. set (two := f64_of_f32 (f32_ofZ 2)) in *. clearbody one two.
  destruct (add64_rel sa sb ga gb) as [f3 e3]; [rewrite Rabs_pos_eq by lra; lra|]. rewrite (Rabs_pos_eq (v64 sa + v64 sb)) in e3 by lra.
  set (s := Bplus mode_NE sa sb) in *. clearbody s.
  assert (b3 : 0 <= v64 s <= 12 / 10) by (abs2; unfold u64 in *; lra).
  assert (m3 : Rabs (v64 two * v64 s) <= 24 / 10) by (rewrite e2, Rabs_pos_eq by lra; lra).
  destruct (mul64_rd two s g2 f3) as [f4 e4]; [lra|].
  pose proof (rd64_err (v64 two * v64 s)) as E4. rewrite <- e4 in E4. set (d := Bmult mode_NE two s) in *. clearbody d. rewrite e2 in E4, m3. rewrite (Rabs_pos_eq (2 * v64 s)) in E4 by lra.
  assert (b4 : Rabs (v64 one - v64 d) <= 4) by (rewrite e1; apply Rabs_le; abs2; unfold u64 in *; lra).
  destruct (sub64_rd one d g1 f4) as [f5 e5]; [lra|].
  pose proof (rd64_err (v64 one - v64 d)) as E5. rewrite <- e5 in E5. set (r := Bminus mode_NE one d) in *. clearbody r. rewrite e1 in E5, b4.
  assert (E5' : Rabs (v64 r - (1 - v64 d)) <= u64 * 4 + tiny64) by (apply Rle_trans with (1 := E5); unfold u64; lra). clear E5.
  assert (b5 : Rabs (v64 r - (1 - 2 * (v64 sa + v64 sb))) <= / 100 * ulp1) by (apply Rabs_le; abs2; unfold u64, ulp1 in *; lra).
  assert (b6 : Rabs (v64 r) <= 121 / 100) by (apply Rabs_le; abs2; unfold u64, ulp1 in *; lra).
  destruct (f32_of_f64_ok r f5) as [k1 k2]; [lra|]. split; [exact k1|]. rewrite k2.
  pose proof (rd_err (v64 r)) as E6.
  assert (E6' : Rabs (rd (v64 r) - v64 r) <= ulp1 * (121 / 100) + tiny) by (apply Rle_trans with (1 := E6); unfold ulp1; lra). clear E6. apply Rabs_le. abs2. unfold ulp1 in *. lra.
Qed.

Lemma pair_small : forall a b S, a * a + b * b <= S -> Rabs (a * b) <= S / 2.
Proof. intros a b S h. apply Rabs_le. pose proof (Rle_0_sqr (a - b)). pose proof (Rle_0_sqr (a + b)). unfold Rsqr in *. split; lra. Qed.

Lemma rot_round : forall L (q : Quaternion f32), finite_qu q -> qn (quval q) <= 102 / 100 ->
  let t := @transformFromQuaternion f32 (F32Scalar L) q in
  finite_t t /\ tpos (tval t) = (0, 0, 0) /\ fro (mdiff (tmat (tval t)) (qmat (quval q))) <= 32 * ulp1.
Proof.
  intros L [w0 x y z] [fw [fx [fy fz]]] hn t. cbn [q_w q_x q_y q_z] in fw, fx, fy, fz.
  pose proof (qn_sq (quval (mkQuaternion w0 x y z))) as s. pose proof (qn_pos (quval (mkQuaternion w0 x y z))) as n0.
  assert (S1 : qnorm2 (quval (mkQuaternion w0 x y z)) <= 11 / 10) by (rewrite <- s; nra).
  unfold qnorm2, quval, val in S1. cbn [q_w q_x q_y q_z] in S1.
  pose proof (Rle_0_sqr (v32 w0)) as q1. pose proof (Rle_0_sqr (v32 x)) as q2. pose proof (Rle_0_sqr (v32 y)) as q3. pose proof (Rle_0_sqr (v32 z)) as q4. unfold Rsqr in q1, q2, q3, q4.
  assert (P : forall a b c d, v32 a * v32 a + v32 b * v32 b + (v32 c * v32 c + v32 d * v32 d) <= 11 / 10 -> Rabs (v32 a * v32 b) + Rabs (v32 c * v32 d) <= 11 / 10).
  { intros a b c d h. pose proof (pair_small _ _ _ (Rle_refl (v32 a * v32 a + v32 b * v32 b))). pose proof (pair_small _ _ _ (Rle_refl (v32 c * v32 c + v32 d * v32 d))). lra. }
  assert (Q : forall a b, v32 a * v32 a + v32 b * v32 b <= 11 / 10 -> Rabs (v32 a * v32 a) + Rabs (v32 b * v32 b) <= 11 / 10).
  { intros a b h. rewrite !Rabs_pos_eq by apply Rle_0_sqr. exact h. }
  destruct (rot_diag y z fy fz (Q y z ltac:(lra))) as [f11 e11].
  destruct (rot_off false x y z w0 fx fy fz fw (P x y z w0 ltac:(lra))) as [f12 e12].
  destruct (rot_off true x z y w0 fx fz fy fw (P x z y w0 ltac:(lra))) as [f13 e13].
  destruct (rot_off true x y z w0 fx fy fz fw (P x y z w0 ltac:(lra))) as [f21 e21].
  destruct (rot_diag x z fx fz (Q x z ltac:(lra))) as [f22 e22].
  destruct (rot_off false y z x w0 fy fz fx fw (P y z x w0 ltac:(lra))) as [f23 e23].
  destruct (rot_off false x z y w0 fx fz fy fw (P x z y w0 ltac:(lra))) as [f31 e31].
  destruct (rot_off true y z x w0 fy fz fx fw (P y z x w0 ltac:(lra))) as [f32' e32].
  destruct (rot_diag x y fx fy (Q x y ltac:(lra))) as [f33 e33].
  unfold pm, rpm in *.
  split; [|split].
  - unfold finite_t, coefs, t, transformFromQuaternion. cbn [t_r1c1 t_r1c2 t_r1c3 t_r1c4 t_r2c1 t_r2c2 t_r2c3 t_r2c4 t_r3c1 t_r3c2 t_r3c3 t_r3c4 q_w q_x q_y q_z s_add s_sub s_mul s_ofZ s_wide F32Scalar].
    repeat apply Forall_cons; try apply Forall_nil; try assumption; apply zero_rd.
  - unfold t, transformFromQuaternion, tval, tpos, val. cbn [t_r1c4 t_r2c4 t_r3c4 s_ofZ F32Scalar]. now rewrite (proj2 zero_rd).
  - apply fro_le; [unfold ulp1; lra|]. unfold mdiff, tmat, qmat, of_rows, sum3, tval, t, transformFromQuaternion, quval, val.
    cbn [t_r1c1 t_r1c2 t_r1c3 t_r1c4 t_r2c1 t_r2c2 t_r2c3 t_r2c4 t_r3c1 t_r3c2 t_r3c3 t_r3c4 q_w q_x q_y q_z s_add s_sub s_mul s_ofZ s_wide F32Scalar].
    apply sq_abs in e11. apply sq_abs in e12. apply sq_abs in e13. apply sq_abs in e21. apply sq_abs in e22. apply sq_abs in e23. apply sq_abs in e31. apply sq_abs in e32. apply sq_abs in e33.
    apply Rle_trans with (3 * (13 / 10 * ulp1 * (13 / 10 * ulp1)) + 6 * (67 / 10 * ulp1 * (67 / 10 * ulp1))); [|unfold ulp1; lra].
    lra.
Qed.

Lemma C71_matrix_proof : forall (L : libm32) (q : Quaternion f32) (r : Quaternion R) (d : R), near_unit d q r -> d <= / 100 ->
  let t := @transformFromQuaternion f32 (F32Scalar L) q in
  close (9 * d + bpow radix2 (-19)) t (place (qmat r) (0, 0, 0)) /\
  @transformFromRotation f32 (F32Scalar L) (@rotationFromQuaternion f32 (F32Scalar L) q) = t.
Proof.
  intros L q r d [fq [ur hq]] hd t. split; [|reflexivity].
  pose proof (qn_near (quval q) r) as n1. rewrite (qn_unit r ur) in n1. pose proof (qn_pos (qsub (quval q) r)) as d0.
  destruct (rot_round L q fq ltac:(lra)) as [h1 [h2 h3]]. fold t in h1, h2, h3.
  split; [exact h1|]. split; [apply rigid_place, qmat_proper, ur|]. split; [|exact h2].
  apply Rle_trans with (fro (mdiff (tmat (tval t)) (qmat r))).
  { apply Req_le, fro_ext. intros i j hi hj. unfold mdiff. now rewrite (tmat_place _ _ i j hi hj). }
  apply Rle_trans with (1 := fro_tri3 _ (qmat (quval q)) _).
  pose proof (qmat_diff (quval q) r) as h4.
  set (s := mkQuaternion (q_w (quval q) + q_w r) (q_x (quval q) + q_x r) (q_y (quval q) + q_y r) (q_z (quval q) + q_z r)) in *.
  assert (hs : qn s <= 201 / 100).
  { pose proof (qn_near s (quval q)) as m. replace (qsub s (quval q)) with r in m.
    - rewrite (qn_unit r ur) in m. lra.
    - destruct r as [rw rx ry rz]. unfold qsub, s. cbn [q_w q_x q_y q_z]. f_equal; ring. }
  assert (h5 : qn (qsub (quval q) r) * qn s <= d * (201 / 100)) by (apply Rmult_le_compat; try assumption; apply qn_pos).
  assert (h19 : 32 * ulp1 = bpow radix2 (-19)) by (rewrite u_pow; change 32 with (bpow radix2 5); rewrite <- bpow_plus; reflexivity).
  rewrite <- h19. lra.
Qed.


Lemma C71_attitude_proof : forall (L : libm32) (l : list (Quaternion f32)) (rs : list (Quaternion R)) (d : R),
  Forall2 (near_unit d) l rs -> 0 <= d ->
  let k := INR (length l) * (5 / 4 * d + bpow radix2 (-20)) in k <= / 100 ->
  let t := @transformFromQuaternion f32 (F32Scalar L) (@qproduct f32 (F32Scalar L) l) in
  let exact_matrix := fold_left mmul (map qmat rs) mident in
  finite_t t /\ proper_rotation exact_matrix /\ tpos (tval t) = (0, 0, 0) /\
  fro (mdiff (tmat (tval t)) exact_matrix) <= 9 * k + bpow radix2 (-19).
Proof.
  intros L l rs d h hd k hk t M.
  pose proof (C71_chain_proof L l rs d h hd ltac:(fold k; lra)) as c. fold k in c.
  destruct (C71_matrix_proof L _ _ k c hk) as [[h1 [h2 [h3 h4]]] _]. fold t in h1, h3, h4.
  assert (hm : forall rs P N, Forall unitq rs -> unitq P -> meq N (qmat P) -> meq (fold_left mmul (map qmat rs) N) (qmat (fold_left hamilton rs P)) /\ unitq (fold_left hamilton rs P)).
  { clear. induction rs as [|r rs IH]; intros P N hr uP hN; [split; assumption|]. inversion hr; subst. cbn [fold_left map].
    apply IH; [assumption|now apply hamilton_unit|]. intros i j hi hj.
    unfold unitq, qnorm2 in *. destruct P as [pw px py pz]. destruct r as [rw rx ry rz]. cbn [q_w q_x q_y q_z] in *.
    unfold mmul, sum3. rewrite !hN by lia.
    assert (e1 : pw * pw = 1 - px * px - py * py - pz * pz) by lra. assert (e2 : rw * rw = 1 - rx * rx - ry * ry - rz * rz) by lra.
    destruct i as [|[|[|i]]]; [| | |lia]; (destruct j as [|[|[|j]]]; [| | |lia]);
      unfold qmat, of_rows, hamilton; cbn [q_w q_x q_y q_z]; ring [e1 e2]. }
  destruct (hm rs (mkQuaternion 1 0 0 0) mident) as [e u].
  { clear -h. induction h as [|a r l rs ha hl IH]; constructor; [apply ha|exact IH]. }
  { apply qid_unit. }
  { intros i j hi hj. destruct i as [|[|[|i]]]; [| | |lia]; (destruct j as [|[|[|j]]]; [| | |lia]); unfold qmat, of_rows, mident; cbn [q_w q_x q_y q_z Nat.eqb]; ring. }
  fold M in e. split; [exact h1|]. split.
  - apply meq_proper with (2 := qmat_proper _ u). intros i j hi hj. symmetry. now apply e.
  - split; [rewrite h4; reflexivity|]. apply Rle_trans with (2 := h3). apply Req_le, fro_ext. intros i j hi hj. unfold mdiff.
    rewrite (tmat_place _ _ i j hi hj), (e i j hi hj). reflexivity.
Qed.


(** ** Rotating a vector *)

Lemma apx_opp : forall x r e, apx x r e -> apx (Bopp x) (- r) e.
Proof. intros x r e [h1 h2]. destruct (neg_err x r e h1 h2). now split. Qed.

Definition term (P : R) (x : f32) (r : R) : Prop := apx x r (7 * ulp1 * P + tiny) /\ Rabs r <= 21 / 10 * P.
Lemma term3 : forall x y (p : f32) r s P, apx x r 0 -> apx y s 0 -> Rabs r <= 102 / 100 -> Rabs s <= 102 / 100 -> fin p -> Rabs (v32 p) <= P -> P <= / 100 * huge ->
  term P (Bmult mode_NE (Bmult mode_NE x y) p) (r * s * v32 p).
Proof.
  intros x y p r s P hx hy hr hs fp hp hP. pose proof huge_big as hb. pose proof tiny_small as ts. pose proof tiny_pos as tp. pose proof (Rabs_pos (v32 p)) as p0.
  assert (h1 : Rabs (r * s) <= 105 / 100).
  { rewrite Rabs_mult. apply Rle_trans with (102 / 100 * (102 / 100)); [|lra]. apply Rmult_le_compat; try assumption; apply Rabs_pos. }
  pose proof (apx_mul x y _ _ _ _ 0 0 hx hy hr hs ltac:(lra)) as h2.
  apply apx_le with (e' := 11 / 10 * ulp1) in h2; [|unfold ulp1; lra].
  split.
  - apply apx_le with (1 := apx_mul _ p _ _ _ _ _ 0 h2 (apx_self p fp) h1 hp ltac:(unfold ulp1; lra)). unfold ulp1. lra.
  - rewrite Rabs_mult. apply Rle_trans with (105 / 100 * P); [|lra]. apply Rmult_le_compat; try assumption; apply Rabs_pos.
Qed.
Lemma term4 : forall c x y (p : f32) k r s P, apx c k 0 -> Rabs k <= 2 -> apx x r 0 -> apx y s 0 -> Rabs r <= 102 / 100 -> Rabs s <= 102 / 100 -> fin p -> Rabs (v32 p) <= P -> P <= / 100 * huge ->
  term P (Bmult mode_NE (Bmult mode_NE (Bmult mode_NE c x) y) p) (k * r * s * v32 p).
Proof.
  intros c x y p k r s P hc hk hx hy hr hs fp hp hP. pose proof huge_big as hb. pose proof tiny_small as ts. pose proof tiny_pos as tp. pose proof (Rabs_pos (v32 p)) as p0.
  assert (h0 : Rabs (k * r) <= 204 / 100).
  { rewrite Rabs_mult. apply Rle_trans with (2 * (102 / 100)); [|lra]. apply Rmult_le_compat; try assumption; apply Rabs_pos. }
  assert (h1 : Rabs (k * r * s) <= 21 / 10).
  { rewrite Rabs_mult. apply Rle_trans with (204 / 100 * (102 / 100)); [|lra]. apply Rmult_le_compat; try assumption; apply Rabs_pos. }
  pose proof (apx_mul c x _ _ _ _ 0 0 hc hx hk hr ltac:(lra)) as h2.
  apply apx_le with (e' := 205 / 100 * ulp1) in h2; [|unfold ulp1; lra].
  pose proof (apx_mul _ y _ _ _ _ _ 0 h2 hy h0 hs ltac:(unfold ulp1; lra)) as h3.
  apply apx_le with (e' := 42 / 10 * ulp1) in h3; [|unfold ulp1; lra].
  split.
  - apply apx_le with (1 := apx_mul _ p _ _ _ _ _ 0 h3 (apx_self p fp) h1 hp ltac:(unfold ulp1; lra)). unfold ulp1. lra.
  - rewrite Rabs_mult. apply Rmult_le_compat; try assumption; apply Rabs_pos.
Qed.
Lemma terms8 : forall P op x1 x2 x3 x4 x5 x6 x7 x8 r1 r2 r3 r4 r5 r6 r7 r8, 0 <= P -> P <= / 1000 * huge ->
  term P x1 r1 -> term P x2 r2 -> term P x3 r3 -> term P x4 r4 -> term P x5 r5 -> term P x6 r6 -> term P x7 r7 -> term P x8 r8 ->
  forall o2 o3, 
  apx (Bplus mode_NE (Bplus mode_NE (Bplus mode_NE (Bplus mode_NE x1 x2) (pm o2 x3 x4)) (pm o3 x5 x6)) (pm op x7 x8))
      (r1 + r2 + rpm o2 r3 r4 + rpm o3 r5 r6 + rpm op r7 r8) (116 * ulp1 * P + 18 * tiny).
Proof.
  intros P op x1 x2 x3 x4 x5 x6 x7 x8 r1 r2 r3 r4 r5 r6 r7 r8 P0 hP [t1 b1] [t2 b2] [t3 b3] [t4 b4] [t5 b5] [t6 b6] [t7 b7] [t8 b8] o2 o3.
  pose proof huge_big as hb. pose proof tiny_small as ts. pose proof tiny_pos as tp.
  assert (Pair : forall o x y r s, apx x r (7 * ulp1 * P + tiny) -> Rabs r <= 21 / 10 * P -> apx y s (7 * ulp1 * P + tiny) -> Rabs s <= 21 / 10 * P ->
    apx (pm o x y) (rpm o r s) (19 * ulp1 * P + 7 / 2 * tiny) /\ Rabs (rpm o r s) <= 42 / 10 * P).
  { intros o x y r s [fx ex] hr [fy ey] hs. split.
    - destruct (pm_err o x y _ _ _ _ _ _ fx fy hr hs ex ey) as [f e]; [unfold ulp1; lra|]. split; [exact f|]. apply Rle_trans with (1 := e). unfold ulp1. lra.
    - apply Rle_trans with (1 := rpm_abs _ _ _). lra. }
  destruct (Pair true _ _ _ _ t1 b1 t2 b2) as [g1 c1]. destruct (Pair o2 _ _ _ _ t3 b3 t4 b4) as [g2 c2].
  destruct (Pair o3 _ _ _ _ t5 b5 t6 b6) as [g3 c3]. destruct (Pair op _ _ _ _ t7 b7 t8 b8) as [g4 c4].
  unfold pm at 1 in g1. unfold rpm at 1 in g1. unfold rpm at 1 in c1. cbn iota in g1, c1.
  pose proof (apx_add _ _ _ _ _ _ _ _ g1 g2 c1 c2 ltac:(unfold ulp1; lra)) as g5.
  apply apx_le with (e' := 47 * ulp1 * P + 81 / 10 * tiny) in g5; [|unfold ulp1; lra].
  assert (c5 : Rabs (r1 + r2 + rpm o2 r3 r4) <= 84 / 10 * P) by (apply Rle_trans with (1 := Rabs_triang _ _); lra).
  pose proof (apx_add _ _ _ _ _ _ _ _ g5 g3 c5 c3 ltac:(unfold ulp1; lra)) as g6.
  apply apx_le with (e' := 79 * ulp1 * P + 127 / 10 * tiny) in g6; [|unfold ulp1; lra].
  assert (c6 : Rabs (r1 + r2 + rpm o2 r3 r4 + rpm o3 r5 r6) <= 126 / 10 * P) by (apply Rle_trans with (1 := Rabs_triang _ _); lra).
  apply apx_le with (1 := apx_add _ _ _ _ _ _ _ _ g6 g4 c6 c4 ltac:(unfold ulp1; lra)). unfold ulp1. lra.
Qed.

(** The homogeneous matrix of a quaternion. *)
Definition hmat (q : Quaternion R) : mat3 := fun i j => qmat q i j + (qnorm2 q - 1) * mident i j.

Lemma apply_round : forall L (q : Quaternion f32) (p : Position3D f32), finite_qu q -> finite_p p -> qn (quval q) <= 102 / 100 -> vnorm (pval p) <= bpow radix2 50 ->
  let v := @q_apply f32 (F32Scalar L) q p in
  finite_p v /\ vnorm (vsub (pval v) (mapply (hmat (quval q)) (pval p))) <= 202 * ulp1 * vnorm (pval p) + 32 * tiny.
Proof.
  intros L [w0 x y z] [px py pz] [fw [fx [fy fz]]] [gx [gy gz]] hn hp v. cbn [q_w q_x q_y q_z] in fw, fx, fy, fz. cbn [p3_x p3_y p3_z] in gx, gy, gz.
  destruct (qn_coord (quval (mkQuaternion w0 x y z))) as [cw [cx [cy cz]]]. unfold quval, val in cw, cx, cy, cz. cbn [q_w q_x q_y q_z] in cw, cx, cy, cz.
  set (N := qn (quval (mkQuaternion w0 x y z))) in *.
  assert (bw : Rabs (v32 w0) <= 102 / 100) by (unfold N, quval, val in *; cbn [q_w q_x q_y q_z] in *; lra).
  assert (bx : Rabs (v32 x) <= 102 / 100) by (unfold N, quval, val in *; cbn [q_w q_x q_y q_z] in *; lra).
  assert (by' : Rabs (v32 y) <= 102 / 100) by (unfold N, quval, val in *; cbn [q_w q_x q_y q_z] in *; lra).
  assert (bz : Rabs (v32 z) <= 102 / 100) by (unfold N, quval, val in *; cbn [q_w q_x q_y q_z] in *; lra).
  clear cw cx cy cz N hn.
  set (P := vnorm (pval (mkPosition3D px py pz))) in *. destruct (vnorm_coord (pval (mkPosition3D px py pz))) as [dx [dy dz]]. fold P in dx, dy, dz.
  unfold pval, vx, vy, vz, val in dx, dy, dz. cbn [fst snd p3_x p3_y p3_z] in dx, dy, dz.
  assert (P0 : 0 <= P) by apply vnorm_pos.
  assert (hP : P <= / 1000 * huge) by (rewrite <- (Rabs_pos_eq P P0); apply one_small; rewrite Rabs_pos_eq; assumption).
  assert (hP' : P <= / 100 * huge) by (pose proof huge_big; lra).
  pose proof (apx_self w0 fw) as aw. pose proof (apx_self x fx) as ax. pose proof (apx_self y fy) as ay. pose proof (apx_self z fz) as az.
  pose proof (apx_opp _ _ _ ax) as nx. pose proof (apx_opp _ _ _ ay) as ny. pose proof (apx_opp _ _ _ az) as nz.
  assert (cx : Rabs (- v32 x) <= 102 / 100) by now rewrite Rabs_Ropp. assert (cy : Rabs (- v32 y) <= 102 / 100) by now rewrite Rabs_Ropp. assert (cz : Rabs (- v32 z) <= 102 / 100) by now rewrite Rabs_Ropp.
  pose proof two_apx as a2. pose proof (apx_opp _ _ _ a2) as n2.
  assert (k2 : Rabs 2 <= 2) by (rewrite Rabs_pos_eq; lra). assert (kn2 : Rabs (Ropp 2) <= 2) by (rewrite Rabs_Ropp; exact k2).
  assert (X := terms8 P false _ _ _ _ _ _ _ _ _ _ _ _ _ _ _ _ P0 hP
    (term3 w0 w0 px _ _ P aw aw bw bw gx dx hP') (term4 _ y w0 pz _ _ _ P a2 k2 ay aw by' bw gz dz hP')
    (term4 _ z w0 py _ _ _ P n2 kn2 az aw bz bw gy dy hP') (term3 x x px _ _ P ax ax bx bx gx dx hP')
    (term4 _ y x py _ _ _ P a2 k2 ay ax by' bx gy dy hP') (term4 _ z x pz _ _ _ P a2 k2 az ax bz bx gz dz hP')
    (term3 _ z px _ _ P nz az cz bz gx dx hP') (term3 y y px _ _ P ay ay by' by' gx dx hP') true true).
  assert (Y := terms8 P false _ _ _ _ _ _ _ _ _ _ _ _ _ _ _ _ P0 hP
    (term4 _ x y px _ _ _ P a2 k2 ax ay bx by' gx dx hP') (term3 y y py _ _ P ay ay by' by' gy dy hP')
    (term4 _ z y pz _ _ _ P a2 k2 az ay bz by' gz dz hP') (term4 _ w0 z px _ _ _ P a2 k2 aw az bw bz gx dx hP')
    (term3 _ z py _ _ P nz az cz bz gy dy hP') (term3 w0 w0 py _ _ P aw aw bw bw gy dy hP')
    (term4 _ x w0 pz _ _ _ P n2 kn2 ax aw bx bw gz dz hP') (term3 x x py _ _ P ax ax bx bx gy dy hP') true true).
  assert (Z := terms8 P true _ _ _ _ _ _ _ _ _ _ _ _ _ _ _ _ P0 hP
    (term4 _ x z px _ _ _ P a2 k2 ax az bx bz gx dx hP') (term4 _ y z py _ _ _ P a2 k2 ay az by' bz gy dy hP')
    (term3 z z pz _ _ P az az bz bz gz dz hP') (term4 _ w0 y px _ _ _ P a2 k2 aw ay bw by' gx dx hP')
    (term3 _ y pz _ _ P ny ay cy by' gz dz hP') (term4 _ w0 x py _ _ _ P a2 k2 aw ax bw bx gy dy hP')
    (term3 _ x pz _ _ P nx ax cx bx gz dz hP') (term3 w0 w0 pz _ _ P aw aw bw bw gz dz hP') false true).
  unfold pm, rpm in X, Y, Z. cbn iota in X, Y, Z.
  destruct X as [f1 e1]. destruct Y as [f2 e2]. destruct Z as [f3 e3].
  split; [split; [exact f1|split; [exact f2|exact f3]]|].
  set (E := 116 * ulp1 * P + 18 * tiny) in *. pose proof tiny_pos as tp.
  assert (E0 : 0 <= E) by (unfold E, ulp1; lra).
  apply Rle_trans with (174 / 100 * E); [|unfold E, ulp1; lra].
  apply vnorm_le; [lra|].
  apply sq_abs in e1. apply sq_abs in e2. apply sq_abs in e3.
  unfold vdot, vsub, mapply, hmat, qmat, qnorm2, of_rows, mident, pval, quval, val, vx, vy, vz, v, q_apply.
  cbn [fst snd q_w q_x q_y q_z p3_x p3_y p3_z Nat.eqb s_add s_sub s_mul s_neg s_ofZ F32Scalar].
  match type of e1 with (?f - ?r) * _ <= _ => match goal with |- (f - ?s) * _ + _ + _ <= _ => replace s with r by ring end end.
  match type of e2 with (?f - ?r) * _ <= _ => match goal with |- _ + (f - ?s) * _ + _ <= _ => replace s with r by ring end end.
  match type of e3 with (?f - ?r) * _ <= _ => match goal with |- _ + _ + (f - ?s) * _ <= _ => replace s with r by ring end end.
  pose proof (Rle_0_sqr E) as EE. unfold Rsqr in EE. clearbody E. lra.
Qed.

Lemma vsub_split : forall u v k, vsub u k = vadd (vsub u v) (vsub v k).
Proof. intros [[u1 u2] u3] [[v1 v2] v3] [[w1 w2] w3]. unfold vsub, vadd, vx, vy, vz. cbn [fst snd]. apply f_equal2; [apply f_equal2|]; ring. Qed.

Lemma C71_rotate_proof : forall (L : libm32) (q : Quaternion f32) (r : Quaternion R) (p : Position3D f32) (d : R), near_unit d q r -> d <= / 100 ->
  finite_p p -> vnorm (pval p) <= bpow radix2 50 ->
  let v := @q_apply f32 (F32Scalar L) q p in
  finite_p v /\ vnorm (vsub (pval v) (mapply (qmat r) (pval p))) <= (11 * d + bpow radix2 (-16)) * vnorm (pval p) + bpow radix2 (-145).
Proof.
  intros L q r p d [fq [ur hq]] hd fp hp v.
  pose proof (qn_near (quval q) r) as n1. pose proof (qn_near r (quval q)) as n2. rewrite qn_sym in n2. rewrite (qn_unit r ur) in n1, n2.
  pose proof (qn_pos (qsub (quval q) r)) as d0.
  destruct (apply_round L q p fq fp ltac:(lra) hp) as [h1 h2]. fold v in h1, h2. split; [exact h1|].
  pose proof (qmat_diff (quval q) r) as h4.
  set (s := mkQuaternion (q_w (quval q) + q_w r) (q_x (quval q) + q_x r) (q_y (quval q) + q_y r) (q_z (quval q) + q_z r)) in *.
  assert (hs : qn s <= 201 / 100).
  { pose proof (qn_near s (quval q)) as m. replace (qsub s (quval q)) with r in m.
    - rewrite (qn_unit r ur) in m. lra.
    - destruct r as [rw rx ry rz]. unfold qsub, s. cbn [q_w q_x q_y q_z]. f_equal; ring. }
  assert (h5 : qn (qsub (quval q) r) * qn s <= d * (201 / 100)) by (apply Rmult_le_compat; try assumption; apply qn_pos).
  set (V := pval p) in *. pose proof (vnorm_pos V) as v0.
  assert (S1 : Rabs (qnorm2 (quval q) - 1) <= 21 / 10 * d).
  { rewrite <- qn_sq. set (n := qn (quval q)) in *. assert (0 <= d) by lra.
    replace (n * n - 1) with ((n - 1) * (n + 1)) by ring. rewrite Rabs_mult. apply Rle_trans with (d * (21 / 10)); [|lra].
    apply Rmult_le_compat; try apply Rabs_pos; apply Rabs_le; lra. }
  assert (e : vsub (mapply (hmat (quval q)) V) (mapply (qmat r) V) = vadd (mapply (mdiff (qmat (quval q)) (qmat r)) V) (vscale (qnorm2 (quval q) - 1) V)).
  { unfold vsub, vadd, vscale, mapply, hmat, mdiff, mident, vx, vy, vz. cbn [fst snd Nat.eqb]. apply f_equal2; [apply f_equal2|]; ring. }
  assert (T : vnorm (vsub (mapply (hmat (quval q)) V) (mapply (qmat r) V)) <= 11 * d * vnorm V).
  { rewrite e. apply Rle_trans with (1 := vnorm_tri _ _). rewrite vnorm_scale.
    pose proof (mapply_le (mdiff (qmat (quval q)) (qmat r)) V) as m.
    assert (m1 : fro (mdiff (qmat (quval q)) (qmat r)) * vnorm V <= 86 / 10 * d * vnorm V) by (apply Rmult_le_compat_r; lra).
    assert (m2 : Rabs (qnorm2 (quval q) - 1) * vnorm V <= 21 / 10 * d * vnorm V) by (apply Rmult_le_compat_r; lra).
    assert (m3 : 0 <= d * vnorm V) by (apply Rmult_le_pos; lra). lra. }
  rewrite (vsub_split _ (mapply (hmat (quval q)) V)).
  apply Rle_trans with (1 := vnorm_tri _ _).
  assert (h16 : 256 * ulp1 = bpow radix2 (-16)) by (rewrite u_pow; change 256 with (bpow radix2 8); rewrite <- bpow_plus; reflexivity).
  rewrite <- h16. pose proof w_tiny as t. unfold w in t. rewrite t. unfold ulp1 in *. lra.
Qed.


(** ** Angle and axis *)

From Flocq Require Import Mult_error.
Lemma half_rd : fin (f32_frac 1 2) /\ v32 (f32_frac 1 2) = / 2.
Proof. split; [reflexivity|]. rewrite <- SF2R_B2SF. replace (B2SF (f32_frac 1 2)) with (SpecFloat.S754_finite false 8388608 (-24)) by (vm_compute; reflexivity).
  cbn [SF2R]. unfold F2R. cbn [Fnum Fexp cond_Zopp bpow]. change (Z.pow_pos radix2 24) with 16777216%Z. lra. Qed.

Lemma half_exact : forall a : f32, fin a -> Rabs (v32 a) <= huge -> apx (Bmult mode_NE (f32_frac 1 2) a) (v32 a / 2) (2 * tiny).
Proof.
  intros a fa ha. destruct half_rd as [fh vh].
  assert (E2 : v32 (f32_frac 1 2) * v32 a = v32 a / 2) by (rewrite vh; field).
  destruct (mul_rd (f32_frac 1 2) a fh fa) as [h1 h2].
  { rewrite E2. unfold Rdiv. rewrite Rabs_mult, (Rabs_pos_eq (/ 2)) by lra. pose proof (Rabs_pos (v32 a)). lra. }
  split; [exact h1|]. rewrite h2, E2. pose proof tiny_pos as tp.
  destruct (Rle_or_lt (bpow radix2 (-125)) (Rabs (v32 a))) as [hl|hs].
  - replace (rd (v32 a / 2)) with (v32 a / 2); [rewrite Rminus_diag_eq by reflexivity; rewrite Rabs_R0; lra|].
    symmetry. unfold rd. apply round_generic; [apply valid_rnd_N|].
    replace (v32 a / 2) with (v32 a * bpow radix2 (-1)) by (cbn [bpow]; change (Z.pow_pos radix2 1) with 2%Z; field).
    change (SpecFloat.fexp 24 128) with (FLT_exp (-149) 24). apply mult_bpow_exact_FLT.
    + exact (generic_format_B2R 24 128 a).
    + assert (-124 <= mag radix2 (v32 a))%Z; [|lia]. apply mag_ge_bpow. exact hl.
  - pose proof (rd_err (v32 a / 2)) as E. apply Rle_trans with (1 := E).
    assert (hq : Rabs (v32 a / 2) <= bpow radix2 (-126)).
    { unfold Rdiv. rewrite Rabs_mult, (Rabs_pos_eq (/ 2)) by lra.
      assert (e : bpow radix2 (-126) = bpow radix2 (-125) * / 2) by (change (-126)%Z with (-125 + -1)%Z; rewrite bpow_plus; f_equal). rewrite e. lra. }
    assert (hu : ulp1 * Rabs (v32 a / 2) <= tiny); [|lra].
    apply Rle_trans with (bpow radix2 (-24) * bpow radix2 (-126)).
    + rewrite u_pow. apply Rmult_le_compat_l; [apply bpow_ge_0|exact hq].
    + rewrite <- bpow_plus. apply Req_le. reflexivity.
Qed.

Lemma C71_angle_axis_proof : forall (L : libm32) (e d : R) (angle ax ay az : f32) (u : vec3), accurate L e -> e <= / 100 ->
  is_finite angle = true -> Rabs (val angle) <= bpow radix2 50 ->
  is_finite ax = true -> is_finite ay = true -> is_finite az = true ->
  vnorm u = 1 -> vnorm (vsub (val ax, val ay, val az) u) <= d -> d <= / 100 ->
  exists q, @q_fromAngleAndAxis f32 (F32Scalar L) angle ax ay az = Ok q /\
    near_unit (d + 3 * e + bpow radix2 (-22)) q (half_turn_of (val angle) u).
Proof.
  intros L e d angle ax ay az u ha he fa hA fx fy fz hu hd hd1.
  assert (e0 : 0 <= e) by now apply (accurate_pos L).
  destruct (half_exact angle fa) as [fh eh].
  { pose proof (one_small _ hA). pose proof (Rabs_pos (val angle)). pose proof huge_big. unfold val in *. lra. }
  unfold q_fromAngleAndAxis. cbn [s_frac s_mul s_sin s_cos F32Scalar].
  set (h := Bmult mode_NE (f32_frac 1 2) angle) in *. cbv zeta.
  destruct (ha h fh) as [fc [ec [fs es]]].
  set (C := l_cos L h) in *. set (S1 := l_sin L h) in *.
  set (t := val angle / 2). change (v32 angle / 2) with t in eh.
  pose proof (cos_lip (v32 h) t) as lc. pose proof (sin_lip (v32 h) t) as ls.
  pose proof tiny_pos as tp. pose proof tiny_small as ts. pose proof huge_big as hb.
  assert (ec' : Rabs (v32 C - cos t) <= e + 2 * tiny).
  { replace (v32 C - cos t) with ((v32 C - cos (v32 h)) + (cos (v32 h) - cos t)) by ring. apply Rle_trans with (1 := Rabs_triang _ _). unfold val in ec. lra. }
  assert (es' : Rabs (v32 S1 - sin t) <= e + 2 * tiny).
  { replace (v32 S1 - sin t) with ((v32 S1 - sin (v32 h)) + (sin (v32 h) - sin t)) by ring. apply Rle_trans with (1 := Rabs_triang _ _). unfold val in es. lra. }
  clearbody C S1. clear ec es lc ls.
  set (v := (val ax, val ay, val az)) in *.
  pose proof (vnorm_near v u) as nv. rewrite hu in nv.
  assert (s1 : Rabs (sin t) <= 1) by (apply Rabs_le; apply SIN_bound).
  assert (sS : Rabs (v32 S1) <= 102 / 100) by (apply Rabs_le_inv in es'; apply Rabs_le_inv in s1; apply Rabs_le; lra).
  destruct (vnorm_coord v) as [vx' [vy' vz']]. unfold v, vx, vy, vz, val in vx', vy', vz'. cbn [fst snd] in vx', vy', vz'.
  assert (M : forall a : f32, fin a -> Rabs (v32 a) <= vnorm v -> fin (Bmult mode_NE a S1) /\ Rabs (v32 (Bmult mode_NE a S1) - v32 a * v32 S1) <= 11 / 10 * ulp1).
  { intros a fa' h'. assert (p : Rabs (v32 a * v32 S1) <= 102 / 100 * (102 / 100)) by (rewrite Rabs_mult; apply Rmult_le_compat; try apply Rabs_pos; lra).
    destruct (mul_err a S1 fa' fs) as [g1 g2]; [lra|]. split; [exact g1|]. apply Rle_trans with (1 := g2). unfold ulp1. lra. }
  destruct (M ax fx vx') as [gx mx]. destruct (M ay fy vy') as [gy my]. destruct (M az fz vz') as [gz mz].
  set (q := mkQuaternion C (Bmult mode_NE ax S1) (Bmult mode_NE ay S1) (Bmult mode_NE az S1)).
  assert (fq : finite_qu q) by (split; [exact fc|split; [exact gx|split; [exact gy|exact gz]]]).
  set (r := half_turn_of (val angle) u).
  assert (ur : unitq r).
  { unfold unitq, qnorm2, r, half_turn_of. cbn [q_w q_x q_y q_z]. fold t.
    assert (uu : vx u * vx u + vy u * vy u + vz u * vz u = 1) by (pose proof (vnorm_sq u) as k; rewrite hu in k; unfold vdot in k; lra).
    pose proof (sin2_cos2 t) as k. unfold Rsqr in k.
    replace (cos t * cos t + vx u * sin t * (vx u * sin t) + vy u * sin t * (vy u * sin t) + vz u * sin t * (vz u * sin t))
      with (cos t * cos t + (vx u * vx u + vy u * vy u + vz u * vz u) * (sin t * sin t)) by ring. rewrite uu. lra. }
  assert (h22 : 4 * ulp1 = bpow radix2 (-22)) by (rewrite u_pow; change 4 with (bpow radix2 2); rewrite <- bpow_plus; reflexivity).
  assert (near : near_unit (d + 3 * e + bpow radix2 (-22)) q r).
  { split; [exact fq|]. split; [exact ur|]. rewrite <- h22.
    set (m := mkQuaternion (cos t) (v32 ax * v32 S1) (v32 ay * v32 S1) (v32 az * v32 S1)).
    set (m2 := mkQuaternion (cos t) (v32 ax * sin t) (v32 ay * sin t) (v32 az * sin t)).
    apply Rle_trans with (1 := qn_tri _ m _).
    assert (A1 : qn (qsub (quval q) m) <= e + 2 * tiny + 2 * ulp1).
    { apply qn_le; [unfold ulp1; lra|]. unfold qnorm2, qsub, quval, q, m, val. cbn [q_w q_x q_y q_z].
      apply sq_abs in ec'. apply sq_abs in mx. apply sq_abs in my. apply sq_abs in mz.
      replace ((e + 2 * tiny + 2 * ulp1) * (e + 2 * tiny + 2 * ulp1)) with ((e + 2 * tiny) * (e + 2 * tiny) + 4 * ulp1 * (e + 2 * tiny) + 4 * ulp1 * ulp1) by ring.
      assert (0 <= ulp1 * (e + 2 * tiny)) by (apply Rmult_le_pos; unfold ulp1; lra). unfold ulp1 in *. lra. }
    assert (A2 : qn (qsub m m2) <= 101 / 100 * (e + 2 * tiny)).
    { apply qn_le; [lra|]. unfold qnorm2, qsub, m, m2. cbn [q_w q_x q_y q_z].
      apply sq_abs in es'. pose proof (vnorm_sq v) as k. unfold vdot, v, vx, vy, vz, val in k. cbn [fst snd] in k.
      assert (k2 : vnorm v * vnorm v <= 101 / 100 * (101 / 100)) by (apply Rmult_le_compat; try apply vnorm_pos; lra).
      match goal with |- ?g <= _ => replace g with ((v32 ax * v32 ax + v32 ay * v32 ay + v32 az * v32 az) * ((v32 S1 - sin t) * (v32 S1 - sin t))) by ring end.
      rewrite <- k. replace (101 / 100 * (e + 2 * tiny) * (101 / 100 * (e + 2 * tiny))) with (101 / 100 * (101 / 100) * ((e + 2 * tiny) * (e + 2 * tiny))) by ring.
      apply Rmult_le_compat; try assumption; [|apply Rle_0_sqr]. apply (Rle_0_sqr (vnorm v)). }
    assert (A3 : qn (qsub m2 r) <= d).
    { apply qn_le; [apply Rle_trans with (2 := hd); apply vnorm_pos|]. unfold qnorm2, qsub, m2, r, half_turn_of. cbn [q_w q_x q_y q_z]. fold t.
      pose proof (vnorm_sq (vsub v u)) as k. unfold vdot, vsub, v, vx, vy, vz, val in k. cbn [fst snd] in k.
      assert (k2 : vnorm (vsub v u) * vnorm (vsub v u) <= d * d) by (apply Rmult_le_compat; try apply vnorm_pos; exact hd).
      assert (k3 : sin t * sin t <= 1) by (pose proof (sin2_cos2 t) as z; unfold Rsqr in z; pose proof (Rle_0_sqr (cos t)) as z'; unfold Rsqr in z'; lra).
      unfold v, vsub, vx, vy, vz, val in k2. cbn [fst snd] in k2.
      match goal with |- ?g <= _ => replace g with (((v32 ax - vx u) * (v32 ax - vx u) + (v32 ay - vy u) * (v32 ay - vy u) + (v32 az - vz u) * (v32 az - vz u)) * (sin t * sin t)) by ring end.
      unfold vx, vy, vz. rewrite <- k. apply Rle_trans with (d * d * 1); [|lra].
      apply Rmult_le_compat; try assumption; [apply (Rle_0_sqr (vnorm _))|apply (Rle_0_sqr (sin t))]. }
    pose proof (qn_tri m m2 r). unfold ulp1 in *. lra. }
  destruct (C71_renormalize_proof L q r _ near) as [w' [hw _]]; [rewrite <- h22; unfold ulp1; lra|].
  exists q. split; [|exact near]. change (@q_normalize f32 (F32Scalar L) (mkQuaternion C (Bmult mode_NE ax S1) (Bmult mode_NE ay S1) (Bmult mode_NE az S1))) with (@q_normalize f32 (F32Scalar L) q).
  rewrite hw. reflexivity.
Qed.


Lemma C71_inverse_proof : forall (L : libm32) (q : Quaternion f32) (r : Quaternion R) (d : R), near_unit d q r ->
  quval (@q_inverse f32 (F32Scalar L) q) = mkQuaternion (q_w (quval q)) (- q_x (quval q)) (- q_y (quval q)) (- q_z (quval q)) /\
  near_unit d (@q_inverse f32 (F32Scalar L) q) (mkQuaternion (q_w r) (- q_x r) (- q_y r) (- q_z r)).
Proof.
  intros L [w0 x y z] [rw rx ry rz] d [[fw [fx [fy fz]]] [ur h]]. cbn [q_w q_x q_y q_z] in *.
  destruct (opp_rd x fx) as [gx ex]. destruct (opp_rd y fy) as [gy ey]. destruct (opp_rd z fz) as [gz ez].
  change (@q_inverse f32 (F32Scalar L) (mkQuaternion w0 x y z)) with (mkQuaternion w0 (Bopp x) (Bopp y) (Bopp z)).
  unfold quval, val. cbn [q_w q_x q_y q_z]. rewrite ex, ey, ez. split; [reflexivity|].
  split; [split; [exact fw|split; [exact gx|split; [exact gy|exact gz]]]|]. split.
  - unfold unitq, qnorm2 in *. cbn [q_w q_x q_y q_z] in *. lra.
  - apply Rle_trans with (2 := h). apply Req_le. unfold qn, qnorm2, qsub, quval, val. cbn [q_w q_x q_y q_z]. rewrite ex, ey, ez. f_equal. ring.
Qed.


(** The rotation of a third of a turn about (1, 1, 1), in floats without error. *)
Definition third : Quaternion f32 := mkQuaternion (f32_frac 1 2) (f32_frac 1 2) (f32_frac 1 2) (f32_frac 1 2).
Definition third_exact : Quaternion R := mkQuaternion (/ 2) (/ 2) (/ 2) (/ 2).
Lemma third_near : near_unit 0 third third_exact.
Proof.
  split; [repeat split|]. split.
  - unfold unitq, qnorm2, third_exact. cbn [q_w q_x q_y q_z]. lra.
  - unfold quval, third, val. cbn [q_w q_x q_y q_z]. rewrite (proj2 half_rd). fold third_exact. rewrite qsub_self. lra.
Qed.
