(** * Lemmas for Props_Odom *)


From Coq Require Import Reals ZArith List Bool Lra Lia Psatz.
Import ListNotations.
From Flocq Require Import Core.Core IEEE754.BinarySingleNaN.
From Verif Require Import Scalar RInst RLemmas Model_Base Model_Vec F32 Spec_Geom Spec_Round Spec_Odom.
From Verif Require Import F32Err MemTac.
From Verif Require Proofs_Round.
Local Open Scope R_scope.

Lemma neg_err : forall (y : f32) s f, fin y -> Rabs (v32 y - s) <= f -> fin (Bopp y) /\ Rabs (v32 (Bopp y) - (- s)) <= f.
Proof.
  intros y s f hy h. destruct (opp_rd y hy) as [h1 h2]. split; [exact h1|]. rewrite h2.
  replace (- v32 y - - s) with (- (v32 y - s)) by ring. now rewrite Rabs_Ropp.
Qed.
Lemma sub_err : forall (x y : f32) r s a b e f, fin x -> fin y ->
  Rabs r <= a -> Rabs s <= b -> Rabs (v32 x - r) <= e -> Rabs (v32 y - s) <= f -> a + b + e + f <= huge ->
  fin (Bminus mode_NE x y) /\
  Rabs (v32 (Bminus mode_NE x y) - (r - s)) <= e + f + ulp1 * (a + b + e + f) + tiny.
Proof.
  intros x y r s a b e f hx hy ha hb he hf h.
  assert (hs : Rabs (v32 x - v32 y) <= a + b + e + f) by (abs2; apply Rabs_le; lra).
  destruct (sub_rd x y hx hy) as [h1 h2]; [lra|]. split; [exact h1|]. rewrite h2.
  pose proof (rd_err (v32 x - v32 y)) as E.
  assert (ulp1 * Rabs (v32 x - v32 y) <= ulp1 * (a + b + e + f)) by (apply Rmult_le_compat_l; [unfold ulp1; lra|exact hs]).
  abs2. apply Rabs_le. lra.
Qed.
Lemma self_err : forall x : f32, Rabs (v32 x - v32 x) <= 0.
Proof. intro x. rewrite Rminus_diag_eq by reflexivity. rewrite Rabs_R0. lra. Qed.

(** The four sums of products of the code. *)
Section Sums.
Variables z x1 y1 x2 y2 : f32.
Hypothesis (hz : fin z) (hx1 : fin x1) (hy1 : fin y1) (hx2 : fin x2) (hy2 : fin y2).
Let S := Rabs (v32 z) + Rabs (v32 x1 * v32 y1) + Rabs (v32 x2 * v32 y2).
Hypothesis hS : S <= / 100 * huge.
Let good (p : f32) (r : R) := fin p /\ Rabs (v32 p - r) <= 31 / 10 * ulp1 * S + 6 * tiny.

Ltac start :=
  pose proof (Rabs_pos (v32 x1 * v32 y1)) as p1; pose proof (Rabs_pos (v32 x2 * v32 y2)) as p2; pose proof (Rabs_pos (v32 z)) as p3;
  pose proof tiny_pos as tp; pose proof tiny_small as ts; pose proof huge_big as hb; unfold ulp1 in *;
  destruct (mul_err x1 y1 hx1 hy1) as [f1 e1]; [unfold S in hS; lra|];
  destruct (mul_err x2 y2 hx2 hy2) as [f2 e2]; [unfold S in hS; lra|].
Ltac finish f e := split; [exact f|]; eapply Rle_trans; [|apply Rle_trans with (1 := e)]; [apply Req_le; f_equal; ring|unfold S, ulp1 in *; lra].

Lemma sum_add_sub : good (Bminus mode_NE (Bplus mode_NE z (Bmult mode_NE x1 y1)) (Bmult mode_NE x2 y2)) (v32 z + (v32 x1 * v32 y1 - v32 x2 * v32 y2)).
Proof.
  start. destruct (add_err _ _ _ _ _ _ _ _ hz f1 (Rle_refl _) (Rle_refl _) (self_err z) e1) as [f3 e3]; [unfold S, ulp1 in *; lra|].
  destruct (sub_err _ _ _ _ _ _ _ _ f3 f2 (Rabs_triang _ _) (Rle_refl _) e3 e2) as [f4 e4]; [unfold S, ulp1 in *; lra|].
  finish f4 e4.
Qed.
Lemma sum_add_add : good (Bplus mode_NE (Bplus mode_NE z (Bmult mode_NE x1 y1)) (Bmult mode_NE x2 y2)) (v32 z + (v32 x1 * v32 y1 + v32 x2 * v32 y2)).
Proof.
  start. destruct (add_err _ _ _ _ _ _ _ _ hz f1 (Rle_refl _) (Rle_refl _) (self_err z) e1) as [f3 e3]; [unfold S, ulp1 in *; lra|].
  destruct (add_err _ _ _ _ _ _ _ _ f3 f2 (Rabs_triang _ _) (Rle_refl _) e3 e2) as [f4 e4]; [unfold S, ulp1 in *; lra|].
  finish f4 e4.
Qed.
Lemma sum_in_sub : good (Bplus mode_NE z (Bminus mode_NE (Bmult mode_NE x1 y1) (Bmult mode_NE x2 y2))) (v32 z + (v32 x1 * v32 y1 - v32 x2 * v32 y2)).
Proof.
  start. destruct (sub_err _ _ _ _ _ _ _ _ f1 f2 (Rle_refl _) (Rle_refl _) e1 e2) as [f3 e3]; [unfold S, ulp1 in *; lra|].
  assert (ha : Rabs (v32 x1 * v32 y1 - v32 x2 * v32 y2) <= Rabs (v32 x1 * v32 y1) + Rabs (v32 x2 * v32 y2)).
  { unfold Rminus. apply Rle_trans with (1 := Rabs_triang _ _). rewrite Rabs_Ropp. lra. }
  destruct (add_err _ _ _ _ _ _ _ _ hz f3 (Rle_refl _) ha (self_err z) e3) as [f4 e4]; [unfold S, ulp1 in *; lra|].
  finish f4 e4.
Qed.
Lemma sum_in_add : good (Bplus mode_NE z (Bplus mode_NE (Bmult mode_NE x1 y1) (Bmult mode_NE x2 y2))) (v32 z + (v32 x1 * v32 y1 + v32 x2 * v32 y2)).
Proof.
  start. destruct (add_err _ _ _ _ _ _ _ _ f1 f2 (Rle_refl _) (Rle_refl _) e1 e2) as [f3 e3]; [unfold S, ulp1 in *; lra|].
  destruct (add_err _ _ _ _ _ _ _ _ hz f3 (Rle_refl _) (Rabs_triang _ _) (self_err z) e3) as [f4 e4]; [unfold S, ulp1 in *; lra|].
  finish f4 e4.
Qed.
End Sums.

Lemma small_prod : forall c x : f32, Rabs (v32 c) <= 101/100 -> Rabs (v32 c * v32 x) <= 101/100 * Rabs (v32 x).
Proof. intros c x h. rewrite Rabs_mult. apply Rmult_le_compat_r; [apply Rabs_pos|exact h]. Qed.
Lemma trig_small : forall L e t, accurate L e -> e <= /100 -> fin t -> fin (l_cos L t) /\ fin (l_sin L t) /\
  Rabs (v32 (l_cos L t)) <= 101/100 /\ Rabs (v32 (l_sin L t)) <= 101/100 /\
  Rabs (v32 (l_cos L t) - cos (v32 t)) <= e /\ Rabs (v32 (l_sin L t) - sin (v32 t)) <= e.
Proof.
  intros L e t ha he ht. destruct (ha t ht) as (h1&h2&h3&h4). unfold val in *.
  pose proof (COS_bound (v32 t)). pose proof (SIN_bound (v32 t)).
  repeat split; try assumption; apply Rabs_le; abs2; lra.
Qed.
Lemma diff_prod : forall a b x e, Rabs (a - b) <= e -> Rabs (a * x - b * x) <= e * Rabs x.
Proof. intros a b x e h. replace (a * x - b * x) with ((a - b) * x) by ring. rewrite Rabs_mult. apply Rmult_le_compat_r; [apply Rabs_pos|exact h]. Qed.

Lemma bound50 : forall z x y : f32, Rabs (v32 z) <= bpow radix2 50 -> Rabs (v32 x) <= bpow radix2 50 -> Rabs (v32 y) <= bpow radix2 50 ->
  Rabs (v32 z) + 101/100 * Rabs (v32 x) + 101/100 * Rabs (v32 y) <= / 100 * huge.
Proof.
  intros z x y hz hx hy. apply Proofs_Round.one_small in hz. apply Proofs_Round.one_small in hx. apply Proofs_Round.one_small in hy.
  pose proof huge_big. lra.
Qed.

(** From the error of a sum of products to that of the move. *)
Lemma move_err : forall (p z x1 y1 x2 y2 : f32) r c s e, Rabs (v32 x1) <= 101/100 -> Rabs (v32 x2) <= 101/100 ->
  Rabs (v32 x1 - c) <= e -> Rabs (v32 x2 - s) <= e ->
  (forall sg, sg = 1 \/ sg = -1 -> Rabs (v32 p - (v32 z + (v32 x1 * v32 y1 + sg * (v32 x2 * v32 y2)))) <=
    31 / 10 * ulp1 * (Rabs (v32 z) + Rabs (v32 x1 * v32 y1) + Rabs (v32 x2 * v32 y2)) + 6 * tiny ->
    r = v32 z + (c * v32 y1 + sg * (s * v32 y2)) ->
  Rabs (v32 p - r) <= 4 * bpow radix2 (-24) * (Rabs (v32 z) + (Rabs (v32 y1) + Rabs (v32 y2))) + e * (Rabs (v32 y1) + Rabs (v32 y2)) + bpow radix2 (-147)).
Proof.
  intros p z x1 y1 x2 y2 r c s e h1 h2 d1 d2 sg hsg h ->.
  pose proof (small_prod x1 y1 h1) as k1. pose proof (small_prod x2 y2 h2) as k2.
  pose proof (diff_prod _ _ (v32 y1) _ d1) as g1. pose proof (diff_prod _ _ (v32 y2) _ d2) as g2.
  pose proof Proofs_Round.tiny_le as ht. pose proof tiny_pos as tp. rewrite <- Proofs_Round.u_pow. unfold ulp1 in *.
  pose proof (Rabs_pos (v32 z)). pose proof (Rabs_pos (v32 y1)). pose proof (Rabs_pos (v32 y2)).
  apply Rabs_le_inv in g1. apply Rabs_le_inv in g2. apply Rabs_le_inv in h. apply Rabs_le. destruct hsg as [-> | ->]; lra.
Qed.

Ltac qdestr a ax ay at' := destruct a as [ax ay at']; unfold finite_q, within_q, qval, val in *; cbn [pose_x pose_y pose_theta] in *.

Lemma theta_err : forall x y : f32, fin x -> fin y -> Rabs (v32 x) <= bpow radix2 50 -> Rabs (v32 y) <= bpow radix2 50 ->
  fin (Bplus mode_NE x y) /\ Rabs (v32 (Bplus mode_NE x y) - (v32 x + v32 y)) <= bpow radix2 (-24) * Rabs (v32 x + v32 y) + bpow radix2 (-150).
Proof.
  intros x y hx hy bx by'. apply Proofs_Round.one_small in bx. apply Proofs_Round.one_small in by'. pose proof huge_big as hb.
  destruct (add_rd x y hx hy) as [f e]; [apply Rle_trans with (1 := Rabs_triang _ _); lra|]. split; [exact f|]. rewrite e, <- Proofs_Round.u_pow. apply rd_err.
Qed.

Lemma assign_eq : forall L p m, @assign f32 (F32Scalar L) p m =
  mkPose2D (Bplus mode_NE (pose_x p) (Bminus mode_NE (Bmult mode_NE (l_cos L (pose_theta p)) (pose_x m)) (Bmult mode_NE (l_sin L (pose_theta p)) (pose_y m))))
    (Bplus mode_NE (pose_y p) (Bplus mode_NE (Bmult mode_NE (l_sin L (pose_theta p)) (pose_x m)) (Bmult mode_NE (l_cos L (pose_theta p)) (pose_y m))))
    (Bplus mode_NE (pose_theta p) (pose_theta m)).
Proof. reflexivity. Qed.

Section Moves.
Variables (L : libm32) (e : R) (a b : Pose2D f32).
Hypothesis (HL : accurate L e) (he : e <= /100) (fa : finite_q a) (fb : finite_q b)
  (wa : within_q (bpow radix2 50) (qval a)) (wb : within_q (bpow radix2 50) (qval b)).

Lemma near_product : near_move e (qval a) (qval b) (@pose_mul f32 (F32Scalar L) a b).
Proof.
  qdestr a ax ay at'. qdestr b bx by' bt. destruct fa as (fa1&fa2&fa3). destruct fb as (fb1&fb2&fb3).
  destruct wa as (wa1&wa2&wa3). destruct wb as (wb1&wb2&wb3).
  destruct (trig_small L e at' HL he fa3) as (fc&fs&bc&bs&dc&ds).
  pose proof (bound50 ax bx by' wa1 wb1 wb2) as B1. pose proof (bound50 ay bx by' wa2 wb1 wb2) as B2.
  pose proof (small_prod _ bx bc) as s1. pose proof (small_prod _ by' bc) as s2. pose proof (small_prod _ bx bs) as s3. pose proof (small_prod _ by' bs) as s4.
  destruct (sum_add_sub ax (l_cos L at') bx (l_sin L at') by') as [f1 e1]; try assumption; [lra|].
  destruct (sum_add_add ay (l_sin L at') bx (l_cos L at') by') as [f2 e2]; try assumption; [lra|].
  destruct (theta_err at' bt fa3 fb3 wa3 wb3) as [f3 e3].
  unfold near_move, finite_q, after, val, pose_mul. cbn [pose_x pose_y pose_theta s_add s_sub s_mul s_cos s_sin F32Scalar].
  split; [tauto|]. split; [|split; [|exact e3]].
  - apply (move_err _ ax (l_cos L at') bx (l_sin L at') by' _ (cos (v32 at')) (sin (v32 at')) e bc bs dc ds (-1)); [now right| |ring].
    eapply Rle_trans; [|exact e1]. apply Req_le. f_equal. ring.
  - apply (move_err _ ay (l_sin L at') bx (l_cos L at') by' _ (sin (v32 at')) (cos (v32 at')) e bs bc ds dc 1); [now left| |ring].
    eapply Rle_trans; [|exact e2]. apply Req_le. f_equal. ring.
Qed.
Lemma near_assign : near_move e (qval a) (qval b) (@assign f32 (F32Scalar L) a b) /\
  (let s := Rabs (val (pose_x b)) + Rabs (val (pose_y b)) in
   let c := @pose_mul f32 (F32Scalar L) a b in let d := @assign f32 (F32Scalar L) a b in
   Rabs (val (pose_x d) - val (pose_x c)) <= 7 * bpow radix2 (-24) * (Rabs (val (pose_x a)) + s) + bpow radix2 (-146) /\
   Rabs (val (pose_y d) - val (pose_y c)) <= 7 * bpow radix2 (-24) * (Rabs (val (pose_y a)) + s) + bpow radix2 (-146) /\
   pose_theta d = pose_theta c).
Proof.
  qdestr a ax ay at'. qdestr b bx by' bt. destruct fa as (fa1&fa2&fa3). destruct fb as (fb1&fb2&fb3).
  destruct wa as (wa1&wa2&wa3). destruct wb as (wb1&wb2&wb3).
  destruct (trig_small L e at' HL he fa3) as (fc&fs&bc&bs&dc&ds).
  pose proof (bound50 ax bx by' wa1 wb1 wb2) as B1. pose proof (bound50 ay bx by' wa2 wb1 wb2) as B2.
  pose proof (small_prod _ bx bc) as s1. pose proof (small_prod _ by' bc) as s2. pose proof (small_prod _ bx bs) as s3. pose proof (small_prod _ by' bs) as s4.
  destruct (sum_in_sub ax (l_cos L at') bx (l_sin L at') by') as [f1 e1]; try assumption; [lra|].
  destruct (sum_in_add ay (l_sin L at') bx (l_cos L at') by') as [f2 e2]; try assumption; [lra|].
  destruct (sum_add_sub ax (l_cos L at') bx (l_sin L at') by') as [_ e1']; try assumption; [lra|].
  destruct (sum_add_add ay (l_sin L at') bx (l_cos L at') by') as [_ e2']; try assumption; [lra|].
  destruct (theta_err at' bt fa3 fb3 wa3 wb3) as [f3 e3].
  split.
  - unfold near_move, finite_q, after, val. rewrite assign_eq. cbn [pose_x pose_y pose_theta].
    split; [tauto|]. split; [|split; [|exact e3]].
    + apply (move_err _ ax (l_cos L at') bx (l_sin L at') by' _ (cos (v32 at')) (sin (v32 at')) e bc bs dc ds (-1)); [now right| |ring].
      eapply Rle_trans; [|exact e1]. apply Req_le. f_equal. ring.
    + apply (move_err _ ay (l_sin L at') bx (l_cos L at') by' _ (sin (v32 at')) (cos (v32 at')) e bs bc ds dc 1); [now left| |ring].
      eapply Rle_trans; [|exact e2]. apply Req_le. f_equal. ring.
  - cbv zeta. rewrite assign_eq. unfold val, pose_mul. cbn [pose_x pose_y pose_theta s_add s_sub s_mul s_cos s_sin F32Scalar Nat.eqb].
    pose proof Proofs_Round.tiny_le as ht. pose proof tiny_pos as tp.
    assert (t2 : bpow radix2 (-146) = 2 * bpow radix2 (-147)) by (change 2 with (bpow radix2 1); rewrite <- bpow_plus; reflexivity).
    rewrite t2. clear t2.
    pose proof (Rabs_pos (v32 ax)). pose proof (Rabs_pos (v32 ay)). pose proof (Rabs_pos (v32 bx)). pose proof (Rabs_pos (v32 by')).
    rewrite <- Proofs_Round.u_pow. unfold ulp1 in *.
    apply Rabs_le_inv in e1. apply Rabs_le_inv in e1'. apply Rabs_le_inv in e2. apply Rabs_le_inv in e2'.
    split; [|split; [|reflexivity]]; apply Rabs_le; lra.
Qed.
End Moves.

Lemma C70_product_proof : forall (L : libm32) (e : R) (a b : Pose2D f32), accurate L e -> e <= /100 ->
  finite_q a -> finite_q b -> within_q (bpow radix2 50) (qval a) -> within_q (bpow radix2 50) (qval b) ->
  near_move e (qval a) (qval b) (@pose_mul f32 (F32Scalar L) a b).
Proof. exact near_product. Qed.


Lemma C70_mul_assign_proof : forall (L : libm32) (e : R) (m : mem (Pose2D f32)) (o q : nat), accurate L e -> e <= /100 ->
  finite_q (m o) -> finite_q (m q) -> within_q (bpow radix2 50) (qval (m o)) -> within_q (bpow radix2 50) (qval (m q)) ->
  let d := @pose_mulIn f32 (F32Scalar L) m o q o in let c := @pose_mul f32 (F32Scalar L) (m o) (m q) in
  let s := Rabs (val (pose_x (m q))) + Rabs (val (pose_y (m q))) in
  near_move e (qval (m o)) (qval (m q)) d /\
  Rabs (val (pose_x d) - val (pose_x c)) <= 7 * bpow radix2 (-24) * (Rabs (val (pose_x (m o))) + s) + bpow radix2 (-146) /\
  Rabs (val (pose_y d) - val (pose_y c)) <= 7 * bpow radix2 (-24) * (Rabs (val (pose_y (m o))) + s) + bpow radix2 (-146) /\
  pose_theta d = pose_theta c.
Proof.
  intros L e m o q HL he fo fq wo wq. cbv zeta.
  assert (E : @pose_mulIn f32 (F32Scalar L) m o q o = @assign f32 (F32Scalar L) (m o) (m q)).
  { rewrite assign_eq. unfold pose_mulIn, mseq. rewrite !mupd_same. cbn [pose_x pose_y pose_theta].
    destruct (Nat.eq_dec q o) as [->|n]; [rewrite !mupd_same|rewrite !mupd_other by auto]; reflexivity. }
  rewrite E. apply (near_assign L e (m o) (m q) HL he fo fq wo wq).
Qed.


(** ** Returning *)
Lemma C70_inverse_proof : forall (L : libm32) (e : R) (a : Pose2D f32), accurate L e -> e <= /100 ->
  finite_q a -> within_q (bpow radix2 50) (qval a) ->
  let c := @pose_inverse f32 (F32Scalar L) a in let A := qval a in
  let s := Rabs (pose_x A) + Rabs (pose_y A) in
  finite_q c /\ val (pose_theta c) = - pose_theta A /\
  Rabs (val (pose_x c) - pose_x (back A)) <= 3 * bpow radix2 (-24) * s + e * s + bpow radix2 (-147) /\
  Rabs (val (pose_y c) - pose_y (back A)) <= 3 * bpow radix2 (-24) * s + e * s + bpow radix2 (-147).
Proof.
  intros L e a HL he fa wa. cbv zeta.
  assert (E : @pose_inverse f32 (F32Scalar L) a = @pose_invertInPlace f32 (F32Scalar L) a) by reflexivity.
  rewrite E. clear E. qdestr a ax ay at'. destruct fa as (fa1&fa2&fa3). destruct wa as (wa1&wa2&wa3).
  destruct (opp_rd at' fa3) as [fo eo].
  destruct (trig_small L e (Bopp at') HL he fo) as (fc&fs&bc&bs&dc&ds).
  rewrite eo, cos_neg in dc. rewrite eo, sin_neg in ds.
  pose proof (bound50 ax ax ay wa1 wa1 wa2) as B.
  assert (comm : forall x y : R, Rabs (x * y) = Rabs (y * x)) by (intros; now rewrite Rmult_comm).
  pose proof (small_prod _ ax bc) as s1. pose proof (small_prod _ ay bc) as s2. pose proof (small_prod _ ax bs) as s3. pose proof (small_prod _ ay bs) as s4.
  rewrite comm in s1, s2, s3, s4. clear comm. pose proof (Rabs_pos (v32 ax)) as px. pose proof (Rabs_pos (v32 ay)) as py.
  pose proof tiny_pos as tp. pose proof tiny_small as ts. pose proof huge_big as hb. pose proof Proofs_Round.tiny_le as ht.
  destruct (mul_err ax (l_cos L (Bopp at')) fa1 fc) as [g1 h1]; [lra|].
  destruct (mul_err ay (l_sin L (Bopp at')) fa2 fs) as [g2 h2]; [lra|].
  destruct (mul_err ay (l_cos L (Bopp at')) fa2 fc) as [g3 h3]; [lra|].
  destruct (mul_err ax (l_sin L (Bopp at')) fa1 fs) as [g4 h4]; [lra|].
  destruct (sub_err _ _ _ _ _ _ _ _ g1 g2 s1 s4 h1 h2) as [g5 h5]; [unfold ulp1; lra|].
  destruct (add_err _ _ _ _ _ _ _ _ g3 g4 s2 s3 h3 h4) as [g6 h6]; [unfold ulp1; lra|].
  destruct (neg_err _ _ _ g5 h5) as [g7 h7]. destruct (neg_err _ _ _ g6 h6) as [g8 h8].
  pose proof (diff_prod _ _ (v32 ax) _ dc) as k1. pose proof (diff_prod _ _ (v32 ay) _ ds) as k2.
  pose proof (diff_prod _ _ (v32 ay) _ dc) as k3. pose proof (diff_prod _ _ (v32 ax) _ ds) as k4.
  unfold pose_invertInPlace, back, val. cbn [pose_x pose_y pose_theta s_add s_sub s_mul s_neg s_cos s_sin F32Scalar].
  split; [tauto|]. split; [exact eo|]. rewrite <- Proofs_Round.u_pow. unfold ulp1 in *.
  apply Rabs_le_inv in h7. apply Rabs_le_inv in h8. apply Rabs_le_inv in k1. apply Rabs_le_inv in k2. apply Rabs_le_inv in k3. apply Rabs_le_inv in k4.
  split; apply Rabs_le; lra.
Qed.


(** ** Odometry *)
Lemma sin_le_abs : forall x, Rabs (sin x) <= Rabs x.
Proof.
  intros x. pose proof (SIN_bound x) as b.
  assert (H : forall y, 0 <= y -> Rabs (sin y) <= y).
  { intros y hy. destruct (Rle_lt_dec y PI) as [h|h].
    - destruct hy as [hy| <-]; [|rewrite sin_0, Rabs_R0; lra].
      rewrite Rabs_right; [left; now apply sin_lt_x|]. apply Rle_ge. apply sin_ge_0; lra.
    - pose proof PI2_1. pose proof (SIN_bound y). apply Rabs_le. lra. }
  destruct (Rle_lt_dec 0 x) as [h|h]; [rewrite (Rabs_right x); [auto|lra]|].
  rewrite (Rabs_left x) by assumption. rewrite <- Rabs_Ropp, <- sin_neg. apply H. lra.
Qed.
Lemma cos_lip : forall a b, Rabs (cos a - cos b) <= Rabs (a - b).
Proof.
  intros a b. rewrite form2. rewrite !Rabs_mult. pose proof (sin_le_abs ((a - b) / 2)) as h. pose proof (SIN_bound ((a + b) / 2)) as h2.
  assert (Rabs (sin ((a + b) / 2)) <= 1) by (apply Rabs_le; lra).
  replace (Rabs (a - b)) with (2 * Rabs ((a - b) / 2) * 1).
  - apply Rmult_le_compat; try assumption.
    + apply Rmult_le_pos; apply Rabs_pos.
    + apply Rabs_pos.
    + replace (Rabs (-2)) with 2 by (rewrite Rabs_left; lra). lra.
  - unfold Rdiv. rewrite Rabs_mult, (Rabs_right (/2)) by lra. lra.
Qed.
Lemma sin_lip : forall a b, Rabs (sin a - sin b) <= Rabs (a - b).
Proof. intros a b. rewrite !sin_cos. replace (- cos (PI / 2 + a) - - cos (PI / 2 + b)) with (- (cos (PI/2 + a) - cos (PI/2 + b))) by ring.
  rewrite Rabs_Ropp. eapply Rle_trans; [apply cos_lip|]. apply Req_le. f_equal. ring. Qed.

Definition u := bpow radix2 (-24).
Definition w := bpow radix2 (-145).
Lemma w_tiny : w = 32 * tiny.
Proof. unfold w, tiny. change 32 with (bpow radix2 5). rewrite <- bpow_plus. reflexivity. Qed.
Lemma tiny_150 : bpow radix2 (-150) = tiny.
Proof. reflexivity. Qed.
Lemma tiny_147 : bpow radix2 (-147) = 8 * tiny.
Proof. unfold tiny. change 8 with (bpow radix2 3). rewrite <- bpow_plus. reflexivity. Qed.

(** After [j] of at most [n] moves. *)
Definition so_far (n M T k j : R) (p : Pose2D f32) (Q : Pose2D R) : Prop :=
  finite_q p /\ Rabs (pose_x Q) <= 2 * j * M /\ Rabs (pose_y Q) <= 2 * j * M /\ Rabs (pose_theta Q) <= j * T /\
  Rabs (val (pose_x p) - pose_x Q) <= j * (M * k + w) /\ Rabs (val (pose_y p) - pose_y Q) <= j * (M * k + w) /\
  Rabs (val (pose_theta p) - pose_theta Q) <= u * (j * j * T) + 2 * j * tiny.

Lemma one_move : forall L e n M T k (step : Pose2D f32 -> Pose2D f32 -> Pose2D f32),
  (forall a b, finite_q a -> finite_q b -> within_q (bpow radix2 50) (qval a) -> within_q (bpow radix2 50) (qval b) ->
     near_move e (qval a) (qval b) (step a b)) ->
  accurate L e -> 0 <= n <= bpow radix2 20 -> 0 <= M <= bpow radix2 20 -> 0 <= T <= bpow radix2 20 ->
  k = 2 * e + 2 * u * (n * n * T) + 16 * u * n -> k <= 1 -> 0 <= e ->
  forall j p Q m, 0 <= j -> j + 1 <= n -> so_far n M T k j p Q -> finite_q m ->
  Rabs (val (pose_x m)) <= M -> Rabs (val (pose_y m)) <= M -> Rabs (val (pose_theta m)) <= T ->
  so_far n M T k (j + 1) (step p m) (after Q (qval m)).
Proof.
  intros L e n M T k step hst HL hn hM hT hk hk1 he j p Q m hj hjn (hf&hx&hy&ht&dx&dy&dt) fm mx my mt.
  assert (B20 : bpow radix2 20 = 1048576) by (cbn; lra). assert (B50 : bpow radix2 50 = 1125899906842624) by (cbn; lra).
  assert (U : u = / 16777216) by (unfold u; cbn; lra).
  pose proof tiny_pos as tp. pose proof tiny_small as ts. pose proof w_tiny as W.
  rewrite B20 in *.
  assert (jM : 0 <= j * M <= 1048576 * 1048576) by (split; [apply Rmult_le_pos; lra|apply Rmult_le_compat; lra]).
  assert (jT : 0 <= j * T <= 1048576 * 1048576) by (split; [apply Rmult_le_pos; lra|apply Rmult_le_compat; lra]).
  assert (jjT : 0 <= j * j * T) by (apply Rmult_le_pos; [apply Rmult_le_pos; lra|lra]).
  assert (jjT2 : j * j * T <= 1048576 * (j * T)) by (rewrite Rmult_assoc; apply Rmult_le_compat_r; lra).
  assert (jnT : j * j * T <= n * n * T) by (apply Rmult_le_compat_r; [lra|apply Rmult_le_compat; lra]).
  assert (kp : 0 <= k) by (subst k; rewrite U; nra).
  assert (mk : 0 <= M * k <= M) by (split; [apply Rmult_le_pos; lra|rewrite <- (Rmult_1_r M) at 2; apply Rmult_le_compat_l; lra]).
  assert (jw : j * (M * k + w) <= j * M + 1048576 * w).
  { assert (j * (M * k) <= j * M) by (apply Rmult_le_compat_l; lra). assert (j * w <= 1048576 * w) by (apply Rmult_le_compat_r; lra). lra. }
  assert (jt : j * tiny <= 1048576 * tiny) by (apply Rmult_le_compat_r; lra). assert (jt0 : 0 <= j * tiny) by (apply Rmult_le_pos; lra).
  (* the sizes *)
  assert (px : Rabs (val (pose_x p)) <= 3 * (j * M) + 1048576 * w) by (abs2; apply Rabs_le; lra).
  assert (py : Rabs (val (pose_y p)) <= 3 * (j * M) + 1048576 * w) by (abs2; apply Rabs_le; lra).
  assert (pt : Rabs (val (pose_theta p)) <= 2 * (j * T) + 2 * 1048576 * tiny) by (rewrite U in *; abs2; apply Rabs_le; lra).
  assert (pwp : within_q (bpow radix2 50) (qval p)).
  { rewrite B50. unfold within_q, qval. cbn [pose_x pose_y pose_theta]. repeat split; lra. }
  assert (pwm : within_q (bpow radix2 50) (qval m)).
  { rewrite B50. unfold within_q, qval. cbn [pose_x pose_y pose_theta]. repeat split; lra. }
  destruct (hst p m hf fm pwp pwm) as (fc&cx&cy&ct).
  rewrite tiny_150, tiny_147 in *. fold u in cx, cy, ct. unfold qval, after in *. cbn [pose_x pose_y pose_theta] in *.
  set (D := u * (j * j * T) + 2 * j * tiny) in *.
  assert (DD : 0 <= D) by (unfold D; rewrite U; lra).
  pose proof (Rle_trans _ _ _ (cos_lip (val (pose_theta p)) (pose_theta Q)) dt) as lc.
  pose proof (Rle_trans _ _ _ (sin_lip (val (pose_theta p)) (pose_theta Q)) dt) as ls.
  set (cp := cos (val (pose_theta p))) in *. set (sp := sin (val (pose_theta p))) in *.
  assert (DM : forall v, Rabs v <= M -> D * Rabs v <= D * M) by (intros v hv; apply Rmult_le_compat_l; assumption).
  pose proof (Rle_trans _ _ _ (diff_prod _ _ (val (pose_x m)) _ lc) (DM _ mx)) as k1.
  pose proof (Rle_trans _ _ _ (diff_prod _ _ (val (pose_y m)) _ lc) (DM _ my)) as k2.
  pose proof (Rle_trans _ _ _ (diff_prod _ _ (val (pose_x m)) _ ls) (DM _ mx)) as k3.
  pose proof (Rle_trans _ _ _ (diff_prod _ _ (val (pose_y m)) _ ls) (DM _ my)) as k4.
  assert (one : forall c v, -1 <= c <= 1 -> Rabs v <= M -> Rabs (c * v) <= M).
  { intros c v hc hv. rewrite Rabs_mult. replace M with (1 * M) by ring. apply Rmult_le_compat; try assumption; try apply Rabs_pos. now apply Rabs_le. }
  pose proof (one _ _ (COS_bound (pose_theta Q)) mx) as o1. pose proof (one _ _ (COS_bound (pose_theta Q)) my) as o2.
  pose proof (one _ _ (SIN_bound (pose_theta Q)) mx) as o3. pose proof (one _ _ (SIN_bound (pose_theta Q)) my) as o4.
  set (cq := cos (pose_theta Q)) in *. set (sq := sin (pose_theta Q)) in *.
  assert (eM : e * (Rabs (val (pose_x m)) + Rabs (val (pose_y m))) <= 2 * (e * M)).
  { replace (2 * (e * M)) with (e * (M + M)) by ring. apply Rmult_le_compat_l; lra. }
  (* the budget of one move *)
  assert (DMs : D * M <= u * (n * n * T) * M + 2 * tiny * (j * M)).
  { unfold D. assert (u * (j * j * T) * M <= u * (n * n * T) * M) by (apply Rmult_le_compat_r; [lra|]; apply Rmult_le_compat_l; [rewrite U|]; lra). lra. }
  assert (jn : (j + 1) * M <= n * M) by (apply Rmult_le_compat_r; lra).
  assert (budget : 4 * u * (3 * (j * M) + 1048576 * w + 2 * M) + 2 * (e * M) + 8 * tiny + 2 * (D * M) <= M * k + w).
  { rewrite hk. replace (M * (2 * e + 2 * u * (n * n * T) + 16 * u * n)) with (2 * (e * M) + 2 * (u * (n * n * T) * M) + 16 * u * (n * M)) by ring.
    assert (tM : tiny * (j * M) <= / 1000000000000 * (u * (j * M))) by (rewrite U; replace (/ 1000000000000 * (/ 16777216 * (j * M))) with (/ 1000000000000 * / 16777216 * (j * M)) by ring; apply Rmult_le_compat_r; lra).
    assert (0 <= u * (j * M)) by (rewrite U; lra). rewrite U in *. lra. }
  unfold so_far. cbn [pose_x pose_y pose_theta].
  pose proof (Rabs_pos (val (pose_x m))). pose proof (Rabs_pos (val (pose_y m))).
  assert (cx' : 4 * u * (Rabs (val (pose_x p)) + (Rabs (val (pose_x m)) + Rabs (val (pose_y m)))) <= 4 * u * (3 * (j * M) + 1048576 * w + 2 * M)).
  { apply Rmult_le_compat_l; [rewrite U|]; lra. }
  assert (cy' : 4 * u * (Rabs (val (pose_y p)) + (Rabs (val (pose_x m)) + Rabs (val (pose_y m)))) <= 4 * u * (3 * (j * M) + 1048576 * w + 2 * M)).
  { apply Rmult_le_compat_l; [rewrite U|]; lra. }
  split; [exact fc|]. split; [|split; [|split; [|split; [|split]]]].
  - clear - hx o1 o4. abs2. apply Rabs_le. lra.
  - clear - hy o2 o3. abs2. apply Rabs_le. lra.
  - clear - ht mt. abs2. apply Rabs_le. lra.
  - clear - cx cx' eM budget dx k1 k4 o1 o4. apply Rabs_le_inv in cx. apply Rabs_le_inv in dx. apply Rabs_le_inv in k1. apply Rabs_le_inv in k4.
    apply Rabs_le. lra.
  - clear - cy cy' eM budget dy k2 k3. apply Rabs_le_inv in cy. apply Rabs_le_inv in dy. apply Rabs_le_inv in k2. apply Rabs_le_inv in k3.
    apply Rabs_le. lra.
  - assert (S1 : Rabs (val (pose_theta p) + val (pose_theta m)) <= j * T + T + D).
    { clear - dt ht mt. abs2. apply Rabs_le. lra. }
    assert (S2 : u * Rabs (val (pose_theta p) + val (pose_theta m)) <= u * (j * T + T + D)) by (apply Rmult_le_compat_l; [rewrite U; lra|exact S1]).
    assert (S3 : u * D <= / 4 * (u * (j * T)) + / 4 * tiny).
    { unfold D. rewrite U. lra. }
    assert (0 <= u * (j * T)) by (rewrite U; lra).
    replace (u * ((j + 1) * (j + 1) * T)) with (u * (j * j * T) + 2 * (u * (j * T)) + u * T) by ring.
    apply Rabs_le_inv in ct. apply Rabs_le_inv in dt. unfold D in dt. apply Rabs_le. lra.
Qed.

Lemma many_moves : forall L e n M T k (step : Pose2D f32 -> Pose2D f32 -> Pose2D f32),
  (forall a b, finite_q a -> finite_q b -> within_q (bpow radix2 50) (qval a) -> within_q (bpow radix2 50) (qval b) ->
     near_move e (qval a) (qval b) (step a b)) ->
  accurate L e -> 0 <= n <= bpow radix2 20 -> 0 <= M <= bpow radix2 20 -> 0 <= T <= bpow radix2 20 ->
  k = 2 * e + 2 * u * (n * n * T) + 16 * u * n -> k <= 1 -> 0 <= e ->
  forall l j p Q, 0 <= j -> j + INR (length l) <= n -> so_far n M T k j p Q -> Forall finite_q l ->
  Forall (fun m => Rabs (val (pose_x m)) <= M /\ Rabs (val (pose_y m)) <= M /\ Rabs (val (pose_theta m)) <= T) l ->
  so_far n M T k (j + INR (length l)) (fold_left step l p) (fold_left after (map qval l) Q).
Proof.
  intros L e n M T k step hst HL hn hM hT hk hk1 he. induction l as [|m l IH]; intros j p Q hj hjn hs hf hb.
  - cbn [length fold_left map INR]. now rewrite Rplus_0_r.
  - cbn [length fold_left map]. rewrite S_INR in *. cbn [length] in hjn. rewrite S_INR in hjn. inversion hf as [|m' l' f1 f2]; subst m' l'. inversion hb as [|m' l' b1 b2]; subst m' l'.
    destruct b1 as (b1&b3&b4). pose proof (pos_INR (length l)).
    replace (j + (INR (length l) + 1)) with (j + 1 + INR (length l)) by ring. apply IH; try assumption; try lra.
    eapply one_move; eauto; lra.
Qed.

Lemma accurate_pos : forall L e, accurate L e -> 0 <= e.
Proof. intros L e h. destruct (h (f32_ofZ 0) eq_refl) as (_&h1&_). eapply Rle_trans; [apply Rabs_pos|exact h1]. Qed.

Lemma C70_odometry_proof : forall (L : libm32) (e M T : R) (l : list (Pose2D f32)) (step : Pose2D f32 -> Pose2D f32 -> Pose2D f32),
  accurate L e -> e <= /100 -> step = @pose_mul f32 (F32Scalar L) \/ step = @assign f32 (F32Scalar L) ->
  Forall finite_q l ->
  Forall (fun m => Rabs (val (pose_x m)) <= M /\ Rabs (val (pose_y m)) <= M /\ Rabs (val (pose_theta m)) <= T) l ->
  0 <= M <= bpow radix2 20 -> 0 <= T <= bpow radix2 20 -> INR (length l) <= bpow radix2 20 ->
  let n := INR (length l) in
  let k := 2 * e + bpow radix2 (-23) * (n * n * T) + bpow radix2 (-20) * n in k <= 1 ->
  let P := fold_left step l (@pose_default f32 (F32Scalar L)) in
  let Q := fold_left after (map qval l) (mkPose2D 0 0 0) in
  finite_q P /\
  Rabs (val (pose_x P) - pose_x Q) <= n * (M * k + bpow radix2 (-145)) /\
  Rabs (val (pose_y P) - pose_y Q) <= n * (M * k + bpow radix2 (-145)) /\
  Rabs (val (pose_theta P) - pose_theta Q) <= bpow radix2 (-24) * (n * n * T) + n * bpow radix2 (-149).
Proof.
  intros L e M T l step HL he hstep hf hb hM hT hl n k hk P Q.
  assert (hst : forall a b, finite_q a -> finite_q b -> within_q (bpow radix2 50) (qval a) -> within_q (bpow radix2 50) (qval b) ->
     near_move e (qval a) (qval b) (step a b)).
  { intros a b fa fb wa wb. destruct hstep as [-> | ->]; [now apply near_product|now apply near_assign]. }
  assert (U23 : bpow radix2 (-23) = 2 * u) by (unfold u; change 2 with (bpow radix2 1); rewrite <- bpow_plus; reflexivity).
  assert (U20 : bpow radix2 (-20) = 16 * u) by (unfold u; change 16 with (bpow radix2 4); rewrite <- bpow_plus; reflexivity).
  assert (T149 : bpow radix2 (-149) = 2 * tiny) by (unfold tiny; change 2 with (bpow radix2 1); rewrite <- bpow_plus; reflexivity).
  pose proof (pos_INR (length l)) as hp.
  assert (h := many_moves L e n M T k step hst HL (conj hp hl) hM hT).
  specialize (h ltac:(unfold k; now rewrite U23, U20) hk (accurate_pos L e HL) l 0 (@pose_default f32 (F32Scalar L)) (mkPose2D 0 0 0) (Rle_refl 0)).
  rewrite Rplus_0_l in h. specialize (h (Rle_refl _)).
  destruct h as (h1&_&_&_&h2&h3&h4); try assumption.
  { unfold so_far. change (pose_x (@pose_default f32 (F32Scalar L))) with (f32_ofZ 0). change (pose_y (@pose_default f32 (F32Scalar L))) with (f32_ofZ 0).
    change (pose_theta (@pose_default f32 (F32Scalar L))) with (f32_ofZ 0). cbn [pose_x pose_y pose_theta]. unfold val. change (v32 (f32_ofZ 0)) with 0.
    rewrite Rminus_0_r, Rabs_R0. split; [repeat split; reflexivity|]. repeat split; lra. }
  fold P Q in h1, h2, h3, h4. fold n in h2, h3, h4.
  split; [exact h1|]. split; [exact h2|]. split; [exact h3|]. rewrite T149. fold u. lra.
Qed.
