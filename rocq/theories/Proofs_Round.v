(** * Lemmas for Props_Round *)


From Coq Require Import Reals ZArith List Bool Lra Lia Psatz.
Import ListNotations.
From Flocq Require Import Core.Core IEEE754.BinarySingleNaN.
From Verif Require Import Scalar RInst RLemmas Model_Base Model_Vec Model_Rigid F32 Spec_Geom Spec_Round.
From Verif Require Import Proofs_Geom F32Err NormLemmas.
From Verif Require Proofs_Transform.
Local Open Scope R_scope.

Lemma tiny_le : 8 * tiny <= bpow radix2 (-147).
Proof. unfold tiny. change 8 with (bpow radix2 3). rewrite <- bpow_plus. apply Req_le. reflexivity. Qed.
Lemma u_pow : ulp1 = bpow radix2 (-24).
Proof. unfold ulp1. cbn. reflexivity. Qed.

Lemma prod_small : forall x y, Rabs x <= bpow radix2 50 -> Rabs y <= bpow radix2 50 -> Rabs (x * y) <= / 1000 * huge.
Proof.
  intros x y hx hy. rewrite Rabs_mult. apply Rle_trans with (bpow radix2 50 * bpow radix2 50).
  - apply Rmult_le_compat; try assumption; apply Rabs_pos.
  - rewrite <- bpow_plus. unfold huge. apply Rle_trans with (bpow radix2 (-10 + 126)); [apply bpow_le; lia|].
    rewrite bpow_plus. apply Rmult_le_compat_r; [apply bpow_ge_0|]. cbn. lra.
Qed.
Lemma one_small : forall x, Rabs x <= bpow radix2 50 -> Rabs x <= / 1000 * huge.
Proof.
  intros x hx. apply Rle_trans with (1 := hx). unfold huge. apply Rle_trans with (bpow radix2 (-10 + 126)); [apply bpow_le; lia|].
  rewrite bpow_plus. apply Rmult_le_compat_r; [apply bpow_ge_0|]. cbn. lra.
Qed.

Ltac fl h := match type of h with Forall _ (_ :: _) =>
  let a := fresh "F" in let b := fresh "F" in pose proof (Forall_inv h) as a; pose proof (Forall_inv_tail h) as b; clear h; cbn beta in a; fl b
  | Forall _ [] => clear h | _ => idtac end.

Lemma sum3_small : forall x1 y1 x2 y2 x3 y3 : R,
  Rabs x1 <= bpow radix2 50 -> Rabs y1 <= bpow radix2 50 -> Rabs x2 <= bpow radix2 50 -> Rabs y2 <= bpow radix2 50 ->
  Rabs x3 <= bpow radix2 50 -> Rabs y3 <= bpow radix2 50 ->
  Rabs (x1 * y1) + Rabs (x2 * y2) + Rabs (x3 * y3) <= / 100 * huge.
Proof.
  intros x1 y1 x2 y2 x3 y3 h1 h2 h3 h4 h5 h6.
  pose proof (prod_small _ _ h1 h2). pose proof (prod_small _ _ h3 h4). pose proof (prod_small _ _ h5 h6). pose proof huge_big. lra.
Qed.
Lemma sum4_small : forall x1 y1 x2 y2 x3 y3 z : R,
  Rabs x1 <= bpow radix2 50 -> Rabs y1 <= bpow radix2 50 -> Rabs x2 <= bpow radix2 50 -> Rabs y2 <= bpow radix2 50 ->
  Rabs x3 <= bpow radix2 50 -> Rabs y3 <= bpow radix2 50 -> Rabs z <= bpow radix2 50 ->
  Rabs (x1 * y1) + Rabs (x2 * y2) + Rabs (x3 * y3) + Rabs z <= / 100 * huge.
Proof.
  intros x1 y1 x2 y2 x3 y3 z h1 h2 h3 h4 h5 h6 h7.
  pose proof (prod_small _ _ h1 h2). pose proof (prod_small _ _ h3 h4). pose proof (prod_small _ _ h5 h6). pose proof (one_small _ h7). pose proof huge_big. lra.
Qed.

Lemma C66_product_proof : forall (L : libm32) (a b : Transform f32),
  finite_t a -> finite_t b -> within_t (bpow radix2 50) (tval a) -> within_t (bpow radix2 50) (tval b) ->
  let c := @t_mul f32 (F32Scalar L) a b in
  let A := tval a in let B := tval b in let C := t_mul A B in
  finite_t c /\
  (forall i j, (i < 3)%nat -> (j < 3)%nat ->
     Rabs (tmat (tval c) i j - tmat C i j) <=
       4 * bpow radix2 (-24) * sum3 (fun k => Rabs (tmat A i k) * Rabs (tmat B k j)) + bpow radix2 (-147)) /\
  (forall i, (i < 3)%nat ->
     Rabs (vc (tpos (tval c)) i - vc (tpos C) i) <=
       5 * bpow radix2 (-24) * (sum3 (fun k => Rabs (tmat A i k) * Rabs (vc (tpos B) k)) + Rabs (vc (tpos A) i)) + bpow radix2 (-147)).
Proof.
  intros L a b fa fb wa wb c A B C. rewrite <- u_pow. pose proof tiny_le as ht. pose proof tiny_pos as tp.
  assert (W : forall S, 0 <= S -> 31 / 10 * ulp1 * S + 6 * tiny <= 4 * ulp1 * S + bpow radix2 (-147)) by (intros S hS; unfold ulp1; lra).
  assert (W' : forall S, 0 <= S -> 5 * ulp1 * S + 8 * tiny <= 5 * ulp1 * S + bpow radix2 (-147)) by (intros S hS; unfold ulp1; lra).
  assert (ent : forall x1 y1 x2 y2 x3 y3 : f32, fin x1 -> fin y1 -> fin x2 -> fin y2 -> fin x3 -> fin y3 ->
    Rabs (v32 x1) <= bpow radix2 50 -> Rabs (v32 y1) <= bpow radix2 50 -> Rabs (v32 x2) <= bpow radix2 50 -> Rabs (v32 y2) <= bpow radix2 50 ->
    Rabs (v32 x3) <= bpow radix2 50 -> Rabs (v32 y3) <= bpow radix2 50 ->
    let p := Bplus mode_NE (Bplus mode_NE (Bmult mode_NE x1 y1) (Bmult mode_NE x2 y2)) (Bmult mode_NE x3 y3) in
    fin p /\ Rabs (v32 p - (v32 x1 * v32 y1 + v32 x2 * v32 y2 + v32 x3 * v32 y3)) <=
      4 * ulp1 * (Rabs (v32 x1) * Rabs (v32 y1) + Rabs (v32 x2) * Rabs (v32 y2) + Rabs (v32 x3) * Rabs (v32 y3)) + bpow radix2 (-147)).
  { intros. destruct (dot3_err x1 y1 x2 y2 x3 y3) as [f e]; try assumption; [now apply sum3_small|]. split; [exact f|].
    apply Rle_trans with (1 := e). rewrite <- !Rabs_mult. apply W.
    pose proof (Rabs_pos (v32 x1 * v32 y1)). pose proof (Rabs_pos (v32 x2 * v32 y2)). pose proof (Rabs_pos (v32 x3 * v32 y3)). lra. }
  assert (ent' : forall x1 y1 x2 y2 x3 y3 z : f32, fin x1 -> fin y1 -> fin x2 -> fin y2 -> fin x3 -> fin y3 -> fin z ->
    Rabs (v32 x1) <= bpow radix2 50 -> Rabs (v32 y1) <= bpow radix2 50 -> Rabs (v32 x2) <= bpow radix2 50 -> Rabs (v32 y2) <= bpow radix2 50 ->
    Rabs (v32 x3) <= bpow radix2 50 -> Rabs (v32 y3) <= bpow radix2 50 -> Rabs (v32 z) <= bpow radix2 50 ->
    let p := Bplus mode_NE (Bplus mode_NE (Bplus mode_NE (Bmult mode_NE x1 y1) (Bmult mode_NE x2 y2)) (Bmult mode_NE x3 y3)) z in
    fin p /\ Rabs (v32 p - (v32 x1 * v32 y1 + v32 x2 * v32 y2 + v32 x3 * v32 y3 + v32 z)) <=
      5 * ulp1 * (Rabs (v32 x1) * Rabs (v32 y1) + Rabs (v32 x2) * Rabs (v32 y2) + Rabs (v32 x3) * Rabs (v32 y3) + Rabs (v32 z)) + bpow radix2 (-147)).
  { intros. destruct (dot3p_err x1 y1 x2 y2 x3 y3 z) as [f e]; try assumption; [now apply sum4_small|]. split; [exact f|].
    apply Rle_trans with (1 := e). rewrite <- !Rabs_mult. apply W'.
    pose proof (Rabs_pos (v32 x1 * v32 y1)). pose proof (Rabs_pos (v32 x2 * v32 y2)). pose proof (Rabs_pos (v32 x3 * v32 y3)). pose proof (Rabs_pos (v32 z)). lra. }
  clear W W' ht tp. destruct a as [a11 a12 a13 a14 a21 a22 a23 a24 a31 a32 a33 a34]. destruct b as [b11 b12 b13 b14 b21 b22 b23 b24 b31 b32 b33 b34].
  unfold finite_t, within_t, coefs, tval, val in fa, fb, wa, wb. cbn [t_r1c1 t_r1c2 t_r1c3 t_r1c4 t_r2c1 t_r2c2 t_r2c3 t_r2c4 t_r3c1 t_r3c2 t_r3c3 t_r3c4] in fa, fb, wa, wb.
  fl fa. fl fb. fl wa. fl wb.
  split; [|split].
  - unfold finite_t, coefs, c, t_mul. cbn [t_r1c1 t_r1c2 t_r1c3 t_r1c4 t_r2c1 t_r2c2 t_r2c3 t_r2c4 t_r3c1 t_r3c2 t_r3c3 t_r3c4 s_add s_mul F32Scalar].
    repeat apply Forall_cons; try apply Forall_nil; (apply ent || apply ent'); assumption.
  - intros i j hi hj. unfold A, B, C, c, tmat, tval, t_mul, of_rows, sum3, val.
    destruct i as [|[|[|i]]]; [| | |lia]; destruct j as [|[|[|j]]]; try lia;
    cbn [t_r1c1 t_r1c2 t_r1c3 t_r1c4 t_r2c1 t_r2c2 t_r2c3 t_r2c4 t_r3c1 t_r3c2 t_r3c3 t_r3c4 s_add s_mul F32Scalar RScalar];
    apply ent; assumption.
  - intros i hi. unfold A, B, C, c, tmat, tpos, vc, vx, vy, vz, tval, t_mul, of_rows, sum3, val.
    destruct i as [|[|[|i]]]; [| | |lia];
    cbn [fst snd t_r1c1 t_r1c2 t_r1c3 t_r1c4 t_r2c1 t_r2c2 t_r2c3 t_r2c4 t_r3c1 t_r3c2 t_r3c3 t_r3c4 s_add s_mul F32Scalar RScalar];
    apply ent'; assumption.
Qed.


Lemma trans_orth : forall a : Transform R, rigid a -> orthonormal (mtrans (tmat a)).
Proof. intros a h. apply rigid_inverse in h. exact (proj1 h). Qed.
Lemma tmat_mul : forall a b : Transform R, meq (tmat (t_mul a b)) (mmul (tmat a) (tmat b)).
Proof.
  intros a b i j hi hj. destruct a, b. unfold tmat, t_mul, mmul, of_rows, sum3.
  destruct i as [|[|[|i]]]; [| | |lia]; destruct j as [|[|[|j]]]; try lia; unr; ring.
Qed.
Lemma tpos_mul : forall a b : Transform R, tpos (t_mul a b) = vadd (mapply (tmat a) (tpos b)) (tpos a).
Proof.
  intros a b. destruct a, b. unfold tpos, tmat, t_mul, mapply, vadd, of_rows, sum3, vx, vy, vz. cbn [fst snd]. unr. reflexivity.
Qed.

Lemma rot_round : forall L a b, finite_t a -> finite_t b -> within_t (bpow radix2 50) (tval a) -> within_t (bpow radix2 50) (tval b) ->
  fro (mdiff (tmat (tval (@t_mul f32 (F32Scalar L) a b))) (mmul (tmat (tval a)) (tmat (tval b)))) <=
    4 * ulp1 * (fro (tmat (tval a)) * fro (tmat (tval b))) + 3 * bpow radix2 (-147).
Proof.
  intros L a b fa fb wa wb. destruct (C66_product_proof L a b fa fb wa wb) as [_ [h _]]. rewrite <- u_pow in h.
  set (A := tmat (tval a)) in *. set (B := tmat (tval b)) in *.
  apply Rle_trans with (fro (madd (fun i j => (4 * ulp1) * mmul (fun i j => Rabs (A i j)) (fun i j => Rabs (B i j)) i j) (fun _ _ => bpow radix2 (-147)))).
  - apply fro_mono. intros i j hi hj. unfold mdiff, madd. replace (mmul A B i j) with (tmat (t_mul (tval a) (tval b)) i j) by exact (tmat_mul (tval a) (tval b) i j hi hj).
    apply Rle_trans with (1 := h i j hi hj). apply Req_le. unfold mmul. reflexivity.
  - apply Rle_trans with (1 := fro_tri _ _). apply Rplus_le_compat.
    + rewrite fro_scale by (unfold ulp1; lra). apply Rmult_le_compat_l; [unfold ulp1; lra|].
      apply Rle_trans with (1 := fro_mul _ _). rewrite !fro_abs. apply Rle_refl.
    + apply Req_le. unfold fro, sum3. pose proof (bpow_gt_0 radix2 (-147)) as hz. set (z := bpow radix2 (-147)) in *.
      replace (z * z + z * z + z * z + (z * z + z * z + z * z) + (z * z + z * z + z * z)) with (3 * z * (3 * z)) by ring.
      apply sqrt_square. lra.
Qed.

Lemma pos_round : forall L a b, finite_t a -> finite_t b -> within_t (bpow radix2 50) (tval a) -> within_t (bpow radix2 50) (tval b) ->
  vnorm (vsub (tpos (tval (@t_mul f32 (F32Scalar L) a b))) (vadd (mapply (tmat (tval a)) (tpos (tval b))) (tpos (tval a)))) <=
    5 * ulp1 * (fro (tmat (tval a)) * vnorm (tpos (tval b)) + vnorm (tpos (tval a))) + 2 * bpow radix2 (-147).
Proof.
  intros L a b fa fb wa wb. destruct (C66_product_proof L a b fa fb wa wb) as [_ [_ h]]. rewrite <- u_pow in h.
  rewrite <- tpos_mul. set (C := t_mul (tval a) (tval b)) in *. set (c := tval (t_mul a b)) in *.
  set (A := tmat (tval a)) in *. set (p := tpos (tval b)) in *. set (q := tpos (tval a)) in *.
  pose proof (bpow_gt_0 radix2 (-147)) as hz. set (z := bpow radix2 (-147)) in *.
  set (pa := (Rabs (vx p), Rabs (vy p), Rabs (vz p)) : vec3). set (qa := (Rabs (vx q), Rabs (vy q), Rabs (vz q)) : vec3).
  apply Rle_trans with (vnorm (vadd (vscale (5 * ulp1) (vadd (mapply (fun i j => Rabs (A i j)) pa) qa)) (z, z, z))).
  - assert (h0 := h 0%nat ltac:(lia)). assert (h1 := h 1%nat ltac:(lia)). assert (h2 := h 2%nat ltac:(lia)).
    unfold vc, sum3 in h0, h1, h2.
    apply vnorm_mono; unfold vsub at 1, vadd at 1, vscale at 1; unfold vx at 1 4, vy at 1 4, vz at 1 4; cbn [fst snd].
    + apply Rle_trans with (1 := h0). apply Req_le. unfold mapply, vadd, vscale, sum3, pa, qa, vx, vy, vz. cbn [fst snd]. ring.
    + apply Rle_trans with (1 := h1). apply Req_le. unfold mapply, vadd, vscale, sum3, pa, qa, vx, vy, vz. cbn [fst snd]. ring.
    + apply Rle_trans with (1 := h2). apply Req_le. unfold mapply, vadd, vscale, sum3, pa, qa, vx, vy, vz. cbn [fst snd]. ring.
  - apply Rle_trans with (1 := vnorm_tri _ _). apply Rplus_le_compat.
    + rewrite vnorm_scale. rewrite Rabs_pos_eq by (unfold ulp1; lra). apply Rmult_le_compat_l; [unfold ulp1; lra|].
      apply Rle_trans with (1 := vnorm_tri _ _). unfold qa, pa. rewrite vnorm_abs. apply Rplus_le_compat_r.
      apply Rle_trans with (1 := mapply_le _ _). rewrite fro_abs, vnorm_abs. lra.
    + apply vnorm_le; [lra|]. unfold vdot, vx, vy, vz. cbn [fst snd]. nra.
Qed.

Lemma coef_within : forall (a : Transform R) c, (forall i j, (i < 3)%nat -> (j < 3)%nat -> Rabs (tmat a i j) <= c) ->
  Rabs (vx (tpos a)) <= c -> Rabs (vy (tpos a)) <= c -> Rabs (vz (tpos a)) <= c -> within_t c a.
Proof.
  intros a c h h1 h2 h3. unfold within_t, coefs.
  pose proof (h 0%nat 0%nat ltac:(lia) ltac:(lia)). pose proof (h 0%nat 1%nat ltac:(lia) ltac:(lia)). pose proof (h 0%nat 2%nat ltac:(lia) ltac:(lia)).
  pose proof (h 1%nat 0%nat ltac:(lia) ltac:(lia)). pose proof (h 1%nat 1%nat ltac:(lia) ltac:(lia)). pose proof (h 1%nat 2%nat ltac:(lia) ltac:(lia)).
  pose proof (h 2%nat 0%nat ltac:(lia) ltac:(lia)). pose proof (h 2%nat 1%nat ltac:(lia) ltac:(lia)). pose proof (h 2%nat 2%nat ltac:(lia) ltac:(lia)).
  repeat apply Forall_cons; try apply Forall_nil; assumption.
Qed.
Lemma norm_within : forall (a : Transform R), fro (tmat a) <= 4 -> vnorm (tpos a) <= bpow radix2 50 -> within_t (bpow radix2 50) a.
Proof.
  intros a h1 h2. assert (h4 : 4 <= bpow radix2 50) by (change 4 with (bpow radix2 2); apply bpow_le; lia).
  destruct (vnorm_coord (tpos a)) as [p1 [p2 p3]]. apply coef_within; try lra.
  intros i j hi hj. apply Rle_trans with (1 := fro_coef (tmat a) i j hi hj). lra.
Qed.

Lemma pos_small : 3 * bpow radix2 (-147) <= / 4 * ulp1.
Proof.
  rewrite u_pow. change (/ 4) with (bpow radix2 (-2)). rewrite <- bpow_plus. apply Rle_trans with (bpow radix2 (2 + -147)).
  - rewrite bpow_plus. apply Rmult_le_compat_r; [apply bpow_ge_0|]. cbn. lra.
  - apply bpow_le. lia.
Qed.

Lemma fro_isom_l : forall A B, orthonormal A -> fro (mmul A B) = fro B.
Proof.
  intros A B h. rewrite <- fro_trans, <- (fro_trans B).
  rewrite (fro_ext (mtrans (mmul A B)) (mmul (mtrans B) (mtrans A))).
  - apply fro_isom. exact h.
  - intros i j hi hj. unfold mtrans, mmul, sum3. ring.
Qed.

(** One more factor. *)
Lemma step : forall L p Q a r d E F M N, finite_t p -> rigid Q -> fro (mdiff (tmat (tval p)) (tmat Q)) <= E -> E <= / 4 ->
  close d a r -> d <= / 5 -> vnorm (tpos r) <= M -> vnorm (vsub (tpos (tval p)) (tpos Q)) <= F -> vnorm (tpos Q) <= N ->
  N + F <= bpow radix2 50 -> M <= bpow radix2 50 ->
  let p' := @t_mul f32 (F32Scalar L) p a in let Q' := t_mul Q r in
  finite_t p' /\ rigid Q' /\ fro (mdiff (tmat (tval p')) (tmat Q')) <= E + 5 / 4 * d + 16 * ulp1 /\
  vnorm (tpos Q') <= N + M /\
  vnorm (vsub (tpos (tval p')) (tpos Q')) <= F + E * M + 5 * ulp1 * (2 * M + N + F) + 2 * bpow radix2 (-147).
Proof.
  intros L p Q a r d E F M N fp hQ hE hE4 [fa [hr [hd hpos]]] hd8 hM hF hN hb1 hb2 p' Q'.
  pose proof (fro_pos (mdiff (tmat (tval p)) (tmat Q))) as E0. pose proof (fro_pos (mdiff (tmat (tval a)) (tmat r))) as d0.
  pose proof (vnorm_pos (tpos r)) as M0. pose proof (vnorm_pos (tpos Q)) as N0. pose proof (vnorm_pos (vsub (tpos (tval p)) (tpos Q))) as F0.
  pose proof sqrt3_le as s3.
  assert (nP : fro (tmat (tval p)) <= 19821 / 10000).
  { apply Rle_trans with (1 := fro_near _ (tmat Q)). rewrite (fro_orth (tmat Q) (proj1 hQ)). lra. }
  assert (nA : fro (tmat (tval a)) <= 19321 / 10000).
  { apply Rle_trans with (1 := fro_near _ (tmat r)). rewrite (fro_orth (tmat r) (proj1 hr)). lra. }
  assert (nq : vnorm (tpos (tval p)) <= N + F).
  { replace (tpos (tval p)) with (vadd (tpos Q) (vsub (tpos (tval p)) (tpos Q))).
    - apply Rle_trans with (1 := vnorm_tri _ _). lra.
    - unfold vadd, vsub, tpos, vx, vy, vz. cbn [fst snd]. f_equal; [f_equal|]; ring. }
  assert (wp : within_t (bpow radix2 50) (tval p)) by (apply norm_within; lra).
  assert (wa : within_t (bpow radix2 50) (tval a)) by (apply norm_within; [lra|rewrite hpos; lra]).
  pose proof (fro_pos (tmat (tval p))) as P0. pose proof (fro_pos (tmat (tval a))) as A0. pose proof pos_small as ps.
  split; [exact (proj1 (C66_product_proof L p a fp fa wp wa))|]. split; [now apply rigid_mul|]. split; [|split].
  - apply Rle_trans with (1 := fro_tri3 _ (mmul (tmat (tval p)) (tmat (tval a))) _).
    pose proof (rot_round L p a fp fa wp wa) as hr1. fold p' in hr1.
    assert (h2 : fro (mdiff (mmul (tmat (tval p)) (tmat (tval a))) (tmat Q')) <= 5 / 4 * d + E).
    { apply Rle_trans with (fro (madd (mmul (tmat (tval p)) (mdiff (tmat (tval a)) (tmat r))) (mmul (mdiff (tmat (tval p)) (tmat Q)) (tmat r)))).
      - apply Req_le, fro_ext. intros i j hi hj. unfold mdiff at 1. unfold Q'. rewrite (tmat_mul Q r i j hi hj).
        unfold madd, mmul, mdiff, sum3. ring.
      - apply Rle_trans with (1 := fro_tri _ _). rewrite (fro_isom _ _ (trans_orth r hr)).
        apply Rplus_le_compat; [|exact hE].
        set (X := mdiff (tmat (tval a)) (tmat r)) in *.
        apply Rle_trans with (fro (madd (mmul (tmat Q) X) (mmul (mdiff (tmat (tval p)) (tmat Q)) X))).
        + apply Req_le, fro_ext. intros i j hi hj. unfold madd, mmul, mdiff, sum3. ring.
        + apply Rle_trans with (1 := fro_tri _ _). rewrite (fro_isom_l _ _ (proj1 hQ)).
          pose proof (fro_mul (mdiff (tmat (tval p)) (tmat Q)) X) as t1.
          assert (t2 : fro (mdiff (tmat (tval p)) (tmat Q)) * fro X <= / 4 * d) by (apply Rmult_le_compat; lra). lra. }
    assert (fro (tmat (tval p)) * fro (tmat (tval a)) <= 19821 / 10000 * (19321 / 10000)) by now apply Rmult_le_compat.
    unfold ulp1 in *. lra.
  - unfold Q'. rewrite tpos_mul. apply Rle_trans with (1 := vnorm_tri _ _). rewrite (mapply_isom (tmat Q) _ (proj1 hQ)). lra.
  - pose proof (pos_round L p a fp fa wp wa) as hr1. fold p' in hr1. rewrite hpos in hr1.
    set (e1 := vsub (tpos (tval p')) (vadd (mapply (tmat (tval p)) (tpos r)) (tpos (tval p)))) in *.
    replace (vsub (tpos (tval p')) (tpos Q')) with
      (vadd e1 (vadd (mapply (mdiff (tmat (tval p)) (tmat Q)) (tpos r)) (vsub (tpos (tval p)) (tpos Q)))).
    + apply Rle_trans with (1 := vnorm_tri _ _). pose proof (vnorm_tri (mapply (mdiff (tmat (tval p)) (tmat Q)) (tpos r)) (vsub (tpos (tval p)) (tpos Q))) as t1.
      pose proof (mapply_le (mdiff (tmat (tval p)) (tmat Q)) (tpos r)) as t2.
      assert (t3 : fro (mdiff (tmat (tval p)) (tmat Q)) * vnorm (tpos r) <= E * M) by (apply Rmult_le_compat; assumption).
      assert (t4 : fro (tmat (tval p)) * vnorm (tpos r) <= 2 * M) by (apply Rmult_le_compat; lra).
      unfold ulp1 in *. lra.
    + unfold e1, Q'. rewrite tpos_mul. unfold mapply, mdiff, vadd, vsub, sum3, vx, vy, vz. cbn [fst snd]. f_equal; [f_equal|]; ring.
Qed.

Lemma rigid_id : rigid (@t_id R RScalar).
Proof. unfold t_id. apply rigid_mk. unfold so3. unr. lra. Qed.
Lemma tval_id : forall L, tval (@t_id f32 (F32Scalar L)) = @t_id R RScalar.
Proof.
  intros L. unfold tval, t_id, val. cbn [t_r1c1 t_r1c2 t_r1c3 t_r1c4 t_r2c1 t_r2c2 t_r2c3 t_r2c4 t_r3c1 t_r3c2 t_r3c3 t_r3c4 s_ofZ F32Scalar RScalar].
  rewrite (proj2 one_rd), (proj2 zero_rd). reflexivity.
Qed.
Lemma finite_id : forall L, finite_t (@t_id f32 (F32Scalar L)).
Proof. intros L. unfold finite_t, coefs, t_id. cbn [t_r1c1 t_r1c2 t_r1c3 t_r1c4 t_r2c1 t_r2c2 t_r2c3 t_r2c4 t_r3c1 t_r3c2 t_r3c3 t_r3c4 s_ofZ F32Scalar]. repeat constructor. Qed.

Lemma C67_chain_proof : forall (L : libm32) (l : list (Transform f32)) (rs : list (Transform R)) (d M : R),
  Forall2 (close d) l rs -> Forall (fun r => vnorm (tpos r) <= M) rs -> 0 <= d -> 0 <= M <= bpow radix2 30 ->
  let n := INR (length l) in let k := 5 / 4 * d + bpow radix2 (-20) in n * k <= / 4 ->
  let P := @product f32 (F32Scalar L) l in let Q := product rs in
  finite_t P /\ rigid Q /\
  fro (mdiff (tmat (tval P)) (tmat Q)) <= n * k /\
  vnorm (vsub (tpos (tval P)) (tpos Q)) <= n * n * k * M + n * bpow radix2 (-145).
Proof.
  intros L l rs d M hl hM hd [M0 M1] n k hn P Q.
  assert (hk : k = 5 / 4 * d + 16 * ulp1).
  { unfold k. f_equal. rewrite u_pow. change 16 with (bpow radix2 4). rewrite <- bpow_plus. reflexivity. }
  assert (G : finite_t P /\ rigid Q /\ fro (mdiff (tmat (tval P)) (tmat Q)) <= n * k /\ vnorm (tpos Q) <= n * M /\
    vnorm (vsub (tpos (tval P)) (tpos Q)) <= n * n * k * M + n * bpow radix2 (-145)).
  { unfold P, Q, n in *. clear P Q n. revert rs hl hM hn. induction l as [|a l IH] using rev_ind; intros rs hl hM hn.
    - inversion hl; subst. unfold product. cbn [fold_left length INR]. rewrite tval_id.
      split; [apply finite_id|]. split; [apply rigid_id|]. split; [|split].
      + apply fro_le; [lra|]. unfold mdiff, sum3. apply Req_le. ring.
      + apply vnorm_le; [lra|]. apply Req_le. unfold vdot, tpos, t_id, vx, vy, vz. unr. ring.
      + apply vnorm_le; [lra|]. apply Req_le. unfold vdot, vsub, tpos, t_id, vx, vy, vz. unr. ring.
    - apply Forall2_app_inv_l in hl. destruct hl as [rs1 [rs2 [h1 [h2 ->]]]].
      inversion h2 as [|? r ? rs3 hc h3]; subst. inversion h3; subst. clear h2 h3.
      apply Forall_app in hM. destruct hM as [hM1 hM2]. pose proof (Forall_inv hM2) as hMr. cbn beta in hMr.
      rewrite app_length in hn |- *. cbn [length] in hn |- *. rewrite plus_INR in hn |- *. cbn [INR] in hn |- *.
      set (n := INR (length l)) in *. assert (n0 : 0 <= n) by apply pos_INR.
      assert (k0 : 0 < k) by (rewrite hk; unfold ulp1; lra).
      assert (hnk : n * k <= / 4) by lra.
      destruct (IH rs1 h1 hM1 hnk) as [i1 [i2 [i3 [i4 i5]]]].
      assert (x0 : 0 <= n * k) by (apply Rmult_le_pos; lra).
      assert (q0 : 0 <= n * M) by (apply Rmult_le_pos; lra).
      assert (hn17 : n <= 262144) by (rewrite hk in hnk; unfold ulp1 in hnk; nra).
      assert (hxq : n * k * (n * M) <= / 4 * (n * M)) by (apply Rmult_le_compat_r; lra).
      assert (hxM : 16 * ulp1 * (n * M) <= n * k * M).
      { replace (n * k * M) with (k * (n * M)) by ring. apply Rmult_le_compat_r; [lra|]. rewrite hk. lra. }
      assert (hkM : 16 * ulp1 * M <= k * M) by (apply Rmult_le_compat_r; [lra|rewrite hk; lra]).
      pose proof (bpow_gt_0 radix2 (-145)) as z0.
      assert (ez : 4 * bpow radix2 (-147) = bpow radix2 (-145)) by (change 4 with (bpow radix2 2); rewrite <- bpow_plus; reflexivity).
      assert (nz : n * bpow radix2 (-145) <= 262144 * bpow radix2 (-145)) by (apply Rmult_le_compat_r; lra).
      assert (z1 : bpow radix2 (-145) <= ulp1) by (rewrite u_pow; apply bpow_le; lia).
      assert (qM : n * M <= 262144 * bpow radix2 30) by (apply Rmult_le_compat; lra).
      assert (b50 : bpow radix2 50 = 1048576 * bpow radix2 30) by (change 1048576 with (bpow radix2 20); rewrite <- bpow_plus; reflexivity).
      assert (b30 : 1 <= bpow radix2 30) by (change 1 with (bpow radix2 0); apply bpow_le; lia).
      assert (hF : n * n * k * M + n * bpow radix2 (-145) = n * k * (n * M) + n * bpow radix2 (-145)) by ring.
      destruct (step L (@product f32 (F32Scalar L) l) (product rs1) a r d (n * k) (n * n * k * M + n * bpow radix2 (-145)) M (n * M) i1 i2 i3 hnk hc)
        as [j1 [j2 [j3 [j4 j5]]]]; try assumption.
      + rewrite hk in hn. assert (0 <= n * (5 / 4 * d + 16 * ulp1)) by (rewrite <- hk; exact x0). unfold ulp1 in *. lra.
      + rewrite hF. unfold ulp1 in *. lra.
      + lra.
      + unfold product in *. rewrite !fold_left_app. cbn [fold_left].
        split; [exact j1|]. split; [exact j2|]. split; [|split].
        * apply Rle_trans with (1 := j3). rewrite hk. lra.
        * apply Rle_trans with (1 := j4). lra.
        * apply Rle_trans with (1 := j5). rewrite hF.
          replace ((n + 1) * (n + 1) * k * M) with (n * k * (n * M) + 2 * (n * k * M) + k * M) by ring.
          unfold ulp1 in *. lra. }
  tauto.
Qed.


Lemma C67_points_proof : forall (L : libm32) (l : list (Transform f32)) (rs : list (Transform R)) (d M : R) (w : vec3),
  Forall2 (close d) l rs -> Forall (fun r => vnorm (tpos r) <= M) rs -> 0 <= d -> 0 <= M <= bpow radix2 30 ->
  let n := INR (length l) in let k := 5 / 4 * d + bpow radix2 (-20) in n * k <= / 4 ->
  vnorm (vsub (motion (tval (@product f32 (F32Scalar L) l)) w) (motion (product rs) w)) <=
    n * k * (vnorm w + n * M) + n * bpow radix2 (-145).
Proof.
  intros L l rs d M w hl hM hd hMM n k hn.
  destruct (C67_chain_proof L l rs d M hl hM hd hMM hn) as [_ [_ [h1 h2]]]. fold n k in h1, h2.
  set (P := tval (@product f32 (F32Scalar L) l)) in *. set (Q := product rs) in *.
  replace (vsub (motion P w) (motion Q w)) with (vadd (mapply (mdiff (tmat P) (tmat Q)) w) (vsub (tpos P) (tpos Q))).
  - apply Rle_trans with (1 := vnorm_tri _ _). pose proof (mapply_le (mdiff (tmat P) (tmat Q)) w) as h3.
    pose proof (vnorm_pos w) as w0. assert (h4 : fro (mdiff (tmat P) (tmat Q)) * vnorm w <= n * k * vnorm w) by (apply Rmult_le_compat_r; assumption).
    replace (n * k * (vnorm w + n * M)) with (n * k * vnorm w + n * n * k * M) by ring. lra.
  - unfold motion, mapply, mdiff, vadd, vsub, sum3, vx, vy, vz. cbn [fst snd]. f_equal; [f_equal|]; ring.
Qed.


Lemma C66_inverse_proof : forall (L : libm32) (a : Transform f32),
  finite_t a -> within_t (bpow radix2 50) (tval a) ->
  let c := @t_inverse f32 (F32Scalar L) a in let A := tval a in
  finite_t c /\ meq (tmat (tval c)) (mtrans (tmat A)) /\
  (forall i, (i < 3)%nat ->
     Rabs (vc (tpos (tval c)) i - vc (tpos (@t_inverse R RScalar A)) i) <=
       4 * bpow radix2 (-24) * sum3 (fun k => Rabs (tmat A k i) * Rabs (vc (tpos A) k)) + bpow radix2 (-147)).
Proof.
  intros L a fa wa c A. rewrite <- u_pow. pose proof tiny_le as ht. pose proof tiny_pos as tp.
  assert (ent : forall x1 y1 x2 y2 x3 y3 : f32, fin x1 -> fin y1 -> fin x2 -> fin y2 -> fin x3 -> fin y3 ->
    Rabs (v32 x1) <= bpow radix2 50 -> Rabs (v32 y1) <= bpow radix2 50 -> Rabs (v32 x2) <= bpow radix2 50 -> Rabs (v32 y2) <= bpow radix2 50 ->
    Rabs (v32 x3) <= bpow radix2 50 -> Rabs (v32 y3) <= bpow radix2 50 ->
    let p := Bopp (Bplus mode_NE (Bplus mode_NE (Bmult mode_NE x1 y1) (Bmult mode_NE x2 y2)) (Bmult mode_NE x3 y3)) in
    fin p /\ Rabs (v32 p - - (v32 x1 * v32 y1 + v32 x2 * v32 y2 + v32 x3 * v32 y3)) <=
      4 * ulp1 * (Rabs (v32 x1) * Rabs (v32 y1) + Rabs (v32 x2) * Rabs (v32 y2) + Rabs (v32 x3) * Rabs (v32 y3)) + bpow radix2 (-147)).
  { intros. destruct (dot3_err x1 y1 x2 y2 x3 y3) as [f e]; try assumption; [now apply sum3_small|].
    destruct (opp_rd _ f) as [f' e']. split; [exact f'|]. unfold p. rewrite e'.
    match goal with |- Rabs (- ?x - - ?y) <= _ => replace (- x - - y) with (- (x - y)) by ring end. rewrite Rabs_Ropp.
    apply Rle_trans with (1 := e). rewrite <- !Rabs_mult.
    pose proof (Rabs_pos (v32 x1 * v32 y1)). pose proof (Rabs_pos (v32 x2 * v32 y2)). pose proof (Rabs_pos (v32 x3 * v32 y3)). unfold ulp1. lra. }
  clear ht tp. destruct a as [a11 a12 a13 a14 a21 a22 a23 a24 a31 a32 a33 a34].
  unfold finite_t, within_t, coefs, tval, val in fa, wa. cbn [t_r1c1 t_r1c2 t_r1c3 t_r1c4 t_r2c1 t_r2c2 t_r2c3 t_r2c4 t_r3c1 t_r3c2 t_r3c3 t_r3c4] in fa, wa.
  fl fa. fl wa.
  assert (ec : c = mkTransform a11 a21 a31 (Bopp (Bplus mode_NE (Bplus mode_NE (Bmult mode_NE a11 a14) (Bmult mode_NE a21 a24)) (Bmult mode_NE a31 a34)))
                               a12 a22 a32 (Bopp (Bplus mode_NE (Bplus mode_NE (Bmult mode_NE a12 a14) (Bmult mode_NE a22 a24)) (Bmult mode_NE a32 a34)))
                               a13 a23 a33 (Bopp (Bplus mode_NE (Bplus mode_NE (Bmult mode_NE a13 a14) (Bmult mode_NE a23 a24)) (Bmult mode_NE a33 a34)))) by reflexivity.
  rewrite ec. clear ec c. split; [|split].
  - unfold finite_t, coefs. cbn [t_r1c1 t_r1c2 t_r1c3 t_r1c4 t_r2c1 t_r2c2 t_r2c3 t_r2c4 t_r3c1 t_r3c2 t_r3c3 t_r3c4].
    repeat apply Forall_cons; try apply Forall_nil; try assumption; apply ent; assumption.
  - intros i j hi hj. destruct i as [|[|[|i]]]; [| | |lia]; destruct j as [|[|[|j]]]; try lia; reflexivity.
  - intros i hi. unfold A, tmat, tpos, vc, vx, vy, vz, tval, of_rows, sum3, val.
    destruct i as [|[|[|i]]]; [| | |lia];
    cbn [fst snd t_r1c1 t_r1c2 t_r1c3 t_r1c4 t_r2c1 t_r2c2 t_r2c3 t_r2c4 t_r3c1 t_r3c2 t_r3c3 t_r3c4];
    (match goal with |- Rabs (v32 ?x - _) <= _ => match x with Bopp (Bplus _ (Bplus _ (Bmult _ ?x1 ?y1) (Bmult _ ?x2 ?y2)) (Bmult _ ?x3 ?y3)) =>
       apply (ent x1 y1 x2 y2 x3 y3); assumption end end).
Qed.


Lemma inv_pos : forall A : Transform R, tpos (t_inverse A) = vscale (- 1) (mapply (mtrans (tmat A)) (tpos A)).
Proof.
  intros A. destruct A. rewrite t_inverse_mk. unr. f_equal; [f_equal|]; ring.
Qed.

Local Opaque t_inverse.
Lemma vec_round : forall (u w p : vec3) (A : mat3),
  (forall i, (i < 3)%nat -> Rabs (vc u i - vc w i) <= 4 * ulp1 * sum3 (fun k => Rabs (A k i) * Rabs (vc p k)) + bpow radix2 (-147)) ->
  vnorm (vsub u w) <= 4 * ulp1 * (fro A * vnorm p) + 2 * bpow radix2 (-147).
Proof.
  intros u w p A h.
  pose proof (bpow_gt_0 radix2 (-147)) as hz. set (z := bpow radix2 (-147)) in *.
  set (pa := (Rabs (vx p), Rabs (vy p), Rabs (vz p)) : vec3).
  apply Rle_trans with (vnorm (vadd (vscale (4 * ulp1) (mapply (mtrans (fun i j => Rabs (A i j))) pa)) (z, z, z))).
  - assert (h0 := h 0%nat ltac:(lia)). assert (h1 := h 1%nat ltac:(lia)). assert (h2 := h 2%nat ltac:(lia)).
    unfold vc, sum3 in h0, h1, h2.
    apply vnorm_mono.
    + apply Rle_trans with (1 := h0). apply Req_le. unfold mapply, mtrans, vadd, vscale, sum3, pa, vx, vy, vz. cbn [fst snd]. ring.
    + apply Rle_trans with (1 := h1). apply Req_le. unfold mapply, mtrans, vadd, vscale, sum3, pa, vx, vy, vz. cbn [fst snd]. ring.
    + apply Rle_trans with (1 := h2). apply Req_le. unfold mapply, mtrans, vadd, vscale, sum3, pa, vx, vy, vz. cbn [fst snd]. ring.
  - apply Rle_trans with (1 := vnorm_tri _ _). apply Rplus_le_compat.
    + rewrite vnorm_scale. rewrite Rabs_pos_eq by (unfold ulp1; lra). apply Rmult_le_compat_l; [unfold ulp1; lra|].
      apply Rle_trans with (1 := mapply_le _ _). rewrite fro_trans, fro_abs. unfold pa. rewrite vnorm_abs. lra.
    + apply vnorm_le; [lra|]. unfold vdot, vx, vy, vz. cbn [fst snd]. nra.
Qed.


Lemma inv_round : forall L a, finite_t a -> within_t (bpow radix2 50) (tval a) ->
  vnorm (vsub (tpos (tval (@t_inverse f32 (F32Scalar L) a))) (tpos (@t_inverse R RScalar (tval a)))) <=
    4 * ulp1 * (fro (tmat (tval a)) * vnorm (tpos (tval a))) + 2 * bpow radix2 (-147).
Proof.
  intros L a fa wa. destruct (C66_inverse_proof L a fa wa) as [_ [_ h]]. rewrite <- u_pow in h.
  exact (vec_round _ _ _ _ h).
Qed.

Lemma vnorm_neg : forall v, vnorm (vscale (- 1) v) = vnorm v.
Proof. intros v. rewrite vnorm_scale, Rabs_left by lra. ring. Qed.
Lemma mapply_mul : forall A B v, mapply (mmul A B) v = mapply A (mapply B v).
Proof. intros A B v. unfold mapply, mmul, sum3, vx, vy, vz. cbn [fst snd]. f_equal; [f_equal|]; ring. Qed.
Lemma mapply_one : forall A v, meq A mident -> mapply A v = v.
Proof.
  intros A v h. destruct v as [[a b] c]. unfold mapply, sum3, vx, vy, vz. cbn [fst snd].
  rewrite !h by lia. unfold mident. cbn. f_equal; [f_equal|]; ring.
Qed.
Lemma vnorm_near : forall u v, vnorm u <= vnorm v + vnorm (vsub u v).
Proof.
  intros u v. replace (vnorm u) with (vnorm (vadd v (vsub u v))); [apply vnorm_tri|].
  f_equal. destruct u as [[a b] c]. destruct v as [[d e] f]. unfold vadd, vsub, vx, vy, vz. cbn [fst snd]. f_equal; [f_equal|]; ring.
Qed.

Lemma C66_back_proof : forall (L : libm32) (a : Transform f32) (r : Transform R) (d M : R),
  close d a r -> d <= / 5 -> vnorm (tpos r) <= M -> 0 <= M <= bpow radix2 30 ->
  let p := @t_mul f32 (F32Scalar L) a (@t_inverse f32 (F32Scalar L) a) in
  finite_t p /\ fro (mdiff (tmat (tval p)) mident) <= 5 / 2 * d + bpow radix2 (-20) /\
  vnorm (tpos (tval p)) <= (4 * d + bpow radix2 (-18)) * M + bpow radix2 (-144).
Proof.
  intros L a r d M hc hd hM [M0 M1] p. destruct hc as [fa [hr [hd' hpos]]].
  pose proof (fro_pos (mdiff (tmat (tval a)) (tmat r))) as d0. pose proof sqrt3_le as s3.
  assert (nA : fro (tmat (tval a)) <= 19321 / 10000).
  { apply Rle_trans with (1 := fro_near _ (tmat r)). rewrite (fro_orth (tmat r) (proj1 hr)). lra. }
  assert (b50 : bpow radix2 50 = 1048576 * bpow radix2 30) by (change 1048576 with (bpow radix2 20); rewrite <- bpow_plus; reflexivity).
  assert (b30 : 1 <= bpow radix2 30) by (change 1 with (bpow radix2 0); apply bpow_le; lia).
  assert (wa : within_t (bpow radix2 50) (tval a)) by (apply norm_within; [lra|rewrite hpos; lra]).
  set (b := @t_inverse f32 (F32Scalar L) a) in *.
  destruct (C66_inverse_proof L a fa wa) as [fb [mb _]]. fold b in fb, mb.
  pose proof (inv_round L a fa wa) as eb. fold b in eb. rewrite inv_pos, hpos in eb.
  set (q := tpos (tval b)) in *.
  pose (r' := mkTransform (t_r1c1 r) (t_r2c1 r) (t_r3c1 r) (vx q) (t_r1c2 r) (t_r2c2 r) (t_r3c2 r) (vy q) (t_r1c3 r) (t_r2c3 r) (t_r3c3 r) (vz q)).
  assert (mr' : meq (tmat r') (mtrans (tmat r))).
  { intros i j hi hj. destruct i as [|[|[|i]]]; [| | |lia]; destruct j as [|[|[|j]]]; try lia; reflexivity. }
  assert (pr' : tpos r' = q) by (unfold tpos, r'; destruct q as [[q1 q2] q3]; reflexivity).
  assert (hr' : rigid r').
  { pose proof (rigid_inverse r hr) as h. unfold r'. destruct r. rewrite t_inverse_mk in h. apply rigid_mk. apply rigid_mk in h. exact h. }
  assert (cb : close d b r').
  { split; [exact fb|]. split; [exact hr'|]. split; [|exact (eq_sym pr')].
    apply Rle_trans with (2 := hd'). rewrite <- (fro_trans (mdiff (tmat (tval a)) (tmat r))). apply Req_le, fro_ext.
    intros i j hi hj. unfold mdiff, mtrans. rewrite (mb i j hi hj), (mr' i j hi hj). reflexivity. }
  assert (nz : 2 * bpow radix2 (-147) = bpow radix2 (-146)) by (change 2 with (bpow radix2 1); rewrite <- bpow_plus; reflexivity).
  assert (z4 : 4 * bpow radix2 (-146) = bpow radix2 (-144)) by (change 4 with (bpow radix2 2); rewrite <- bpow_plus; reflexivity).
  pose proof (bpow_gt_0 radix2 (-146)) as z0.
  assert (z1 : bpow radix2 (-146) <= ulp1) by (rewrite u_pow; apply bpow_le; lia).
  pose proof (vnorm_pos (tpos r)) as r0.
  assert (eb' : vnorm (vsub q (vscale (- 1) (mapply (mtrans (tmat (tval a))) (tpos r)))) <= 8 * ulp1 * M + bpow radix2 (-146)).
  { apply Rle_trans with (1 := eb). rewrite nz. apply Rplus_le_compat_r.
    assert (fro (tmat (tval a)) * vnorm (tpos r) <= 2 * M) by (apply Rmult_le_compat; try lra; apply fro_pos). unfold ulp1 in *. lra. }
  assert (nq : vnorm q <= 2 * M + bpow radix2 (-146)).
  { apply Rle_trans with (1 := vnorm_near _ (vscale (- 1) (mapply (mtrans (tmat (tval a))) (tpos r)))).
    rewrite vnorm_neg.
    pose proof (mapply_le (mtrans (tmat (tval a))) (tpos r)) as t1. rewrite fro_trans in t1.
    assert (t2 : fro (tmat (tval a)) * vnorm (tpos r) <= 19321 / 10000 * M) by (apply Rmult_le_compat; try lra; apply fro_pos). unfold ulp1 in *. lra. }
  assert (g1 : d <= / 4) by lra.
  assert (g2 : vnorm (tpos r') <= 2 * M + bpow radix2 (-146)) by (rewrite pr'; exact nq).
  assert (g3 : vnorm (vsub (tpos (tval a)) (tpos r)) <= 0).
  { rewrite hpos. apply vnorm_le; [lra|]. unfold vdot, vsub, vx, vy, vz. cbn [fst snd]. lra. }
  assert (g4 : M + 0 <= bpow radix2 50) by lra.
  assert (g5 : 2 * M + bpow radix2 (-146) <= bpow radix2 50) by (unfold ulp1 in *; lra).
  destruct (step L a r b r' d d 0 (2 * M + bpow radix2 (-146)) M fa hr hd' g1 cb hd g2 g3 hM g4 g5) as [j1 [j2 [j3 [j4 j5]]]].
  fold p in j1, j3, j5. split; [exact j1|].
    assert (u20 : 16 * ulp1 = bpow radix2 (-20)) by (rewrite u_pow; change 16 with (bpow radix2 4); rewrite <- bpow_plus; reflexivity).
    assert (u18 : 64 * ulp1 = bpow radix2 (-18)) by (rewrite u_pow; change 64 with (bpow radix2 6); rewrite <- bpow_plus; reflexivity).
    assert (I1 : meq (tmat (t_mul r r')) mident).
    { intros i j hi hj. rewrite (tmat_mul r r' i j hi hj). rewrite <- (trans_orth r hr i j hi hj). unfold mmul, mtrans.
      unfold sum3. rewrite (mr' 0%nat j ltac:(lia) hj), (mr' 1%nat j ltac:(lia) hj), (mr' 2%nat j ltac:(lia) hj). reflexivity. }
    split.
    + rewrite <- u20. apply Rle_trans with (fro (mdiff (tmat (tval p)) (tmat (t_mul r r')))); [|lra].
      apply Req_le, fro_ext. intros i j hi hj. unfold mdiff. rewrite (I1 i j hi hj). reflexivity.
    + apply Rle_trans with (1 := vnorm_near _ (tpos (t_mul r r'))).
      assert (h1 : vnorm (tpos (t_mul r r')) <= d * M + 8 * ulp1 * M + bpow radix2 (-146)).
      { rewrite tpos_mul, pr'.
        set (e := vsub q (vscale (- 1) (mapply (mtrans (tmat (tval a))) (tpos r)))) in *.
        replace (vadd (mapply (tmat r) q) (tpos r)) with
          (vadd (mapply (tmat r) e) (vsub (mapply (tmat r) (mapply (mtrans (tmat r)) (tpos r))) (mapply (tmat r) (mapply (mtrans (tmat (tval a))) (tpos r))))).
        - apply Rle_trans with (1 := vnorm_tri _ _). rewrite (mapply_isom (tmat r) e (proj1 hr)).
          assert (t1 : vnorm (vsub (mapply (tmat r) (mapply (mtrans (tmat r)) (tpos r))) (mapply (tmat r) (mapply (mtrans (tmat (tval a))) (tpos r)))) <= d * M).
          { replace (vsub (mapply (tmat r) (mapply (mtrans (tmat r)) (tpos r))) (mapply (tmat r) (mapply (mtrans (tmat (tval a))) (tpos r))))
              with (vscale (- 1) (mapply (tmat r) (mapply (mtrans (mdiff (tmat (tval a)) (tmat r))) (tpos r)))).
            - rewrite vnorm_neg. rewrite (mapply_isom (tmat r) _ (proj1 hr)).
              apply Rle_trans with (1 := mapply_le _ _). rewrite fro_trans. apply Rmult_le_compat; assumption.
            - unfold mapply, mdiff, mtrans, vsub, vscale, sum3, vx, vy, vz. cbn [fst snd]. f_equal; [f_equal|]; ring. }
          lra.
        - replace (mapply (tmat r) (mapply (mtrans (tmat r)) (tpos r))) with (tpos r).
          + unfold e. unfold mapply, mtrans, vadd, vsub, vscale, sum3, vx, vy, vz. cbn [fst snd]. f_equal; [f_equal|]; ring.
          + pose proof (mapply_mul (tmat r) (mtrans (tmat r)) (tpos r)) as hh. rewrite <- hh.
            symmetry. apply mapply_one. intros i j hi hj. rewrite <- (trans_orth r hr i j hi hj). reflexivity. }
      assert (dM : 0 <= d * M) by (apply Rmult_le_pos; lra).
      assert (dz : d * bpow radix2 (-146) <= / 5 * bpow radix2 (-146)) by (apply Rmult_le_compat_r; lra).
      rewrite <- u18, <- z4. rewrite nz in j5. unfold ulp1 in *. lra.
Qed.
