(** * Lemmas for Props_Turn *)


From Coq Require Import Reals ZArith List Bool Lra Lia Psatz.
Import ListNotations.
From Flocq Require Import Core.Core IEEE754.BinarySingleNaN.
From Verif Require Import Scalar RInst RLemmas Model_Base Model_Vec Model_Rigid Model_Almath Model_Helpers F32 Spec_Geom Spec_Round Spec_Turn.
From Verif Require Import F32Err NormLemmas.
From Verif Require Proofs_Round Proofs_Frames MemTac.
Local Open Scope R_scope.
Import Proofs_Round Proofs_Frames MemTac.

Definition fdot (a b c x y z : f32) : f32 := Bplus mode_NE (Bplus mode_NE (Bmult mode_NE a x) (Bmult mode_NE b y)) (Bmult mode_NE c z).
Definition fmul (A : nat -> nat -> f32) (v : triple) : triple :=
  let '(x, y, z) := v in
  (fdot (A 0%nat 0%nat) (A 0%nat 1%nat) (A 0%nat 2%nat) x y z, fdot (A 1%nat 0%nat) (A 1%nat 1%nat) (A 1%nat 2%nat) x y z,
   fdot (A 2%nat 0%nat) (A 2%nat 1%nat) (A 2%nat 2%nat) x y z).

Lemma fmul_turned : forall (A : nat -> nat -> f32) (Rm : mat3) d, (forall i j, (i < 3)%nat -> (j < 3)%nat -> fin (A i j)) ->
  orthonormal Rm -> fro (mdiff (fun i j => v32 (A i j)) Rm) <= d -> d <= / 5 -> forall v, turned (d + bpow radix2 (-21)) Rm v (fmul A v).
Proof.
  intros A Rm d fA oR hd d5 [[x y] z] [fx [fy fz]] hv. cbn [val3] in hv. set (V := (val x, val y, val z)) in *.
  pose proof (fro_pos (mdiff (fun i j => v32 (A i j)) Rm)) as d0. pose proof sqrt3_le as s3. set (B := fun i j => v32 (A i j)) in *.
  assert (nA : fro B <= 19321 / 10000) by (apply Rle_trans with (1 := fro_near B Rm); rewrite (fro_orth Rm oR); lra).
  pose proof (vnorm_coord V) as [b1 [b2 b3]]. unfold V, vx, vy, vz, val in b1, b2, b3. cbn [fst snd] in b1, b2, b3.
  fold (val x) (val y) (val z) in b1, b2, b3. fold V in b1, b2, b3. unfold val in b1, b2, b3.
  assert (o50 : 4 <= bpow radix2 50) by (change 4 with (bpow radix2 2); apply bpow_le; lia).
  assert (bA : forall i j, (i < 3)%nat -> (j < 3)%nat -> Rabs (v32 (A i j)) <= bpow radix2 50).
  { intros i j hi hj. apply Rle_trans with (1 := fro_coef B i j hi hj). lra. }
  pose proof tiny_le as ht. pose proof tiny_pos as tp.
  assert (ent : forall i, (i < 3)%nat -> fin (fdot (A i 0%nat) (A i 1%nat) (A i 2%nat) x y z) /\
    Rabs (v32 (fdot (A i 0%nat) (A i 1%nat) (A i 2%nat) x y z) - (B i 0%nat * v32 x + B i 1%nat * v32 y + B i 2%nat * v32 z)) <=
      4 * ulp1 * (Rabs (B i 0%nat) * Rabs (v32 x) + Rabs (B i 1%nat) * Rabs (v32 y) + Rabs (B i 2%nat) * Rabs (v32 z)) + bpow radix2 (-147)).
  { intros i hi. destruct (dot3_err (A i 0%nat) x (A i 1%nat) y (A i 2%nat) z) as [f e]; try assumption; try (apply fA; lia).
    - apply sum3_small; try (apply bA; lia); lra.
    - split; [exact f|]. apply Rle_trans with (1 := e). rewrite <- !Rabs_mult. unfold B.
      pose proof (Rabs_pos (v32 (A i 0%nat) * v32 x)). pose proof (Rabs_pos (v32 (A i 1%nat) * v32 y)). pose proof (Rabs_pos (v32 (A i 2%nat) * v32 z)). unfold ulp1. lra. }
  destruct (ent 0%nat ltac:(lia)) as [f0 e0]. destruct (ent 1%nat ltac:(lia)) as [f1 e1]. destruct (ent 2%nat ltac:(lia)) as [f2 e2].
  split; [repeat split; assumption|].
  assert (r : vnorm (vsub (val3 (fmul A (x, y, z))) (mapply B V)) <= 4 * ulp1 * (fro (mtrans B) * vnorm V) + 2 * bpow radix2 (-147)).
  { apply vec_round. intros i hi. unfold mapply, sum3, mtrans, vc, V, vx, vy, vz, val. cbn [val3 fmul]. unfold val. cbn [fst snd].
    destruct i as [|[|[|i]]]; [exact e0|exact e1|exact e2|lia]. }
  rewrite fro_trans in r. change (val3 (x, y, z)) with V.
  assert (e : vsub (val3 (fmul A (x, y, z))) (mapply Rm V) = vadd (vsub (val3 (fmul A (x, y, z))) (mapply B V)) (mapply (mdiff B Rm) V)).
  { generalize (val3 (fmul A (x, y, z))). intros [[p q] s]. unfold mapply, mdiff, sum3, vsub, vadd, vx, vy, vz. cbn [fst snd]. apply f_equal2; [apply f_equal2|]; ring. }
  rewrite e. apply Rle_trans with (1 := vnorm_tri _ _).
  pose proof (mapply_le (mdiff B Rm) V) as m. pose proof (vnorm_pos V) as v0.
  assert (m1 : fro (mdiff B Rm) * vnorm V <= d * vnorm V) by (apply Rmult_le_compat_r; assumption).
  assert (m2 : fro B * vnorm V <= 2 * vnorm V) by (apply Rmult_le_compat_r; lra).
  assert (m3 : ulp1 * (fro B * vnorm V) <= ulp1 * (2 * vnorm V)) by (apply Rmult_le_compat_l; [unfold ulp1; lra|exact m2]).
  assert (b21 : 8 * ulp1 = bpow radix2 (-21)) by (unfold ulp1; cbn; lra). rewrite <- b21.
  assert (b146 : bpow radix2 (-146) = 2 * bpow radix2 (-147)) by (change 2 with (bpow radix2 1); rewrite <- bpow_plus; reflexivity).
  rewrite b146. lra.
Qed.

Definition rows (h : Transform f32) : nat -> nat -> f32 := fun i j => match i, j with
  | 0, 0 => t_r1c1 h | 0, 1 => t_r1c2 h | 0, _ => t_r1c3 h | 1, 0 => t_r2c1 h | 1, 1 => t_r2c2 h | 1, _ => t_r2c3 h
  | _, 0 => t_r3c1 h | _, 1 => t_r3c2 h | _, _ => t_r3c3 h end%nat.
Definition cols (h : Transform f32) : nat -> nat -> f32 := fun i j => rows h j i.

Lemma rows_ok : forall d h r, close d h r -> d <= / 5 -> forall v, turned (d + bpow radix2 (-21)) (tmat r) v (fmul (rows h) v).
Proof.
  intros d h r [fh [rr [hd _]]] d5. apply fmul_turned; [|apply rr| |exact d5].
  - destruct h as [a11 a12 a13 a14 a21 a22 a23 a24 a31 a32 a33 a34]. unfold finite_t, coefs in fh. cbn [t_r1c1 t_r1c2 t_r1c3 t_r1c4 t_r2c1 t_r2c2 t_r2c3 t_r2c4 t_r3c1 t_r3c2 t_r3c3 t_r3c4] in fh. fl fh.
    intros i j hi hj. destruct i as [|[|[|i]]]; [| | |lia]; (destruct j as [|[|[|j]]]; [| | |lia]); assumption.
  - apply Rle_trans with (2 := hd). apply Req_le, fro_ext. intros i j hi hj. unfold mdiff. f_equal. destruct h.
    destruct i as [|[|[|i]]]; [| | |lia]; (destruct j as [|[|[|j]]]; [| | |lia]); reflexivity.
Qed.
Lemma cols_ok : forall d h r, close d h r -> d <= / 5 -> forall v, turned (d + bpow radix2 (-21)) (mtrans (tmat r)) v (fmul (cols h) v).
Proof.
  intros d h r [fh [rr [hd _]]] d5. apply fmul_turned; [| |  |exact d5].
  - destruct h as [a11 a12 a13 a14 a21 a22 a23 a24 a31 a32 a33 a34]. unfold finite_t, coefs in fh. cbn [t_r1c1 t_r1c2 t_r1c3 t_r1c4 t_r2c1 t_r2c2 t_r2c3 t_r2c4 t_r3c1 t_r3c2 t_r3c3 t_r3c4] in fh. fl fh.
    intros i j hi hj. destruct i as [|[|[|i]]]; [| | |lia]; (destruct j as [|[|[|j]]]; [| | |lia]); assumption.
  - now apply trans_orth.
  - apply Rle_trans with (2 := hd). rewrite <- (fro_trans (mdiff (tmat (tval h)) (tmat r))). apply Req_le, fro_ext. intros i j hi hj. unfold mdiff, mtrans. f_equal. destruct h.
    destruct i as [|[|[|i]]]; [| | |lia]; (destruct j as [|[|[|j]]]; [| | |lia]); reflexivity.
Qed.

Section Memory.
Variable L : libm32.
Let S := F32Scalar L.
Lemma fr_p3 : forall (h : Transform f32) (m : mem (Position3D f32)) i o, i <> o ->
  @changeReferencePosition3D f32 S h m i o o = @changeReferencePosition3DInPlace f32 S h (m i) /\ frame m o (@changeReferencePosition3D f32 S h m i o).
Proof. out_spec ltac:(fun _ => cbv delta [changeReferencePosition3D]). Qed.
Lemma frt_p3 : forall (h : Transform f32) (m : mem (Position3D f32)) i o, i <> o ->
  @changeReferenceTransposePosition3D f32 S h m i o o = @changeReferenceTransposePosition3DInPlace f32 S h (m i) /\ frame m o (@changeReferenceTransposePosition3D f32 S h m i o).
Proof. out_spec ltac:(fun _ => cbv delta [changeReferenceTransposePosition3D]). Qed.
Definition mkv (p q : triple) : Velocity6D f32 := let '(a, b, c) := p in let '(d, e, f) := q in mkVelocity6D a b c d e f.
Definition mkp (p q : triple) : Position6D f32 := let '(a, b, c) := p in let '(d, e, f) := q in mkPosition6D a b c d e f.
Lemma fr_v6 : forall (h : Transform f32) (m : mem (Velocity6D f32)) i o, i <> o ->
  @changeReferenceVelocity6D f32 S h m i o o = mkv (fmul (rows h) (triple_linear (m i))) (fmul (rows h) (triple_angular (m i))) /\ frame m o (@changeReferenceVelocity6D f32 S h m i o).
Proof. out_spec ltac:(fun _ => cbv delta [changeReferenceVelocity6D]). Qed.
Lemma frt_v6 : forall (h : Transform f32) (m : mem (Velocity6D f32)) i o, i <> o ->
  @changeReferenceTransposeVelocity6D f32 S h m i o o = mkv (fmul (cols h) (triple_linear (m i))) (fmul (cols h) (triple_angular (m i))) /\ frame m o (@changeReferenceTransposeVelocity6D f32 S h m i o).
Proof. out_spec ltac:(fun _ => cbv delta [changeReferenceTransposeVelocity6D]). Qed.
Lemma fr_p6 : forall (h : Transform f32) (m : mem (Position6D f32)) i o, i <> o ->
  @changeReferencePosition6D f32 S h m i o o = mkp (fmul (rows h) (triple_first (m i))) (fmul (rows h) (triple_last (m i))) /\ frame m o (@changeReferencePosition6D f32 S h m i o).
Proof. out_spec ltac:(fun _ => cbv delta [changeReferencePosition6D]). Qed.
Lemma frt_p6 : forall (h : Transform f32) (m : mem (Position6D f32)) i o, i <> o ->
  @changeReferenceTransposePosition6D f32 S h m i o o = mkp (fmul (cols h) (triple_first (m i))) (fmul (cols h) (triple_last (m i))) /\ frame m o (@changeReferenceTransposePosition6D f32 S h m i o).
Proof. out_spec ltac:(fun _ => cbv delta [changeReferenceTransposePosition6D]). Qed.
End Memory.

Lemma C84_vectors_proof : forall (L : libm32) (d : R) (h : Transform f32) (r : Transform R) (i o : nat), close d h r -> d <= / 5 -> i <> o ->
  let S := F32Scalar L in let e := d + bpow radix2 (-21) in let M := tmat r in let N := mtrans (tmat r) in
  (forall m : mem (Position3D f32),
     let a := changeReferencePosition3D h m i o in let b := changeReferenceTransposePosition3D h m i o in
     turned e M (triple_p3 (m i)) (triple_p3 (a o)) /\ turned e N (triple_p3 (m i)) (triple_p3 (b o)) /\
     (forall x, x <> o -> a x = m x /\ b x = m x)) /\
  (forall m : mem (Velocity6D f32),
     let a := changeReferenceVelocity6D h m i o in let b := changeReferenceTransposeVelocity6D h m i o in
     turned e M (triple_linear (m i)) (triple_linear (a o)) /\ turned e M (triple_angular (m i)) (triple_angular (a o)) /\
     turned e N (triple_linear (m i)) (triple_linear (b o)) /\ turned e N (triple_angular (m i)) (triple_angular (b o)) /\
     (forall x, x <> o -> a x = m x /\ b x = m x)) /\
  (forall m : mem (Position6D f32),
     let a := changeReferencePosition6D h m i o in let b := changeReferenceTransposePosition6D h m i o in
     turned e M (triple_first (m i)) (triple_first (a o)) /\ turned e M (triple_last (m i)) (triple_last (a o)) /\
     turned e N (triple_first (m i)) (triple_first (b o)) /\ turned e N (triple_last (m i)) (triple_last (b o)) /\
     (forall x, x <> o -> a x = m x /\ b x = m x)) /\
  (forall p : Position3D f32,
     turned e M (triple_p3 p) (triple_p3 (changeReferencePosition3DInPlace h p)) /\
     turned e N (triple_p3 p) (triple_p3 (changeReferenceTransposePosition3DInPlace h p))).
Proof.
  intros L d h r i o hc d5 io S e M N. pose proof (rows_ok d h r hc d5) as A. pose proof (cols_ok d h r hc d5) as B. fold e M in A. fold e N in B.
  assert (IP : forall p : Position3D f32, turned e M (triple_p3 p) (triple_p3 (changeReferencePosition3DInPlace h p)) /\
     turned e N (triple_p3 p) (triple_p3 (changeReferenceTransposePosition3DInPlace h p))) by (intro p; split; [exact (A (triple_p3 p))|exact (B (triple_p3 p))]).
  split; [|split; [|split]]; [| | |exact IP]; intros m a b.
  - destruct (fr_p3 L h m i o io) as [e1 f1]. destruct (frt_p3 L h m i o io) as [e2 f2]. unfold a, b, S. rewrite e1, e2.
    split; [apply IP|]. split; [apply IP|]. intros x hx. split; [apply f1|apply f2]; exact hx.
  - destruct (fr_v6 L h m i o io) as [e1 f1]. destruct (frt_v6 L h m i o io) as [e2 f2]. unfold a, b, S. rewrite e1, e2.
    pose proof (A (triple_linear (m i))) as A1. pose proof (A (triple_angular (m i))) as A2. pose proof (B (triple_linear (m i))) as B1. pose proof (B (triple_angular (m i))) as B2.
    destruct (m i). split; [exact A1|]. split; [exact A2|]. split; [exact B1|]. split; [exact B2|]. intros x hx. split; [apply f1|apply f2]; exact hx.
  - destruct (fr_p6 L h m i o io) as [e1 f1]. destruct (frt_p6 L h m i o io) as [e2 f2]. unfold a, b, S. rewrite e1, e2.
    pose proof (A (triple_first (m i))) as A1. pose proof (A (triple_last (m i))) as A2. pose proof (B (triple_first (m i))) as B1. pose proof (B (triple_last (m i))) as B2.
    destruct (m i). split; [exact A1|]. split; [exact A2|]. split; [exact B1|]. split; [exact B2|]. intros x hx. split; [apply f1|apply f2]; exact hx.
Qed.


Lemma C84_back_proof : forall (L : libm32) (d : R) (h : Transform f32) (r : Transform R) (p : Position3D f32), close d h r -> d <= / 5 ->
  finite_p p -> vnorm (pval p) <= bpow radix2 40 ->
  let S := F32Scalar L in
  let q := changeReferenceTransposePosition3DInPlace h (changeReferencePosition3DInPlace h p) in
  finite_p q /\ vnorm (vsub (pval q) (pval p)) <= (9 / 4 * d + bpow radix2 (-19)) * vnorm (pval p) + bpow radix2 (-144).
Proof.
  intros L d h r p hc d5 fp hp S q. set (w := changeReferencePosition3DInPlace h p) in *.
  pose proof (proj1 (proj2 hc)) as rr. assert (d0 : 0 <= d) by (apply Rle_trans with (2 := proj1 (proj2 (proj2 hc))); apply fro_pos).
  assert (b4 : 1 <= bpow radix2 40) by (change 1 with (bpow radix2 0); apply bpow_le; lia).
  assert (b5 : bpow radix2 50 = 1024 * bpow radix2 40) by (change 1024 with (bpow radix2 10); rewrite <- bpow_plus; reflexivity).
  destruct (rows_ok d h r hc d5 (triple_p3 p) fp ltac:(change (val3 (triple_p3 p)) with (pval p); lra)) as [f1 e1].
  change (fmul (rows h) (triple_p3 p)) with (triple_p3 w) in f1, e1. change (val3 (triple_p3 p)) with (pval p) in e1. change (val3 (triple_p3 w)) with (pval w) in e1.
  assert (b146 : 0 < bpow radix2 (-146) <= / 4) by (split; [apply bpow_gt_0|apply Rle_trans with (bpow radix2 (-2)); [apply bpow_le; lia|cbn; lra]]).
  assert (b21 : 0 < bpow radix2 (-21) <= / 1000000) by (cbn; lra).
  pose proof (vnorm_near (pval w) (mapply (tmat r) (pval p))) as n. rewrite (mapply_isom _ _ (proj1 rr)) in n. pose proof (vnorm_pos (pval p)) as v0.
  set (e := d + bpow radix2 (-21)) in *. set (V := vnorm (pval p)) in *.
  assert (eV : 0 <= e * V <= 21 / 100 * V) by (split; [apply Rmult_le_pos|apply Rmult_le_compat_r]; unfold e; lra).
  destruct (cols_ok d h r hc d5 (triple_p3 w) f1 ltac:(change (val3 (triple_p3 w)) with (pval w); lra)) as [f2 e2].
  change (fmul (cols h) (triple_p3 w)) with (triple_p3 q) in f2, e2. change (val3 (triple_p3 w)) with (pval w) in e2. change (val3 (triple_p3 q)) with (pval q) in e2. fold e in e2.
  split; [exact f2|].
  assert (back : mapply (mtrans (tmat r)) (mapply (tmat r) (pval p)) = pval p).
  { rewrite <- mapply_mul. apply mapply_one. exact (proj1 rr). }
  assert (E : vsub (pval q) (pval p) = vadd (vsub (pval q) (mapply (mtrans (tmat r)) (pval w))) (mapply (mtrans (tmat r)) (vsub (pval w) (mapply (tmat r) (pval p))))).
  { rewrite <- back at 1. generalize (mapply (tmat r) (pval p)) (pval q) (pval w). intros [[x1 x2] x3] [[y1 y2] y3] [[z1 z2] z3].
    unfold mapply, sum3, vsub, vadd, vx, vy, vz. cbn [fst snd]. apply f_equal2; [apply f_equal2|]; ring. }
  rewrite E. apply Rle_trans with (1 := vnorm_tri _ _). rewrite (mapply_isom _ _ (trans_orth r rr)).
  assert (e3 : e * vnorm (pval w) <= e * (V + e * V + bpow radix2 (-146))) by (apply Rmult_le_compat_l; unfold e in *; lra).
  assert (e4 : e * (e * V) <= 21 / 100 * (e * V)) by (apply Rmult_le_compat_r; unfold e in *; lra).
  assert (e5 : e * bpow radix2 (-146) <= 21 / 100 * bpow radix2 (-146)) by (apply Rmult_le_compat_r; unfold e in *; lra).
  assert (b19 : bpow radix2 (-19) = 4 * bpow radix2 (-21)) by (change 4 with (bpow radix2 2); rewrite <- bpow_plus; reflexivity).
  assert (b144 : bpow radix2 (-144) = 4 * bpow radix2 (-146)) by (change 4 with (bpow radix2 2); rewrite <- bpow_plus; reflexivity).
  rewrite b19, b144. assert (dV : 0 <= d * V) by (apply Rmult_le_pos; lra). assert (uV : 0 <= bpow radix2 (-21) * V) by (apply Rmult_le_pos; lra).
  unfold e in *. lra.
Qed.
