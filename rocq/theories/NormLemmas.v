(** * Euclidean and Frobenius norms *)

From Coq Require Import Reals Lra Lia Psatz List.
From Flocq Require Import Core.Core.
From Verif Require Import RLemmas Spec_Geom Spec_Round.
Local Open Scope R_scope.

Lemma vnorm_pos : forall v, 0 <= vnorm v.
Proof. intro v. apply sqrt_pos. Qed.
Lemma vdot_pos : forall v, 0 <= vdot v v.
Proof. intros [[a b] c]. unfold vdot, vx, vy, vz. cbn. nra. Qed.
Lemma vnorm_sq : forall v, vnorm v * vnorm v = vdot v v.
Proof. intro v. apply sqrt_sqrt, vdot_pos. Qed.
Lemma vnorm_le : forall v a, 0 <= a -> vdot v v <= a * a -> vnorm v <= a.
Proof.
  intros v a ha h. unfold vnorm. rewrite <- (sqrt_square a ha). now apply sqrt_le_1_alt.
Qed.
Lemma vdot_cs2 : forall u v, vdot u v * vdot u v <= vdot u u * vdot v v.
Proof.
  intros [[a b] c] [[d e] f]. unfold vdot, vx, vy, vz. cbn.
  assert (h1 := Rle_0_sqr (a*e-b*d)). assert (h2 := Rle_0_sqr (a*f-c*d)). assert (h3 := Rle_0_sqr (b*f-c*e)).
  unfold Rsqr in *. nra.
Qed.
Lemma vdot_cs : forall u v, Rabs (vdot u v) <= vnorm u * vnorm v.
Proof.
  intros u v. pose proof (vnorm_pos u). pose proof (vnorm_pos v).
  rewrite <- (Rabs_pos_eq (vnorm u * vnorm v)) by nra. apply Rsqr_le_abs_0. unfold Rsqr.
  replace (vnorm u * vnorm v * (vnorm u * vnorm v)) with ((vnorm u * vnorm u) * (vnorm v * vnorm v)) by ring.
  rewrite !vnorm_sq. apply vdot_cs2.
Qed.
Lemma vnorm_tri : forall u v, vnorm (vadd u v) <= vnorm u + vnorm v.
Proof.
  intros u v. pose proof (vnorm_pos u). pose proof (vnorm_pos v). apply vnorm_le; [lra|].
  replace (vdot (vadd u v) (vadd u v)) with (vdot u u + 2 * vdot u v + vdot v v)
    by (destruct u as [[? ?] ?], v as [[? ?] ?]; unfold vdot, vadd, vx, vy, vz; cbn; ring).
  rewrite <- (vnorm_sq u), <- (vnorm_sq v). pose proof (vdot_cs u v) as h. apply Rabs_le_inv in h. nra.
Qed.
Lemma vnorm_mono : forall u v, Rabs (vx u) <= vx v -> Rabs (vy u) <= vy v -> Rabs (vz u) <= vz v -> vnorm u <= vnorm v.
Proof.
  intros [[a b] c] [[d e] f]. unfold vx, vy, vz. cbn. intros h1 h2 h3. unfold vnorm. apply sqrt_le_1_alt.
  unfold vdot, vx, vy, vz. cbn.
  assert (S : forall x y, Rabs x <= y -> x * x <= y * y).
  { intros x y h. pose proof (Rabs_pos x). rewrite <- (Rabs_pos_eq (x*x)) by nra. rewrite Rabs_mult. nra. }
  pose proof (S _ _ h1). pose proof (S _ _ h2). pose proof (S _ _ h3). lra.
Qed.
Lemma vnorm_scale : forall k v, vnorm (vscale k v) = Rabs k * vnorm v.
Proof.
  intros k v. unfold vnorm. replace (vdot (vscale k v) (vscale k v)) with (Rsqr k * vdot v v)
    by (destruct v as [[? ?] ?]; unfold vdot, vscale, vx, vy, vz, Rsqr; cbn; ring).
  rewrite sqrt_mult; [|apply Rle_0_sqr|apply vdot_pos]. now rewrite sqrt_Rsqr_abs.
Qed.
Lemma vnorm_coord : forall v, Rabs (vx v) <= vnorm v /\ Rabs (vy v) <= vnorm v /\ Rabs (vz v) <= vnorm v.
Proof.
  intros v. pose proof (vnorm_pos v) as hp. pose proof (vnorm_sq v) as hs.
  assert (S : forall x, x * x <= vdot v v -> Rabs x <= vnorm v).
  { intros x h. rewrite <- (Rabs_pos_eq (vnorm v)) by assumption. apply Rsqr_le_abs_0. unfold Rsqr. lra. }
  unfold vdot in *. repeat split; apply S; nra.
Qed.
Lemma vnorm_abs : forall v, vnorm (Rabs (vx v), Rabs (vy v), Rabs (vz v)) = vnorm v.
Proof.
  intros v. unfold vnorm. f_equal. unfold vdot, vx, vy, vz. cbn [fst snd]. rewrite <- !Rabs_mult.
  assert (h : forall x, Rabs (x * x) = x * x) by (intro x; apply Rabs_pos_eq; nra). now rewrite !h.
Qed.
Lemma vnorm_vsub_sym : forall u v, vnorm (vsub u v) = vnorm (vsub v u).
Proof. intros. unfold vnorm. f_equal. unfold vdot, vsub, vx, vy, vz. cbn. ring. Qed.

(** Rows *)
Definition row (M : mat3) (i : nat) : vec3 := (M i 0%nat, M i 1%nat, M i 2%nat).
Lemma fro_rows : forall M, fro M = vnorm (vnorm (row M 0), vnorm (row M 1), vnorm (row M 2)).
Proof.
  intros M. unfold fro. unfold vnorm at 1. f_equal. unfold vdot at 1. unfold vx at 1 2, vy at 1 2, vz at 1 2. cbn [fst snd].
  rewrite !vnorm_sq. unfold sum3, vdot, row, vx, vy, vz. cbn [fst snd]. ring.
Qed.
Lemma fro_pos : forall M, 0 <= fro M.
Proof. intro M. apply sqrt_pos. Qed.
Lemma fro_sq : forall M, fro M * fro M = sum3 (fun i => sum3 (fun j => M i j * M i j)).
Proof. intro M. apply sqrt_sqrt. unfold sum3. nra. Qed.
Lemma fro_coef : forall M i j, (i < 3)%nat -> (j < 3)%nat -> Rabs (M i j) <= fro M.
Proof.
  intros M i j hi hj. pose proof (fro_pos M). rewrite <- (Rabs_pos_eq (fro M)) by assumption.
  apply Rsqr_le_abs_0. unfold Rsqr. rewrite fro_sq. unfold sum3.
  destruct i as [|[|[|i]]]; [| | |lia]; destruct j as [|[|[|j]]]; try lia; nra.
Qed.
Lemma fro_le : forall M a, 0 <= a -> sum3 (fun i => sum3 (fun j => M i j * M i j)) <= a * a -> fro M <= a.
Proof. intros M a ha h. unfold fro. rewrite <- (sqrt_square a ha). now apply sqrt_le_1_alt. Qed.
Definition madd (A B : mat3) : mat3 := fun i j => A i j + B i j.
Lemma fro_mono : forall A B : mat3, (forall i j, (i < 3)%nat -> (j < 3)%nat -> Rabs (A i j) <= B i j) -> fro A <= fro B.
Proof.
  intros A B h. rewrite !fro_rows.
  assert (r : forall i, (i < 3)%nat -> vnorm (row A i) <= vnorm (row B i)).
  { intros i hi. apply vnorm_mono; unfold row, vx, vy, vz; cbn [fst snd]; apply h; lia. }
  apply vnorm_mono; unfold vx, vy, vz; cbn [fst snd]; rewrite Rabs_pos_eq by apply vnorm_pos; apply r; lia.
Qed.
Lemma fro_ext : forall A B, meq A B -> fro A = fro B.
Proof.
  intros A B h. unfold fro. f_equal. unfold sum3. rewrite !h by lia. reflexivity.
Qed.
Lemma fro_tri : forall A B, fro (madd A B) <= fro A + fro B.
Proof.
  intros A B. rewrite !fro_rows.
  apply Rle_trans with (vnorm (vadd (vnorm (row A 0), vnorm (row A 1), vnorm (row A 2)) (vnorm (row B 0), vnorm (row B 1), vnorm (row B 2))));
    [|apply vnorm_tri].
  apply vnorm_mono; unfold vadd, vx, vy, vz; cbn [fst snd]; rewrite Rabs_pos_eq by apply vnorm_pos;
    (apply Rle_trans with (2 := vnorm_tri _ _); apply Req_le; reflexivity).
Qed.
Lemma fro_tri3 : forall A B C, fro (mdiff A C) <= fro (mdiff A B) + fro (mdiff B C).
Proof.
  intros A B C. apply Rle_trans with (2 := fro_tri _ _). apply Req_le, fro_ext. intros i j _ _. unfold mdiff, madd. ring.
Qed.
Lemma fro_near : forall A B, fro A <= fro B + fro (mdiff A B).
Proof.
  intros A B. apply Rle_trans with (2 := fro_tri _ _). apply Req_le, fro_ext. intros i j _ _. unfold mdiff, madd. ring.
Qed.
Lemma fro_trans : forall A, fro (mtrans A) = fro A.
Proof. intros A. unfold fro. f_equal. unfold sum3, mtrans. ring. Qed.

(** Products *)
Lemma row_mul : forall A B i, row (mmul A B) i = mapply (mtrans B) (row A i).
Proof.
  intros A B i. unfold row, mmul, mapply, mtrans, sum3, vx, vy, vz. cbn [fst snd].
  f_equal; [f_equal|]; ring.
Qed.
Lemma mapply_le : forall A v, vnorm (mapply A v) <= fro A * vnorm v.
Proof.
  intros A v. pose proof (fro_pos A). pose proof (vnorm_pos v). apply vnorm_le; [nra|].
  replace (fro A * vnorm v * (fro A * vnorm v)) with ((fro A * fro A) * (vnorm v * vnorm v)) by ring.
  rewrite fro_sq, vnorm_sq.
  pose proof (vdot_cs2 (row A 0) v) as h0. pose proof (vdot_cs2 (row A 1) v) as h1. pose proof (vdot_cs2 (row A 2) v) as h2.
  unfold mapply, row, vdot, sum3, vx, vy, vz in *. cbn [fst snd] in *. nra.
Qed.
Lemma fro_mul : forall A B, fro (mmul A B) <= fro A * fro B.
Proof.
  intros A B. pose proof (fro_pos B) as hB. rewrite (fro_rows (mmul A B)), (fro_rows A), !row_mul.
  rewrite Rmult_comm. rewrite <- (Rabs_pos_eq (fro B)) by assumption. rewrite <- vnorm_scale.
  apply vnorm_mono; unfold vscale, vx, vy, vz; cbn [fst snd]; rewrite Rabs_pos_eq by apply vnorm_pos;
    rewrite <- (fro_trans B); apply mapply_le.
Qed.
Lemma mapply_isom : forall A v, orthonormal A -> vnorm (mapply A v) = vnorm v.
Proof.
  intros A v h. unfold vnorm. f_equal. destruct v as [[a b] c].
  assert (e : forall i j, (i < 3)%nat -> (j < 3)%nat -> A 0%nat i * A 0%nat j + A 1%nat i * A 1%nat j + A 2%nat i * A 2%nat j = mident i j) by (intros i j hi hj; apply (h i j hi hj)).
  assert (e00 := e 0%nat 0%nat ltac:(lia) ltac:(lia)). assert (e01 := e 0%nat 1%nat ltac:(lia) ltac:(lia)). assert (e02 := e 0%nat 2%nat ltac:(lia) ltac:(lia)).
  assert (e11 := e 1%nat 1%nat ltac:(lia) ltac:(lia)). assert (e12 := e 1%nat 2%nat ltac:(lia) ltac:(lia)). assert (e22 := e 2%nat 2%nat ltac:(lia) ltac:(lia)).
  unfold mident in *. cbn in e00, e01, e02, e11, e12, e22. clear e h.
  unfold vdot, mapply, sum3, vx, vy, vz. cbn [fst snd].
  transitivity (a*a*(A 0%nat 0%nat * A 0%nat 0%nat + A 1%nat 0%nat * A 1%nat 0%nat + A 2%nat 0%nat * A 2%nat 0%nat)
    + b*b*(A 0%nat 1%nat * A 0%nat 1%nat + A 1%nat 1%nat * A 1%nat 1%nat + A 2%nat 1%nat * A 2%nat 1%nat)
    + c*c*(A 0%nat 2%nat * A 0%nat 2%nat + A 1%nat 2%nat * A 1%nat 2%nat + A 2%nat 2%nat * A 2%nat 2%nat)
    + 2*a*b*(A 0%nat 0%nat * A 0%nat 1%nat + A 1%nat 0%nat * A 1%nat 1%nat + A 2%nat 0%nat * A 2%nat 1%nat)
    + 2*a*c*(A 0%nat 0%nat * A 0%nat 2%nat + A 1%nat 0%nat * A 1%nat 2%nat + A 2%nat 0%nat * A 2%nat 2%nat)
    + 2*b*c*(A 0%nat 1%nat * A 0%nat 2%nat + A 1%nat 1%nat * A 1%nat 2%nat + A 2%nat 1%nat * A 2%nat 2%nat)); [ring|].
  rewrite e00, e01, e02, e11, e12, e22. ring.
Qed.
Lemma fro_isom : forall A B, orthonormal (mtrans B) -> fro (mmul A B) = fro A.
Proof.
  intros A B h. rewrite !fro_rows, !row_mul. rewrite !mapply_isom by assumption. reflexivity.
Qed.
Lemma fro_orth : forall A, orthonormal A -> fro A = sqrt 3.
Proof.
  intros A h. unfold fro. f_equal.
  assert (e0 := h 0%nat 0%nat ltac:(lia) ltac:(lia)). assert (e1 := h 1%nat 1%nat ltac:(lia) ltac:(lia)). assert (e2 := h 2%nat 2%nat ltac:(lia) ltac:(lia)).
  unfold mmul, mtrans, mident, sum3 in *. cbn in e0, e1, e2. lra.
Qed.
Lemma sqrt3_le : sqrt 3 <= 17321 / 10000.
Proof. rewrite <- (sqrt_square (17321/10000)) by lra. apply sqrt_le_1_alt. lra. Qed.
Lemma fro_abs : forall A, fro (fun i j => Rabs (A i j)) = fro A.
Proof.
  intros A. unfold fro. f_equal. unfold sum3. rewrite <- !Rabs_mult.
  assert (h : forall x, Rabs (x * x) = x * x) by (intro x; apply Rabs_pos_eq; nra). now rewrite !h.
Qed.
Lemma fro_scale : forall k A, 0 <= k -> fro (fun i j => k * A i j) = k * fro A.
Proof.
  intros k A hk. unfold fro. transitivity (sqrt (k * k) * sqrt (sum3 (fun i => sum3 (fun j => A i j * A i j)))); [|now rewrite sqrt_square].
  rewrite <- sqrt_mult; [|nra|unfold sum3; nra].
  f_equal. unfold sum3. ring.
Qed.
