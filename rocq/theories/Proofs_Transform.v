(** * Lemmas for Props_Transform *)

From Coq Require Import Reals List Lra Lia Psatz Nsatz Bool Arith.
Import ListNotations.
From Verif Require Import Scalar RInst RLemmas Model_Base Model_Vec Model_Rigid Model_Almath
  Model_Helpers Spec_Geom Proofs_Geom MemTac F32.
Local Open Scope R_scope.


Lemma C01_transform_mul_assoc_proof : forall a b c : Transform R,
  t_mul (t_mul a b) c = t_mul a (t_mul b c).
Proof. ring_eq. Qed.


Lemma C01_transform_identity_proof : forall a : Transform R,
  t_mul t_id a = a /\ t_mul a t_id = a.
Proof. intros; split; ring_eq. Qed.


Lemma C01_transform_mul_is_composition_proof : forall (a b : Transform R) (v : vec3),
  motion (t_mul a b) v = motion a (motion b v) /\ motion t_id v = v.
Proof. intros a b [[x y] z]. drec. split; unr; pair_eq; ring. Qed.




Lemma t_mulIn_body_spec {T} {S : Scalar T} : forall (m : mem (Transform T)) o q, q <> o ->
  t_mulIn_body m o q o = t_mul (m o) (m q) /\ frame m o (t_mulIn_body m o q).
Proof.
  intros m o q hn.
  set (P := fun m' => m' o = t_mul (m o) (m q) /\ frame m o m').
  change (P (t_mulIn_body m o q)).
  assert (H : forall m1, m1 o = m o -> frame m o m1 -> P (t_mulIn_body m1 o q)).
  { destruct (m o) as [] eqn:Eo. destruct (m q) as [] eqn:Eq.
    intros m1 h F. cbv delta [t_mulIn_body]. mem_steps.
    subst P. split; assumption. }
  apply H; auto using frame_refl.
Qed.

Lemma m_mulIn_body_spec {T} {S : Scalar T} : forall (m : mem (Rotation T)) o q, q <> o ->
  m_mulIn_body m o q o = m_mul (m o) (m q) /\ frame m o (m_mulIn_body m o q).
Proof.
  intros m o q hn.
  set (P := fun m' => m' o = m_mul (m o) (m q) /\ frame m o m').
  change (P (m_mulIn_body m o q)).
  assert (H : forall m1, m1 o = m o -> frame m o m1 -> P (m_mulIn_body m1 o q)).
  { destruct (m o) as [] eqn:Eo. destruct (m q) as [] eqn:Eq.
    intros m1 h F. cbv delta [m_mulIn_body]. mem_steps.
    subst P. split; assumption. }
  apply H; auto using frame_refl.
Qed.

Lemma q_mulIn_body_spec {T} {S : Scalar T} : forall (m : mem (Quaternion T)) o q, q <> o ->
  q_mulIn_body m o q o = q_mul (m o) (m q) /\ frame m o (q_mulIn_body m o q).
Proof.
  intros m o q hn.
  set (P := fun m' => m' o = q_mul (m o) (m q) /\ frame m o m').
  change (P (q_mulIn_body m o q)).
  assert (H : forall m1, m1 o = m o -> frame m o m1 -> P (q_mulIn_body m1 o q)).
  { destruct (m o) as [] eqn:Eo. destruct (m q) as [] eqn:Eq.
    intros m1 h F. cbv delta [q_mulIn_body]. mem_steps.
    subst P. split; assumption. }
  apply H; auto using frame_refl.
Qed.

(** The self-multiplication path: a copy at a fresh address. *)
Lemma mulIn_self : forall {A} (body : mem A -> nat -> nat -> mem A) (mul : A -> A -> A),
  (forall m o q, q <> o -> body m o q o = mul (m o) (m q) /\ frame m o (body m o q)) ->
  forall m o q,
  let mulIn := if Nat.eqb o q then
    let fresh := Datatypes.S o in
    let saved := m fresh in
    mseq (mupd m fresh (m q)) (fun m => mseq (body m o fresh) (fun m => mupd m fresh saved))
    else body m o q in
  mulIn o = mul (m o) (m q) /\ frame m o mulIn.
Proof.
  intros A body mul H m o q. cbv zeta. unfold mseq.
  destruct (Nat.eqb_spec o q) as [e|n].
  - subst q. set (m1 := mupd m (S o) (m o)).
    destruct (H m1 o (S o)) as [h1 h2]; [lia|].
    assert (e1 : m1 o = m o) by (apply mupd_other; lia).
    assert (e2 : m1 (S o) = m o) by (apply mupd_same).
    split.
    + rewrite mupd_other by lia. rewrite h1, e1, e2. reflexivity.
    + intros x hx. destruct (Nat.eq_dec x (S o)) as [->|nx].
      * apply mupd_same.
      * rewrite mupd_other by auto. rewrite (h2 x hx). apply mupd_other; auto.
  - apply H. auto.
Qed.

Lemma C02_transform_mul_assign_proof : forall (T : Type) (S : Scalar T) (m : mem (Transform T)) (o q : nat),
  t_mulIn m o q o = t_mul (m o) (m q) /\ (forall x, x <> o -> t_mulIn m o q x = m x).
Proof. intros T S m o q. exact (mulIn_self t_mulIn_body t_mul t_mulIn_body_spec m o q). Qed.


Lemma C02_rotation_mul_assign_proof : forall (T : Type) (S : Scalar T) (m : mem (Rotation T)) (o q : nat),
  m_mulIn m o q o = m_mul (m o) (m q) /\ (forall x, x <> o -> m_mulIn m o q x = m x).
Proof. intros T S m o q. exact (mulIn_self m_mulIn_body m_mul m_mulIn_body_spec m o q). Qed.


Lemma C02_rotation_product_is_matrix_product_proof : forall a b : Rotation R,
  meq (rmat (m_mul a b)) (mmul (rmat a) (rmat b)).
Proof.
  intros a b i j hi hj. drec.
  destruct i as [|[|[|i]]]; try lia; destruct j as [|[|[|j]]]; try lia;
  unr; ring.
Qed.


Lemma C02_quaternion_mul_assign_proof : forall (T : Type) (S : Scalar T) (m : mem (Quaternion T)) (o q : nat),
  q_mulIn m o q o = q_mul (m o) (m q) /\ (forall x, x <> o -> q_mulIn m o q x = m x).
Proof. intros T S m o q. exact (mulIn_self q_mulIn_body q_mul q_mulIn_body_spec m o q). Qed.


Lemma C02_displacement_mul_assign_proof : forall (T : Type) (S : Scalar T) (m : mem (Displacement T)) (o q : nat),
  d_mulIn m o q o = d_mul (m o) (m q) /\ (forall x, x <> o -> d_mulIn m o q x = m x).
Proof.
  intros T S m o q. split.
  - unfold d_mulIn, mseq. rewrite !mupd_same. cbn [d_P d_Q].
    set (mm := fun x => d_Q (mupd m o _ x)).
    destruct (mulIn_self q_mulIn_body q_mul q_mulIn_body_spec mm o q) as [h _].
    change (q_mulIn mm o q o = q_mul (mm o) (mm q)) in h. rewrite h.
    assert (e1 : mm o = d_Q (m o)) by (unfold mm; rewrite mupd_same; reflexivity).
    assert (e2 : mm q = d_Q (m q)).
    { unfold mm. destruct (Nat.eq_dec q o) as [->|n]; [rewrite mupd_same|rewrite mupd_other by auto]; reflexivity. }
    rewrite e1, e2. destruct (m o) as [[] []], (m q) as [[] []]. reflexivity.
  - intros x hx. unfold d_mulIn, mseq. rewrite !mupd_other by auto. reflexivity.
Qed.


Lemma C02_pose2d_mul_assign_reals_proof : forall (m : mem (Pose2D R)) (o q : nat),
  pose_mulIn m o q o = pose_mul (m o) (m q) /\ (forall x, x <> o -> pose_mulIn m o q x = m x).
Proof.
  intros m o q. split.
  - unfold pose_mulIn, mseq. rewrite !mupd_same. cbn [pose_x pose_y pose_theta].
    destruct (Nat.eq_dec q o) as [->|n].
    + rewrite !mupd_same. cbn [pose_x pose_y pose_theta]. destruct (m o). unr; rec_eq; ring.
    + rewrite !mupd_other by auto. destruct (m o), (m q). unr; rec_eq; ring.
  - intros x hx. unfold pose_mulIn, mseq. rewrite !mupd_other by auto. reflexivity.
Qed.


Lemma C02_pose2d_mul_assign_binary32_refuted_proof : forall L : libm32,
  l_cos L (f32_frac 1 2) = f32_frac 230053 262144 ->
  l_sin L (f32_frac 1 2) = f32_frac 4021713 8388608 ->
  exists (m : mem (Pose2D f32)),
    pose_eqb (S := F32Scalar L) (pose_mulIn (S := F32Scalar L) m 0%nat 1%nat 0%nat)
             (pose_mul (S := F32Scalar L) (m 0%nat) (m 1%nat)) = false.
Proof.
  intros L hc hs.
  exists (fun o => match o with
     | O => mkPose2D (f32_ofZ 20) (f32_ofZ 0) (f32_frac 1 2)
     | _ => mkPose2D (f32_ofZ 2) (f32_frac 1 2) (f32_ofZ 0) end).
  cbn -[f32_ofZ f32_frac]. unfold pose_eqb, pose_mul. cbn -[f32_ofZ f32_frac].
  rewrite hc, hs. vm_compute. reflexivity.
Qed.





Lemma t_inverse_eq {T} {S : Scalar T} : forall a : Transform T, t_inverse a = t_invertInPlace a.
Proof. intros []; reflexivity. Qed.

Lemma t_diff_eq {T} {S : Scalar T} : forall a b : Transform T,
  t_diff a b = t_mul (t_inverse a) b.
Proof. intros [] []; reflexivity. Qed.

Lemma C03_transform_inverse_proof : forall t : Transform R, orthonormal (tmat t) ->
  t_mul t (t_inverse t) = t_id /\ t_mul (t_inverse t) t = t_id.
Proof.
  intros t h. drec. unfold tmat in h; cbn in h. apply orthonormal_of_rows in h.
  generalize (ortho_rows _ _ _ _ _ _ _ _ _ h). intros (k1&k2&k3&k4&k5&k6).
  destruct h as (h1&h2&h3&h4&h5&h6).
  split; unr; rec_eq; try lra; nsatz.
Qed.



Lemma C03_transform_inverse_converse_proof : forall t : Transform R,
  t_mul (t_inverse t) t = t_id -> orthonormal (tmat t).
Proof.
  intros t h. drec. unr in h. injection h; intros.
  apply orthonormal_of_rows; cbn. repeat split; lra.
Qed.


Lemma C03_inverse_variants_agree_proof : forall (T : Type) (S : Scalar T) (a : Transform T),
  t_invertInPlace a = t_inverse a /\ t_pinv a = t_inverse a.
Proof. intros T S []; split; reflexivity. Qed.


Lemma C03_transformInverse_out_proof : forall (T : Type) (S : Scalar T) (m : mem (Transform T)) (i o : nat),
  i <> o ->
  t_inverseOut m i o o = t_inverse (m i) /\ (forall x, x <> o -> t_inverseOut m i o x = m x).
Proof.
  intros T S m i o hn.
  set (P := fun m' : mem (Transform T) => m' o = t_inverse (m i) /\ frame m o m').
  change (P (t_inverseOut m i o)).
  assert (H : forall m1, m1 o = m o -> frame m o m1 -> P (t_inverseOut m1 i o)).
  { destruct (m o) as [] eqn:Eo. destruct (m i) as [] eqn:Eq.
    intros m1 h F. cbv delta [t_inverseOut]. mem_steps.
    subst P. split; assumption. }
  apply H; auto using frame_refl.
Qed.


Lemma C03_transformInverse_aliased_refuted_proof : exists m : mem (Transform R),
  rigid (m 0%nat) /\ t_mul (m 0%nat) (t_inverseOut m 0 0 0%nat) <> t_id.
Proof.
  exists (fun _ => mkTransform 0 (-1) 0 0 1 0 0 0 0 0 1 0). split.
  - apply proper_of_rows. unr. repeat split; ring.
  - intro h. unr in h. injection h; intros. lra.
Qed.


Lemma C03_transformDiff_proof : forall a b : Transform R, orthonormal (tmat a) ->
  t_mul a (t_diff a b) = b /\ (forall x, t_mul a x = b -> x = t_diff a b).
Proof.
  intros a b h. destruct (C03_transform_inverse_proof a h) as [h1 h2].
  rewrite t_diff_eq. split.
  - rewrite <- C01_transform_mul_assoc_proof, h1. apply C01_transform_identity_proof.
  - intros x e. rewrite <- e, <- C01_transform_mul_assoc_proof, h2.
    symmetry; apply C01_transform_identity_proof.
Qed.



Lemma C04_transform_action_proof : forall (a b : Transform R) (p : Position3D R),
  p3v (t_mul_p3 a p) = motion a (p3v p) /\
  t_mul_p3 (t_mul a b) p = t_mul_p3 a (t_mul_p3 b p) /\
  t_mul_p3 t_id p = p.
Proof.
  intros. drec. split; [|split].
  - unr. pair_eq; ring.
  - unr. rec_eq; ring.
  - unr. rec_eq; ring.
Qed.


Lemma C04_transform_position2d_proof : forall (a : Transform R) (p : Position2D R),
  t_mul_p2 a p = t_mul_p3 a (mkPosition3D (p2_x p) (p2_y p) 0).
Proof. ring_eq. Qed.


Lemma C04_transform_isometry_proof : forall (a : Transform R) (p q : Position3D R), orthonormal (tmat a) ->
  p3_distance (t_mul_p3 a p) (t_mul_p3 a q) = p3_distance p q.
Proof.
  intros a p q h. drec. unfold tmat in h; cbn in h. apply orthonormal_of_rows in h.
  destruct h as (h1&h2&h3&h4&h5&h6). unr. f_equal. nsatz.
Qed.


Lemma C04_rotation_action_proof : forall (a b : Rotation R) (p q : Position3D R),
  p3v (m_mul_p3 a p) = mapply (rmat a) (p3v p) /\
  m_mul_p3 (m_mul a b) p = m_mul_p3 a (m_mul_p3 b p) /\
  m_mul_p3 m_id p = p /\
  (orthonormal (rmat a) -> p3_distance (m_mul_p3 a p) (m_mul_p3 a q) = p3_distance p q).
Proof.
  intros. drec. split; [|split; [|split]].
  - unr. pair_eq; ring.
  - unr. rec_eq; ring.
  - unr. rec_eq; ring.
  - intro h. unfold rmat in h; cbn in h. apply orthonormal_of_rows in h.
    destruct h as (h1&h2&h3&h4&h5&h6). unr. f_equal. nsatz.
Qed.


Lemma C04_pose2d_action_proof : forall (a b : Pose2D R) (p q : Position2D R),
  pose_mul_p2 (pose_mul a b) p = pose_mul_p2 a (pose_mul_p2 b p) /\
  pose_mul_p2 pose_default p = p /\
  p2_distance (pose_mul_p2 a p) (pose_mul_p2 a q) = p2_distance p q.
Proof.
  intros. drec. split; [|split].
  - unr. rewrite cos_plus, sin_plus. rec_eq; ring.
  - unr. rewrite cos_0, sin_0. rec_eq; ring.
  - unr. f_equal. gen_cs. nsatz.
Qed.


Lemma C04_quaternion_action_proof : forall (a b : Quaternion R) (p q : Position3D R),
  q_apply (q_mul a b) p = q_apply a (q_apply b p) /\
  q_apply q_id p = p /\
  (unitq a -> p3_distance (q_apply a p) (q_apply a q) = p3_distance p q).
Proof.
  intros. drec. split; [|split].
  - unr. rec_eq; ring.
  - unr. rec_eq; ring.
  - intro h. unr in h. unr. f_equal. nsatz.
Qed.
