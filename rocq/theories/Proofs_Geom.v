(** * Algebra of rotations, transforms and quaternions over R *)

From Coq Require Import Reals List Lra Lia Psatz Nsatz Bool.
Import ListNotations.
From Verif Require Import Scalar RInst RLemmas Model_Base Model_Vec Model_Rigid Model_Almath
  Model_Helpers Spec_Geom.
From Verif Require Export SO3.
Local Open Scope R_scope.

(** ** Tactics *)

(** Open every record in sight. *)
Ltac drec :=
  repeat match goal with
  | t : Transform _ |- _ => destruct t
  | t : Rotation _ |- _ => destruct t
  | t : Quaternion _ |- _ => destruct t
  | t : Displacement _ |- _ => destruct t
  | t : Position2D _ |- _ => destruct t
  | t : Position3D _ |- _ => destruct t
  | t : Position6D _ |- _ => destruct t
  | t : Velocity3D _ |- _ => destruct t
  | t : Velocity6D _ |- _ => destruct t
  | t : Rotation3D _ |- _ => destruct t
  | t : Pose2D _ |- _ => destruct t
  end.

(** Compute everything but the operations of R. *)
Ltac unr := cbv -[Rplus Rminus Rmult Rdiv Ropp Rinv Rabs sqrt cos sin acos Ratan2 Rfmod
                  Rltb Rleb Reqb IZR PI Rlt Rle Rgt Rge not iff].
Tactic Notation "unr" "in" hyp(h) :=
  cbv -[Rplus Rminus Rmult Rdiv Ropp Rinv Rabs sqrt cos sin acos Ratan2 Rfmod
        Rltb Rleb Reqb IZR PI Rlt Rle Rgt Rge not iff] in h.

Ltac pair_eq := repeat match goal with |- pair _ _ = pair _ _ => apply f_equal2 end.

Lemma mkTransform_eq : forall x0 x1 x2 x3 x4 x5 x6 x7 x8 x9 x10 x11 y0 y1 y2 y3 y4 y5 y6 y7 y8 y9 y10 y11 : R, x0 = y0 -> x1 = y1 -> x2 = y2 -> x3 = y3 -> x4 = y4 -> x5 = y5 -> x6 = y6 -> x7 = y7 -> x8 = y8 -> x9 = y9 -> x10 = y10 -> x11 = y11 -> mkTransform x0 x1 x2 x3 x4 x5 x6 x7 x8 x9 x10 x11 = mkTransform y0 y1 y2 y3 y4 y5 y6 y7 y8 y9 y10 y11.
Proof. intros; subst; reflexivity. Qed.
Lemma mkRotation_eq : forall x0 x1 x2 x3 x4 x5 x6 x7 x8 y0 y1 y2 y3 y4 y5 y6 y7 y8 : R, x0 = y0 -> x1 = y1 -> x2 = y2 -> x3 = y3 -> x4 = y4 -> x5 = y5 -> x6 = y6 -> x7 = y7 -> x8 = y8 -> mkRotation x0 x1 x2 x3 x4 x5 x6 x7 x8 = mkRotation y0 y1 y2 y3 y4 y5 y6 y7 y8.
Proof. intros; subst; reflexivity. Qed.
Lemma mkQuaternion_eq : forall x0 x1 x2 x3 y0 y1 y2 y3 : R, x0 = y0 -> x1 = y1 -> x2 = y2 -> x3 = y3 -> mkQuaternion x0 x1 x2 x3 = mkQuaternion y0 y1 y2 y3.
Proof. intros; subst; reflexivity. Qed.
Lemma mkDisplacement_eq : forall (p p' : Position3D R) (q q' : Quaternion R),
  p = p' -> q = q' -> mkDisplacement p q = mkDisplacement p' q'.
Proof. intros; subst; reflexivity. Qed.
Lemma mkPosition2D_eq : forall x0 x1 y0 y1 : R, x0 = y0 -> x1 = y1 -> mkPosition2D x0 x1 = mkPosition2D y0 y1.
Proof. intros; subst; reflexivity. Qed.
Lemma mkPosition3D_eq : forall x0 x1 x2 y0 y1 y2 : R, x0 = y0 -> x1 = y1 -> x2 = y2 -> mkPosition3D x0 x1 x2 = mkPosition3D y0 y1 y2.
Proof. intros; subst; reflexivity. Qed.
Lemma mkPosition6D_eq : forall x0 x1 x2 x3 x4 x5 y0 y1 y2 y3 y4 y5 : R, x0 = y0 -> x1 = y1 -> x2 = y2 -> x3 = y3 -> x4 = y4 -> x5 = y5 -> mkPosition6D x0 x1 x2 x3 x4 x5 = mkPosition6D y0 y1 y2 y3 y4 y5.
Proof. intros; subst; reflexivity. Qed.
Lemma mkVelocity3D_eq : forall x0 x1 x2 y0 y1 y2 : R, x0 = y0 -> x1 = y1 -> x2 = y2 -> mkVelocity3D x0 x1 x2 = mkVelocity3D y0 y1 y2.
Proof. intros; subst; reflexivity. Qed.
Lemma mkVelocity6D_eq : forall x0 x1 x2 x3 x4 x5 y0 y1 y2 y3 y4 y5 : R, x0 = y0 -> x1 = y1 -> x2 = y2 -> x3 = y3 -> x4 = y4 -> x5 = y5 -> mkVelocity6D x0 x1 x2 x3 x4 x5 = mkVelocity6D y0 y1 y2 y3 y4 y5.
Proof. intros; subst; reflexivity. Qed.
Lemma mkRotation3D_eq : forall x0 x1 x2 y0 y1 y2 : R, x0 = y0 -> x1 = y1 -> x2 = y2 -> mkRotation3D x0 x1 x2 = mkRotation3D y0 y1 y2.
Proof. intros; subst; reflexivity. Qed.
Lemma mkPose2D_eq : forall x0 x1 x2 y0 y1 y2 : R, x0 = y0 -> x1 = y1 -> x2 = y2 -> mkPose2D x0 x1 x2 = mkPose2D y0 y1 y2.
Proof. intros; subst; reflexivity. Qed.
Ltac rec_eq := first [apply mkTransform_eq | apply mkRotation_eq | apply mkQuaternion_eq | apply mkDisplacement_eq | apply mkPosition2D_eq | apply mkPosition3D_eq | apply mkPosition6D_eq | apply mkVelocity3D_eq | apply mkVelocity6D_eq | apply mkRotation3D_eq | apply mkPose2D_eq ].

Ltac ring_eq := intros; drec; unr; rec_eq; ring.


(** Replace the cosines and sines of the goal by variables on the circle. *)
Ltac gen_cs :=
  repeat match goal with
  | |- context [cos ?a] =>
      let h := fresh "hcs" in let c := fresh "cc" in let s := fresh "ss" in
      generalize (cs2 a); generalize (cos a) as c; generalize (sin a) as s; intros s c h
  | |- context [sin ?a] =>
      let h := fresh "hcs" in let c := fresh "cc" in let s := fresh "ss" in
      generalize (cs2 a); generalize (cos a) as c; generalize (sin a) as s; intros s c h
  end.

Lemma rigid_mk : forall a b c x d e f y g h i z,
  rigid (mkTransform a b c x d e f y g h i z) <-> so3 a b c d e f g h i.
Proof. intros. unfold rigid, tmat. cbn. apply proper_of_rows. Qed.

Lemma is_rot_mk : forall a b c d e f g h i,
  is_rot (mkRotation a b c d e f g h i) <-> so3 a b c d e f g h i.
Proof. intros. unfold is_rot, rmat. cbn. apply proper_of_rows. Qed.

Lemma tmat_mk : forall a b c x d e f y g h i z,
  tmat (mkTransform a b c x d e f y g h i z) = of_rows a b c d e f g h i.
Proof. reflexivity. Qed.

Lemma rmat_mk : forall a b c d e f g h i,
  rmat (mkRotation a b c d e f g h i) = of_rows a b c d e f g h i.
Proof. reflexivity. Qed.

Lemma meq_of_rows : forall a b c d e f g h i (M : mat3),
  M 0%nat 0%nat = a -> M 0%nat 1%nat = b -> M 0%nat 2%nat = c ->
  M 1%nat 0%nat = d -> M 1%nat 1%nat = e -> M 1%nat 2%nat = f ->
  M 2%nat 0%nat = g -> M 2%nat 1%nat = h -> M 2%nat 2%nat = i ->
  meq (of_rows a b c d e f g h i) M.
Proof.
  intros. intros x y hx hy.
  destruct x as [|[|[|x]]]; try lia; destruct y as [|[|[|y]]]; try lia; cbn; congruence.
Qed.

Lemma so3_mul : forall a b c d e f g h i a' b' c' d' e' f' g' h' i',
  so3 a b c d e f g h i -> so3 a' b' c' d' e' f' g' h' i' ->
  so3 (a*a'+b*d'+c*g') (a*b'+b*e'+c*h') (a*c'+b*f'+c*i')
      (d*a'+e*d'+f*g') (d*b'+e*e'+f*h') (d*c'+e*f'+f*i')
      (g*a'+h*d'+i*g') (g*b'+h*e'+i*h') (g*c'+h*f'+i*i').
Proof.
  intros * ((h1&h2&h3&h4&h5&h6)&h7) ((k1&k2&k3&k4&k5&k6)&k7).
  assert (S : forall p q r p' q' r',
    (a*p+b*q+c*r)*(a*p'+b*q'+c*r') + (d*p+e*q+f*r)*(d*p'+e*q'+f*r')
    + (g*p+h*q+i*r)*(g*p'+h*q'+i*r') = p*p'+q*q'+r*r').
  { intros. replace (p*p'+q*q'+r*r') with
      ((a*a+d*d+g*g)*(p*p') + (b*b+e*e+h*h)*(q*q') + (c*c+f*f+i*i)*(r*r')
       + (a*b+d*e+g*h)*(p*q'+q*p') + (a*c+d*f+g*i)*(p*r'+r*p') + (b*c+e*f+h*i)*(q*r'+r*q')).
    - ring.
    - rewrite h1, h2, h3, h4, h5, h6. ring. }
  split.
  - rewrite !S. repeat split; assumption.
  - transitivity ((a*(e*i-f*h) - b*(d*i-f*g) + c*(d*h-e*g))
                  * (a'*(e'*i'-f'*h') - b'*(d'*i'-f'*g') + c'*(d'*h'-e'*g'))).
    + ring.
    + rewrite h7, k7. ring.
Qed.

Lemma so3_trans : forall a b c d e f g h i,
  so3 a b c d e f g h i -> so3 a d g b e h c f i.
Proof.
  intros * H. destruct (so3_full _ _ _ _ _ _ _ _ _ H) as [(r1&r2&r3&r4&r5&r6) _].
  destruct H as (_ & h7). split.
  - repeat split; assumption.
  - lra.
Qed.

Lemma so3_id : so3 1 0 0 0 1 0 0 0 1.
Proof. repeat split; ring. Qed.

Ltac so3_ring := repeat split; try ring.

Lemma so3_RX : forall x, so3 1 0 0 0 (cos x) (- sin x) 0 (sin x) (cos x).
Proof. intro x. gen_cs. repeat split; nsatz. Qed.
Lemma so3_RY : forall x, so3 (cos x) 0 (sin x) 0 1 0 (- sin x) 0 (cos x).
Proof. intro x. gen_cs. repeat split; nsatz. Qed.
Lemma so3_RZ : forall x, so3 (cos x) (- sin x) 0 (sin x) (cos x) 0 0 0 1.
Proof. intro x. gen_cs. repeat split; nsatz. Qed.

(** The model's product on open records. *)
Lemma t_mul_mk : forall a b c x d e f y g h i z a' b' c' x' d' e' f' y' g' h' i' z' : R,
  t_mul (mkTransform a b c x d e f y g h i z) (mkTransform a' b' c' x' d' e' f' y' g' h' i' z')
  = mkTransform (a*a'+b*d'+c*g') (a*b'+b*e'+c*h') (a*c'+b*f'+c*i') (a*x'+b*y'+c*z'+x)
      (d*a'+e*d'+f*g') (d*b'+e*e'+f*h') (d*c'+e*f'+f*i') (d*x'+e*y'+f*z'+y)
      (g*a'+h*d'+i*g') (g*b'+h*e'+i*h') (g*c'+h*f'+i*i') (g*x'+h*y'+i*z'+z).
Proof. reflexivity. Qed.

Lemma m_mul_mk : forall a b c d e f g h i a' b' c' d' e' f' g' h' i' : R,
  m_mul (mkRotation a b c d e f g h i) (mkRotation a' b' c' d' e' f' g' h' i')
  = mkRotation (a*a'+b*d'+c*g') (a*b'+b*e'+c*h') (a*c'+b*f'+c*i')
      (d*a'+e*d'+f*g') (d*b'+e*e'+f*h') (d*c'+e*f'+f*i')
      (g*a'+h*d'+i*g') (g*b'+h*e'+i*h') (g*c'+h*f'+i*i').
Proof. reflexivity. Qed.

Lemma t_mulAssign_eq : forall a b : Transform R, t_mulAssign a b = t_mul a b.
Proof. intros [] []. reflexivity. Qed.

Lemma t_inverse_mk : forall a b c x d e f y g h i z : R,
  t_inverse (mkTransform a b c x d e f y g h i z)
  = mkTransform a d g (-(a*x+d*y+g*z)) b e h (-(b*x+e*y+h*z)) c f i (-(c*x+f*y+i*z)).
Proof. reflexivity. Qed.

Lemma rigid_mul : forall a b, rigid a -> rigid b -> rigid (t_mul a b).
Proof.
  intros [] []. rewrite t_mul_mk, !rigid_mk. apply so3_mul.
Qed.

Lemma rigid_inverse : forall a, rigid a -> rigid (t_inverse a).
Proof. intros []. rewrite t_inverse_mk, !rigid_mk. apply so3_trans. Qed.

Lemma is_rot_mul : forall a b, is_rot a -> is_rot b -> is_rot (m_mul a b).
Proof. intros [] []. rewrite m_mul_mk, !is_rot_mk. apply so3_mul. Qed.

Lemma rigid_orthonormal : forall t, rigid t -> orthonormal (tmat t).
Proof. intros t h. apply h. Qed.

Lemma m_mulAssign_eq : forall a b : Rotation R, m_mulAssign a b = m_mul a b.
Proof. intros. unfold m_mul. reflexivity. Qed.

Lemma m_from3DRotation_eq : forall x y z : R,
  m_from3DRotation x y z = m_mul (m_mul (m_fromRotZ z) (m_fromRotY y)) (m_fromRotX x).
Proof. intros. unfold m_from3DRotation. cbv zeta. rewrite !m_mulAssign_eq. reflexivity. Qed.

Lemma t_from3DRotation_eq : forall x y z : R,
  t_from3DRotation x y z = t_mul (t_mul (t_fromRotZ z) (t_fromRotY y)) (t_fromRotX x).
Proof. intros. unfold t_from3DRotation. cbv zeta. rewrite !t_mulAssign_eq. reflexivity. Qed.

Lemma sum3sq_pos : forall x y z, 0 <= x*x+y*y+z*z.
Proof. intros x y z. generalize (Rle_0_sqr x) (Rle_0_sqr y) (Rle_0_sqr z). unfold Rsqr. lra. Qed.
Lemma sum2sq_pos : forall x y, 0 <= x*x+y*y.
Proof. intros x y. generalize (Rle_0_sqr x) (Rle_0_sqr y). unfold Rsqr. lra. Qed.
Lemma sum4sq_pos : forall w x y z, 0 <= w*w+x*x+y*y+z*z.
Proof. intros w x y z. generalize (Rle_0_sqr w) (Rle_0_sqr x) (Rle_0_sqr y) (Rle_0_sqr z). unfold Rsqr. lra. Qed.
