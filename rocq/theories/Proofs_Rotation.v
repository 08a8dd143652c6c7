(** * Lemmas for Props_Rotation *)

From Coq Require Import Reals List Lra Lia Psatz Nsatz Bool Arith.
Import ListNotations.
From Verif Require Import Scalar RInst RLemmas Model_Base Model_Vec Model_Rigid Model_Almath
  Model_Helpers Spec_Geom Proofs_Geom MemTac F32 Proofs_Transform.
From Flocq Require Import IEEE754.BinarySingleNaN.
Local Open Scope R_scope.


Lemma C05_transform_closure_proof : forall a b : Transform R, rigid a -> rigid b ->
  rigid (t_mul a b) /\ rigid (t_inverse a) /\ rigid (@t_id R _).
Proof.
  intros a b ha hb. split; [|split].
  - apply rigid_mul; assumption.
  - apply rigid_inverse; assumption.
  - apply rigid_mk. exact so3_id.
Qed.



Lemma C05_rotation_closure_proof : forall a b : Rotation R, is_rot a -> is_rot b ->
  is_rot (m_mul a b) /\ is_rot (m_transpose a) /\ is_rot (@m_id R _).
Proof.
  intros a b ha hb. split; [|split].
  - apply is_rot_mul; assumption.
  - destruct a. apply is_rot_mk. apply is_rot_mk in ha. apply so3_trans; assumption.
  - apply is_rot_mk. exact so3_id.
Qed.


Lemma rigid_rotX : forall x, rigid (t_fromRotX x).
Proof. intro x. apply rigid_mk. exact (so3_RX x). Qed.
Lemma rigid_rotY : forall x, rigid (t_fromRotY x).
Proof. intro x. apply rigid_mk. exact (so3_RY x). Qed.
Lemma rigid_rotZ : forall x, rigid (t_fromRotZ x).
Proof. intro x. apply rigid_mk. exact (so3_RZ x). Qed.
Lemma rot_rotX : forall x, is_rot (m_fromRotX x).
Proof. intro x. apply is_rot_mk. exact (so3_RX x). Qed.
Lemma rot_rotY : forall x, is_rot (m_fromRotY x).
Proof. intro x. apply is_rot_mk. exact (so3_RY x). Qed.
Lemma rot_rotZ : forall x, is_rot (m_fromRotZ x).
Proof. intro x. apply is_rot_mk. exact (so3_RZ x). Qed.

Lemma rigid_3D : forall x y z, rigid (t_from3DRotation x y z).
Proof.
  intros. rewrite t_from3DRotation_eq.
  apply rigid_mul; [apply rigid_mul|]; auto using rigid_rotX, rigid_rotY, rigid_rotZ.
Qed.

(** The translation does not matter. *)
Lemma rigid_same_tmat : forall a b, tmat a = tmat b -> rigid a -> rigid b.
Proof. unfold rigid. intros a b e h. rewrite <- e. exact h. Qed.

Lemma C05_constructors_from_angles_proof : forall (x y z a b c : R),
  rigid (t_fromRotX a) /\ rigid (t_fromRotY a) /\ rigid (t_fromRotZ a) /\
  is_rot (m_fromRotX a) /\ is_rot (m_fromRotY a) /\ is_rot (m_fromRotZ a) /\
  rigid (t_from3DRotation a b c) /\ is_rot (m_from3DRotation a b c) /\
  rigid (t_fromPosition6 x y z a b c) /\ rigid (t_fromPosition x y z) /\
  rigid (transformFromPose2D (mkPose2D x y a)) /\
  (forall axis : Z, rigid (transformFromRotVec axis a (mkPosition3D x y z))).
Proof.
  intros. do 7 (apply conj; [auto using rigid_rotX, rigid_rotY, rigid_rotZ, rot_rotX, rot_rotY, rot_rotZ, rigid_3D|]).
  apply conj; [|apply conj; [|apply conj; [|apply conj]]].
  - rewrite m_from3DRotation_eq.
    apply is_rot_mul; [apply is_rot_mul|]; auto using rot_rotX, rot_rotY, rot_rotZ.
  - generalize (rigid_3D a b c). unfold t_fromPosition6. cbv zeta.
    generalize (t_from3DRotation a b c). intros [] h.
    apply rigid_mk in h. apply rigid_mk. exact h.
  - apply rigid_mk. exact so3_id.
  - unfold transformFromPose2D. rewrite t_mulAssign_eq. apply rigid_mul.
    + apply rigid_mk. exact so3_id.
    + apply rigid_rotZ.
  - intro axis. unfold transformFromRotVec. cbv zeta.
    destruct (Z.eqb axis 1); [|destruct (Z.eqb axis 2); [|destruct (Z.eqb axis 4)]];
      apply rigid_mk; [exact (so3_RX a)|exact (so3_RY a)|exact (so3_RZ a)|exact so3_id].
Qed.


Lemma so3_quat : forall w x y z : R, w*w+x*x+y*y+z*z = 1 ->
  so3 (1 - 2*(y*y+z*z)) (2*(x*y-z*w)) (2*(x*z+y*w))
      (2*(x*y+z*w)) (1-2*(x*x+z*z)) (2*(y*z-x*w))
      (2*(x*z-y*w)) (2*(y*z+x*w)) (1-2*(x*x+y*y)).
Proof. intros w x y z h. repeat split; nsatz. Qed.

Lemma C05_constructors_from_quaternion_proof : forall q : Quaternion R, unitq q ->
  is_rot (rotationFromQuaternion q) /\
  is_rot (m_fromQuaternion4 (q_w q) (q_x q) (q_y q) (q_z q)) /\
  rigid (transformFromQuaternion q) /\
  (forall p, rigid (transformFromDisplacement (mkDisplacement p q))).
Proof.
  intros [w x y z] h. unr in h.
  apply conj; [|apply conj; [|apply conj]].
  - apply is_rot_mk. apply so3_quat. exact h.
  - apply is_rot_mk. cbn.
    destruct (so3_quat w x y z h) as [(h1&h2&h3&h4&h5&h6) h7].
    repeat split; (match goal with H : ?L = ?R |- ?L' = ?R => replace L' with L by ring; exact H end).
  - apply rigid_mk. apply so3_quat. exact h.
  - intros []. apply rigid_mk. apply so3_quat. exact h.
Qed.


Lemma C05_constructor_from_angle_direction_proof : forall angle x y z : R, x*x+y*y+z*z = 1 ->
  exists r, m_fromAngleDirection angle x y z = Ok r /\ is_rot r.
Proof.
  intros angle x y z h. unfold m_fromAngleDirection.
  cbn [s_add s_mul s_ltb s_frac RScalar]. rewrite h.
  rewrite !Rltb_false by lra. cbn.
  eexists; split; [reflexivity|]. apply is_rot_mk. gen_cs. repeat split; nsatz.
Qed.




Lemma C06_determinant_proof : forall a b : Transform R,
  t_determinant a = mdet (tmat a) /\
  t_determinant (t_mul a b) = t_determinant a * t_determinant b /\
  t_determinant (@t_id R _) = 1.
Proof. intros. drec. unr. repeat split; ring. Qed.


Lemma C06_rotation_determinant_proof : forall a b : Rotation R,
  m_determinant a = mdet (rmat a) /\
  m_determinant (m_mul a b) = m_determinant a * m_determinant b /\
  m_determinant (m_transpose a) = m_determinant a /\
  m_determinant (@m_id R _) = 1.
Proof. intros. drec. unr. repeat split; ring. Qed.


Lemma C06_determinant_rigid_proof : forall t : Transform R,
  (rigid t -> t_determinant t = 1) /\
  (orthonormal (tmat t) -> t_determinant t * t_determinant t = 1).
Proof.
  intros t. split; intro h; drec.
  - apply rigid_mk in h. destruct h as [_ h]. unr. lra.
  - rewrite tmat_mk in h. apply orthonormal_of_rows in h.
    destruct h as (h1&h2&h3&h4&h5&h6). unr.
    match goal with |- ?D * ?D = 1 => assert (e : D * D =
      (t_r1c1*t_r1c1+t_r2c1*t_r2c1+t_r3c1*t_r3c1)*((t_r1c2*t_r1c2+t_r2c2*t_r2c2+t_r3c2*t_r3c2)*(t_r1c3*t_r1c3+t_r2c3*t_r2c3+t_r3c3*t_r3c3)-(t_r1c2*t_r1c3+t_r2c2*t_r2c3+t_r3c2*t_r3c3)*(t_r1c2*t_r1c3+t_r2c2*t_r2c3+t_r3c2*t_r3c3))
      - (t_r1c1*t_r1c2+t_r2c1*t_r2c2+t_r3c1*t_r3c2)*((t_r1c1*t_r1c2+t_r2c1*t_r2c2+t_r3c1*t_r3c2)*(t_r1c3*t_r1c3+t_r2c3*t_r2c3+t_r3c3*t_r3c3)-(t_r1c2*t_r1c3+t_r2c2*t_r2c3+t_r3c2*t_r3c3)*(t_r1c1*t_r1c3+t_r2c1*t_r2c3+t_r3c1*t_r3c3))
      + (t_r1c1*t_r1c3+t_r2c1*t_r2c3+t_r3c1*t_r3c3)*((t_r1c1*t_r1c2+t_r2c1*t_r2c2+t_r3c1*t_r3c2)*(t_r1c2*t_r1c3+t_r2c2*t_r2c3+t_r3c2*t_r3c3)-(t_r1c2*t_r1c2+t_r2c2*t_r2c2+t_r3c2*t_r3c2)*(t_r1c1*t_r1c3+t_r2c1*t_r2c3+t_r3c1*t_r3c3))) by ring end.
    rewrite e, h1, h2, h3, h4, h5, h6. ring.
Qed.


Lemma C06_vector_determinant_proof : forall (T : Type) (S : Scalar T),
  (forall t : Transform T, vec_determinant (t_list t) = t_determinant t) /\
  (forall t : Transform T, vec_determinant (firstn 12 (t_list t)) = t_determinant t) /\
  (forall v : list T, length v <> 12%nat -> length v <> 16%nat -> vec_determinant v = s_ofZ 0).
Proof.
  intros T S. split; [|split].
  - intros []. reflexivity.
  - intros []. reflexivity.
  - intros v h1 h2. unfold vec_determinant.
    apply Nat.eqb_neq in h1. apply Nat.eqb_neq in h2. rewrite h1, h2. reflexivity.
Qed.



Lemma near_rotation_of_rows : forall a b c d e f g h i eps,
  near_rotation (of_rows a b c d e f g h i) eps <->
  (Rabs (b*a+e*d+h*g) <= eps /\ Rabs (c*a+f*d+i*g) <= eps /\ Rabs (c*b+f*e+i*h) <= eps) /\
  (Rabs (a*a+b*b+c*c-1) <= eps /\ Rabs (d*d+e*e+f*f-1) <= eps /\ Rabs (g*g+h*h+i*i-1) <= eps) /\
  Rabs (a*e*i+b*f*g+c*d*h-a*f*h-b*d*i-c*e*g-1) <= eps.
Proof.
  intros. unfold near_rotation, cdot, rnorm2, sum3. split.
  - intros (h1&h2&h3).
    generalize (h1 0 1)%nat (h1 0 2)%nat (h1 1 2)%nat (h2 0%nat) (h2 1%nat) (h2 2%nat).
    revert h3. cbv [mdet of_rows]. intros.
    repeat match goal with h : (_ /\ _) -> _ |- _ => specialize (h ltac:(lia)) end.
    repeat match goal with h : (_ < _)%nat -> _ |- _ => specialize (h ltac:(lia)) end.
    repeat split; match goal with
      | h : Rabs ?x <= ?e |- Rabs ?y <= ?e => replace y with x by ring; exact h end.
  - intros ((h1&h2&h3)&(h4&h5&h6)&h7). split; [|split].
    + intros x y hxy. assert (E : ((x = 0 /\ y = 1) \/ (x = 0 /\ y = 2) \/ (x = 1 /\ y = 2))%nat) by lia.
      destruct E as [[-> ->]|[[-> ->]|[-> ->]]]; cbv [mdet of_rows];
      match goal with
      | h : Rabs ?x <= ?e |- Rabs ?y <= ?e => replace y with x by ring; exact h end.
    + intros x hx. destruct x as [|[|[|x]]]; try lia; cbv [mdet of_rows]; assumption.
    + cbv [mdet of_rows]. match goal with
      | h : Rabs ?x <= ?e |- Rabs ?y <= ?e => replace y with x by ring; exact h end.
Qed.

Ltac if_gt :=
  match goal with
  | |- context [Rltb ?a ?b] => destruct (Rltb_spec a b)
  end.

Lemma C07_isTransform_iff_proof : forall (t : Transform R) (eps : R),
  t_isTransform t eps = true <-> near_rotation (tmat t) eps.
Proof.
  intros t eps. drec. rewrite tmat_mk, near_rotation_of_rows.
  unfold t_isTransform, t_determinant. cbn.
  repeat (if_gt; [split; [discriminate|intros; lra]|]).
  split; intros; [|reflexivity]. repeat split; lra.
Qed.


Lemma C07_isRotation_iff_proof : forall (t : Rotation R) (eps : R),
  m_isRotation t eps = true <-> near_rotation (rmat t) eps.
Proof.
  intros t eps. drec. rewrite rmat_mk, near_rotation_of_rows.
  unfold m_isRotation, m_determinant. cbn.
  repeat (if_gt; [split; [discriminate|intros; lra]|]).
  split; intros; [|reflexivity]. repeat split; lra.
Qed.


Lemma amgm3 : forall p q r, 0 <= p -> 0 <= q -> 0 <= r -> p + q + r = 3 -> p*q*r = 1 ->
  p = 1 /\ q = 1 /\ r = 1.
Proof.
  intros p q r hp hq hr hs hm.
  assert (E : (p+q+r)/2*((p-q)*(p-q)+(p-r)*(p-r)+(q-r)*(q-r))
              + 3*(p*((q-r)*(q-r))+q*((p-r)*(p-r))+r*((p-q)*(p-q))) = 0).
  { transitivity ((p+q+r)*(p+q+r)*(p+q+r) - 27*(p*q*r)); [field|]. rewrite hs, hm. ring. }
  rewrite hs in E.
  assert (p = q /\ p = r) as [<- <-].
  { assert (0 <= p*((q-r)*(q-r))) by (apply Rmult_le_pos; [assumption|apply Rle_0_sqr]).
    assert (0 <= q*((p-r)*(p-r))) by (apply Rmult_le_pos; [assumption|apply Rle_0_sqr]).
    assert (0 <= r*((p-q)*(p-q))) by (apply Rmult_le_pos; [assumption|apply Rle_0_sqr]).
    assert (0 <= (p-q)*(p-q)) by apply Rle_0_sqr.
    assert (0 <= (p-r)*(p-r)) by apply Rle_0_sqr.
    assert (0 <= (q-r)*(q-r)) by apply Rle_0_sqr.
    assert (A : (p-q)*(p-q) = 0) by lra. assert (B : (p-r)*(p-r) = 0) by lra.
    apply Rsqr_0_uniq in A. apply Rsqr_0_uniq in B. split; lra. }
  lra.
Qed.

Lemma near_0_proper : forall a b c d e f g h i,
  near_rotation (of_rows a b c d e f g h i) 0 <-> so3 a b c d e f g h i.
Proof.
  assert (Z : forall x, Rabs x <= 0 <-> x = 0).
  { intro x. split; intro h.
    - destruct (Req_dec x 0) as [|n]; auto. apply Rabs_pos_lt in n. lra.
    - subst. rewrite Rabs_R0. lra. }
  intros. rewrite near_rotation_of_rows, !Z. split.
  - intros ((h1&h2&h3)&(h4&h5&h6)&h7).
    set (p := a*a+d*d+g*g) in *. set (q := b*b+e*e+h*h) in *. set (r := c*c+f*f+i*i) in *.
    assert (D : a*e*i+b*f*g+c*d*h-a*f*h-b*d*i-c*e*g = 1) by lra.
    assert (M : p*q*r = 1).
    { transitivity ((a*e*i+b*f*g+c*d*h-a*f*h-b*d*i-c*e*g)*(a*e*i+b*f*g+c*d*h-a*f*h-b*d*i-c*e*g)
        + p*((c*b+f*e+i*h)*(c*b+f*e+i*h)) + (b*a+e*d+h*g)*((b*a+e*d+h*g)*r-(c*b+f*e+i*h)*(c*a+f*d+i*g))
        - (c*a+f*d+i*g)*((b*a+e*d+h*g)*(c*b+f*e+i*h)-q*(c*a+f*d+i*g))).
      - subst p q r. ring.
      - rewrite D, h1, h2, h3. ring. }
    destruct (amgm3 p q r) as (e1&e2&e3); try assumption.
    1-3: subst p q r; nra.
    { subst p q r. lra. }
    subst p q r. repeat split; lra.
  - intro H. destruct (so3_full _ _ _ _ _ _ _ _ _ H) as [(r1&r2&r3&r4&r5&r6) _].
    destruct H as [(h1&h2&h3&h4&h5&h6) h7]. repeat split; lra.
Qed.

Lemma C07_exact_proof : forall (t : Transform R) (r : Rotation R),
  (t_isTransform t 0 = true <-> rigid t) /\ (m_isRotation r 0 = true <-> is_rot r).
Proof.
  intros t r. rewrite C07_isTransform_iff_proof, C07_isRotation_iff_proof. destruct t, r.
  rewrite rigid_mk, is_rot_mk, tmat_mk, rmat_mk, !near_0_proper. tauto.
Qed.


Lemma near_rotation_mono : forall M e1 e2, e1 <= e2 -> near_rotation M e1 -> near_rotation M e2.
Proof.
  intros M e1 e2 h (h1&h2&h3). split; [|split].
  - intros. eapply Rle_trans; eauto.
  - intros. eapply Rle_trans; eauto.
  - lra.
Qed.

Lemma C07_monotone_proof : forall (t : Transform R) (r : Rotation R) (e1 e2 : R), e1 <= e2 ->
  (t_isTransform t e1 = true -> t_isTransform t e2 = true) /\
  (m_isRotation r e1 = true -> m_isRotation r e2 = true).
Proof.
  intros t r e1 e2 h.
  rewrite !C07_isTransform_iff_proof, !C07_isRotation_iff_proof.
  split; apply near_rotation_mono; assumption.
Qed.



Lemma C07_nan_accepted_refuted_proof : forall (L : libm32) (eps : f32),
  let nan := B754_nan : f32 in
  t_isTransform (S := F32Scalar L)
    (mkTransform nan nan nan nan nan nan nan nan nan nan nan nan) eps = true /\
  m_isRotation (S := F32Scalar L)
    (mkRotation nan nan nan nan nan nan nan nan nan) eps = true.
Proof. intros L eps nan. destruct eps; split; reflexivity. Qed.



Lemma so3_frame : forall u v w x y z,
  u*u+v*v+w*w = 1 -> x*x+y*y+z*z = 1 -> x*u+y*v+z*w = 0 ->
  so3 x (v*z-w*y) u y (w*x-u*z) v z (u*y-v*x) w.
Proof. intros u v w x y z h1 h2 h3. repeat split; nsatz. Qed.

Lemma unit_quot : forall x y z n, n <> 0 -> n*n = x*x+y*y+z*z ->
  x/n*(x/n)+y/n*(y/n)+z/n*(z/n) = 1.
Proof.
  intros x y z n h e. transitivity ((x*x+y*y+z*z)/(n*n)); [field; auto|].
  rewrite <- e. field. auto.
Qed.

(** The rotation part computed by both normalisations, on the nine coefficients. *)
Definition norm9 (a b c d e f g h i : R) (k : R -> R -> R -> R -> R -> R -> R -> R -> R -> Prop) : Prop :=
  let n := sqrt (c*c+f*f+i*i) in
  if Rltb n (1/10000) then k 1 0 0 0 1 0 0 0 1
  else
    let c := c/n in let f := f/n in let i := i/n in
    let x1 := e*i-h*f in let x2 := h*c-b*i in let x3 := b*f-e*c in
    let N := sqrt (x1*x1+x2*x2+x3*x3) in
    if Rltb N (1/10000) then k 1 0 0 0 1 0 0 0 1
    else
      let x := x1/N in let y := x2/N in let z := x3/N in
      k x (f*z-i*y) c y (i*x-c*z) f z (c*y-f*x) i.

Lemma norm9_so3 : forall a b c d e f g h i k,
  (forall a b c d e f g h i, so3 a b c d e f g h i -> k a b c d e f g h i : Prop) ->
  norm9 a b c d e f g h i k.
Proof.
  intros * H. unfold norm9. cbv zeta.
  destruct (sqrt_ex (c*c+f*f+i*i)) as (n&en&hn&nn); [apply sum3sq_pos|]. rewrite en.
  destruct (Rltb_spec n (1/10000)) as [l|l]; [apply H; exact so3_id|].
  assert (U := unit_quot c f i n ltac:(lra) nn).
  set (u := c/n) in *. set (v := f/n) in *. set (w := i/n) in *.
  match goal with |- context [sqrt ?e] => destruct (sqrt_ex e) as (N&eN&hN&NN); [apply sum3sq_pos|] end.
  rewrite eN. destruct (Rltb_spec N (1/10000)) as [l'|l']; [apply H; exact so3_id|].
  assert (V := unit_quot _ _ _ N ltac:(lra) NN).
  apply H. apply so3_frame; try assumption.
  field. lra.
Qed.

Lemma norm9_fix : forall a b c d e f g h i k,
  so3 a b c d e f g h i -> (k a b c d e f g h i : Prop) -> norm9 a b c d e f g h i k.
Proof.
  intros * S H. unfold norm9. cbv zeta.
  destruct (so3_full _ _ _ _ _ _ _ _ _ S) as [_ (k1&k2&k3&k4&k5&k6&k7&k8&k9)].
  destruct S as [(h1&h2&h3&h4&h5&h6) h7].
  rewrite h3, sqrt_1. rewrite Rltb_false by lra.
  replace (c/1) with c by field. replace (f/1) with f by field. replace (i/1) with i by field.
  replace (e*i-h*f) with a by lra. replace (h*c-b*i) with d by lra. replace (b*f-e*c) with g by lra.
  rewrite h1, sqrt_1. rewrite Rltb_false by lra.
  replace (a/1) with a by field. replace (d/1) with d by field. replace (g/1) with g by field.
  replace (f*g-i*d) with b by lra. replace (i*a-c*g) with e by lra. replace (c*d-f*a) with h by lra.
  exact H.
Qed.

Lemma t_normalize_norm9 : forall a b c x d e f y g h i z (P : Transform R -> Prop),
  norm9 a b c d e f g h i (fun a b c d e f g h i => P (mkTransform a b c x d e f y g h i z)) ->
  P (t_normalize (mkTransform a b c x d e f y g h i z)).
Proof.
  intros * H. unfold norm9 in H. cbv zeta in H. unfold t_normalize, t_setRotationIdentity. cbn.
  unfold s_pow2; cbn.
  destruct (Rltb _ _); [exact H|]. destruct (Rltb _ _); exact H.
Qed.

Lemma m_normalize_norm9 : forall a b c d e f g h i (P : Rotation R -> Prop),
  norm9 a b c d e f g h i (fun a b c d e f g h i => P (mkRotation a b c d e f g h i)) ->
  P (m_normalize (mkRotation a b c d e f g h i)).
Proof.
  intros * H. unfold norm9 in H. cbv zeta in H. unfold m_normalize, m_id. cbn.
  unfold s_pow2; cbn.
  destruct (Rltb _ _); [exact H|]. destruct (Rltb _ _); exact H.
Qed.

Lemma C08_normalizeTransform_proof : forall t : Transform R,
  rigid (t_normalize t) /\ tpos (t_normalize t) = tpos t /\
  (rigid t -> t_normalize t = t) /\ t_normalize (t_normalize t) = t_normalize t.
Proof.
  assert (A : forall t, rigid (t_normalize t) /\ tpos (t_normalize t) = tpos t).
  { intros []. apply (t_normalize_norm9 _ _ _ _ _ _ _ _ _ _ _ _ (fun t => rigid t /\ tpos t = _)).
    apply norm9_so3. intros. split; [apply rigid_mk; assumption|reflexivity]. }
  assert (B : forall t, rigid t -> t_normalize t = t).
  { intros [] h. apply rigid_mk in h.
    apply (t_normalize_norm9 _ _ _ _ _ _ _ _ _ _ _ _ (fun t => t = _)).
    apply norm9_fix; [exact h|reflexivity]. }
  intro t. destruct (A t) as [a1 a2]. split; [exact a1|]. split; [exact a2|]. split; [apply B|].
  apply B, a1.
Qed.


Lemma C08_normalizeRotation_proof : forall r : Rotation R,
  is_rot (m_normalize r) /\ (is_rot r -> m_normalize r = r) /\
  m_normalize (m_normalize r) = m_normalize r.
Proof.
  assert (A : forall t, is_rot (m_normalize t)).
  { intros []. apply (m_normalize_norm9 _ _ _ _ _ _ _ _ _ (fun t => is_rot t)).
    apply norm9_so3. intros. apply is_rot_mk; assumption. }
  assert (B : forall t, is_rot t -> m_normalize t = t).
  { intros [] h. apply is_rot_mk in h.
    apply (m_normalize_norm9 _ _ _ _ _ _ _ _ _ (fun t => t = _)).
    apply norm9_fix; [exact h|reflexivity]. }
  intro t. split; [apply A|]. split; [apply B|]. apply B, A.
Qed.


Lemma C08_normalize_direction_proof : forall t : Transform R,
  let n := sqrt (t_r1c3 t * t_r1c3 t + t_r2c3 t * t_r2c3 t + t_r3c3 t * t_r3c3 t) in
  let '(x, y, z) := vcross (t_r1c2 t, t_r2c2 t, t_r3c2 t) (t_r1c3 t, t_r2c3 t, t_r3c3 t) in
  1/10000 <= n -> 1/10000 * n <= sqrt (x*x+y*y+z*z) ->
  let u := t_normalize t in
  (t_r1c3 u, t_r2c3 u, t_r3c3 u) = vscale (/ n) (t_r1c3 t, t_r2c3 t, t_r3c3 t) /\
  vdot (x, y, z) (t_r1c2 u, t_r2c2 u, t_r3c2 u) = 0 /\
  0 < vdot (t_r1c2 u, t_r2c2 u, t_r3c2 u) (t_r1c2 t, t_r2c2 t, t_r3c2 t).
Proof.
  intros [a b c px d e f py g h i pz]. cbv [vcross vx vy vz fst snd]. cbn [t_r1c3 t_r2c3 t_r3c3 t_r1c2 t_r2c2 t_r3c2].
  cbv zeta. intros hn hN.
  refine (t_normalize_norm9 _ _ _ _ _ _ _ _ _ _ _ _ (fun u => (t_r1c3 u, t_r2c3 u, t_r3c3 u) = _ /\
    vdot _ (t_r1c2 u, t_r2c2 u, t_r3c2 u) = 0 /\ 0 < vdot (t_r1c2 u, t_r2c2 u, t_r3c2 u) _) _).
  unfold norm9. cbv zeta.
  destruct (sqrt_ex (c*c+f*f+i*i)) as (n&en&hn0&nn); [apply sum3sq_pos|]. rewrite en in *.
  rewrite Rltb_false by lra.
  set (X := e*i-h*f) in *. set (Y := h*c-b*i) in *. set (Z := b*f-e*c) in *.
  assert (EX : e*(i/n)-h*(f/n) = X/n) by (subst X; field; lra).
  assert (EY : h*(c/n)-b*(i/n) = Y/n) by (subst Y; field; lra).
  assert (EZ : b*(f/n)-e*(c/n) = Z/n) by (subst Z; field; lra).
  rewrite EX, EY, EZ.
  destruct (sqrt_ex (X*X+Y*Y+Z*Z)) as (N&eN&hN0&NN); [apply sum3sq_pos|]. rewrite eN in *.
  assert (hNpos : 0 < N) by nra.
  assert (eq : sqrt (X/n*(X/n)+Y/n*(Y/n)+Z/n*(Z/n)) = N/n).
  { apply sqrt_unique'.
    - apply Rmult_le_pos; [lra|]. left. apply Rinv_0_lt_compat. lra.
    - transitivity ((N*N)/(n*n)); [field; lra|]. rewrite NN. field. lra. }
  rewrite eq.
  assert (N/n >= 1/10000).
  { apply Rle_ge. apply Rmult_le_reg_r with n; [lra|].
    replace (N/n*n) with N by (field; lra). lra. }
  rewrite Rltb_false by lra.
  cbv [vscale vdot vx vy vz fst snd]. cbn [t_r1c3 t_r2c3 t_r3c3 t_r1c2 t_r2c2 t_r3c2].
  split; [|split].
  - unfold Rdiv. pair_eq; ring.
  - subst X Y Z. field. lra.
  - match goal with |- 0 < ?E => replace E with (N*N/(n*N)) end.
    + replace (N*N/(n*N)) with (N/n) by (field; lra). lra.
    + rewrite NN. subst X Y Z. field. lra.
Qed.




Lemma C09_toVector_proof : forall (T : Type) (S : Scalar T) (t : Transform T) (out : list T),
  t_toVector t = Ok [t_r1c1 t; t_r1c2 t; t_r1c3 t; t_r1c4 t;
                     t_r2c1 t; t_r2c2 t; t_r2c3 t; t_r2c4 t;
                     t_r3c1 t; t_r3c2 t; t_r3c3 t; t_r3c4 t;
                     s_ofZ 0; s_ofZ 0; s_ofZ 0; s_ofZ 1] /\
  t_toVectorInto t out = t_toVector t.
Proof.
  intros T S t out. split; [reflexivity|].
  do 16 (destruct out as [|? out]; [reflexivity|]). reflexivity.
Qed.


Lemma vset_app : forall {A} (l : list A) x r y, vset (l ++ x :: r) (length l) y = Ok (l ++ y :: r).
Proof. induction l; intros; cbn; [reflexivity|]. now rewrite IHl. Qed.

Lemma vwrite_app : forall {A} (xs l ys r : list A), length xs = length ys ->
  vwrite (l ++ ys ++ r) (length l) xs = Ok (l ++ xs ++ r, (length l + length xs)%nat).
Proof.
  induction xs; intros l ys r h.
  - destruct ys; [|discriminate]. cbn. now rewrite Nat.add_0_r.
  - destruct ys as [|y ys]; [discriminate|]. cbn. rewrite vset_app. cbn.
    specialize (IHxs (l ++ [a]) ys r). rewrite <- !app_assoc in IHxs. cbn in IHxs.
    rewrite app_length in IHxs. cbn in IHxs. rewrite Nat.add_1_r in IHxs.
    rewrite IHxs by (cbn in h; lia). f_equal. f_equal. lia.
Qed.

Lemma vset_out : forall {A} (l : list A) i x, (length l <= i)%nat -> vset l i x = UB.
Proof. induction l; intros [|i] x h; cbn in *; try reflexivity; try lia. rewrite IHl by lia. reflexivity. Qed.

Lemma vset_length : forall {A} (l : list A) i x l', vset l i x = Ok l' -> length l' = length l.
Proof.
  induction l; intros [|i] x l' h; cbn in *; try discriminate.
  - inversion h. reflexivity.
  - destruct (vset l i x) eqn:E; cbn in h; try discriminate. inversion h. cbn. f_equal. eauto.
Qed.

Lemma vwrite_out : forall {A} (xs v : list A) i, (0 < length xs)%nat -> (length v < i + length xs)%nat ->
  vwrite v i xs = UB.
Proof.
  induction xs; intros v i h0 h; cbn in *; [lia|].
  destruct (vset v i a) eqn:E; cbn; try reflexivity.
  - pose proof (vset_length _ _ _ _ E). destruct xs as [|b xs]; cbn in *.
    + rewrite vset_out in E by lia. discriminate.
    + apply IHxs; cbn; lia.
  - revert i E h. clear. induction v; intros [|i] E; cbn in E; try discriminate.
    destruct (vset v i a) eqn:F; try discriminate. intros. cbn in h. exfalso.
    clear - F. revert i F. induction v; intros [|i] F; cbn in F; try discriminate.
    destruct (vset v i a) eqn:G; try discriminate. eauto.
  - revert i E h. clear. induction v; intros [|i] E; cbn in E; try discriminate.
    destruct (vset v i a) eqn:F; try discriminate. intros. exfalso.
    clear - F. revert i F. induction v; intros [|i] F; cbn in F; try discriminate.
    destruct (vset v i a) eqn:G; try discriminate. eauto.
Qed.

Lemma C09_writeToVector_proof : forall (T : Type) (S : Scalar T) (t : Transform T),
  (forall before old after : list T, length old = 16%nat ->
    exists l, t_toVector t = Ok l /\
    t_writeToVector t (before ++ old ++ after) (length before)
    = Ok (before ++ l ++ after, (length before + 16)%nat)) /\
  (forall (v : list T) (i : nat), (length v < i + 16)%nat -> t_writeToVector t v i = UB).
Proof.
  intros T S t. split.
  - intros before old after h. eexists; split; [apply (C09_toVector_proof T S t [])|].
    unfold t_writeToVector. exact (vwrite_app (t_list t) before old after (eq_sym h)).
  - intros v i h. apply vwrite_out; cbn; lia.
Qed.


Lemma C09_round_trip_proof : forall (T : Type) (S : Scalar T) (t : Transform T) (l : list T),
  t_isTransform t (s_frac 1 10000) = true -> t_toVector t = Ok l ->
  t_ofVector l = t /\ t_ofVector (firstn 12 l) = t.
Proof.
  intros T S t l h e. rewrite (proj1 (C09_toVector_proof T S t [])) in e. injection e; intros <-.
  unfold t_ofVector. cbn -[t_isTransform]. destruct t. cbn -[t_isTransform] in *. unfold t_isTransform_default_eps. rewrite h.
  split; reflexivity.
Qed.


Lemma C09_round_trip_rigid_proof : forall (t : Transform R) (l : list R), rigid t -> t_toVector t = Ok l ->
  t_ofVector l = t /\ t_ofVector (firstn 12 l) = t.
Proof.
  intros t l h e. apply (C09_round_trip_proof R _ t l); [|exact e].
  apply (C07_monotone_proof t m_id 0 (s_frac 1 10000)); [cbn; lra|].
  apply C07_exact_proof; [exact m_id|exact h].
Qed.


Lemma C09_ofVector_always_valid_proof : forall v : list R,
  t_isTransform (t_ofVector v) (1/10000) = true /\
  (length v <> 12%nat -> length v <> 16%nat -> t_ofVector v = t_id).
Proof.
  assert (R0 : forall t, rigid t -> t_isTransform t (1/10000) = true).
  { intros t h. apply (C07_monotone_proof t m_id 0); [lra|].
    apply C07_exact_proof; [exact m_id|exact h]. }
  intro v. split.
  - unfold t_ofVector. destruct (_ || _).
    + cbv zeta. destruct (t_isTransform _ t_isTransform_default_eps) eqn:E; cbn [negb].
      * exact E.
      * apply R0, C08_normalizeTransform_proof.
    + apply R0, rigid_mk, so3_id.
  - intros h1 h2. unfold t_ofVector. apply Nat.eqb_neq in h1. apply Nat.eqb_neq in h2.
    rewrite h1, h2. reflexivity.
Qed.


Lemma C09_rotation_vector_proof : forall (T : Type) (S : Scalar T) (r : Rotation T) (t : Transform T) (out v : list T),
  m_toVectorInto r out = Ok [m_r1c1 r; m_r1c2 r; m_r1c3 r; m_r2c1 r; m_r2c2 r; m_r2c3 r;
                             m_r3c1 r; m_r3c2 r; m_r3c3 r] /\
  (forall l, m_toVector r = Ok l -> m_ofVector l = r) /\
  (forall l, t_toVector t = Ok l -> m_ofVector l = rotationFromTransform t /\
                                    m_ofVector (firstn 12 l) = rotationFromTransform t) /\
  (length v <> 9%nat -> length v <> 12%nat -> length v <> 16%nat -> m_ofVector v = m_id).
Proof.
  intros T S r t out v. split; [|split; [|split]].
  - do 9 (destruct out as [|? out]; [reflexivity|]). reflexivity.
  - intros l e. injection e; intros <-. destruct r; reflexivity.
  - intros l e. injection e; intros <-. destruct t; split; reflexivity.
  - intros h1 h2 h3. unfold m_ofVector. apply Nat.eqb_neq in h1, h2, h3. rewrite h1, h2, h3. reflexivity.
Qed.




Lemma C10_elementary_matrices_proof : forall a : R,
  tmat (t_fromRotX a) = RX a /\ tmat (t_fromRotY a) = RY a /\ tmat (t_fromRotZ a) = RZ a /\
  rmat (m_fromRotX a) = RX a /\ rmat (m_fromRotY a) = RY a /\ rmat (m_fromRotZ a) = RZ a /\
  tpos (t_fromRotX a) = (0,0,0) /\ tpos (t_fromRotY a) = (0,0,0) /\ tpos (t_fromRotZ a) = (0,0,0).
Proof. intro a. repeat split. Qed.


Lemma C10_from3DRotation_proof : forall x y z : R,
  meq (tmat (t_from3DRotation x y z)) (mmul (mmul (RZ z) (RY y)) (RX x)) /\
  tpos (t_from3DRotation x y z) = (0,0,0) /\
  meq (rmat (m_from3DRotation x y z)) (mmul (mmul (RZ z) (RY y)) (RX x)).
Proof.
  intros. split; [|split].
  - rewrite t_from3DRotation_eq. unfold t_fromRotX, t_fromRotY, t_fromRotZ.
    cbv zeta. rewrite !t_mul_mk, tmat_mk. apply meq_of_rows; unr; ring.
  - rewrite t_from3DRotation_eq. unfold t_fromRotX, t_fromRotY, t_fromRotZ.
    cbv zeta. rewrite !t_mul_mk. unr. pair_eq; ring.
  - rewrite m_from3DRotation_eq.
    unfold m_fromRotX, m_fromRotY, m_fromRotZ.
    cbv zeta. rewrite !m_mul_mk, rmat_mk. apply meq_of_rows; unr; ring.
Qed.


Lemma C10_transform_one_parameter_proof : forall a b k : R,
  t_mul (t_fromRotX a) (t_fromRotX b) = t_fromRotX (a+b) /\
  t_mul (t_fromRotY a) (t_fromRotY b) = t_fromRotY (a+b) /\
  t_mul (t_fromRotZ a) (t_fromRotZ b) = t_fromRotZ (a+b) /\
  t_fromRotX 0 = t_id /\ t_fromRotY 0 = t_id /\ t_fromRotZ 0 = t_id /\
  t_inverse (t_fromRotX a) = t_fromRotX (-a) /\
  t_inverse (t_fromRotY a) = t_fromRotY (-a) /\
  t_inverse (t_fromRotZ a) = t_fromRotZ (-a) /\
  t_mul_p3 (t_fromRotX a) (mkPosition3D k 0 0) = mkPosition3D k 0 0 /\
  t_mul_p3 (t_fromRotY a) (mkPosition3D 0 k 0) = mkPosition3D 0 k 0 /\
  t_mul_p3 (t_fromRotZ a) (mkPosition3D 0 0 k) = mkPosition3D 0 0 k /\
  t_fromRotX (a + 2*PI) = t_fromRotX a /\ t_fromRotY (a + 2*PI) = t_fromRotY a /\
  t_fromRotZ (a + 2*PI) = t_fromRotZ a.
Proof.
  intros. repeat apply conj; unr;
    rewrite ?cos_plus, ?sin_plus, ?cos_neg, ?sin_neg, ?cos_0, ?sin_0, ?cos_2PI, ?sin_2PI; rec_eq; ring.
Qed.


Lemma C10_rotation_one_parameter_proof : forall a b : R,
  m_mul (m_fromRotX a) (m_fromRotX b) = m_fromRotX (a+b) /\
  m_mul (m_fromRotY a) (m_fromRotY b) = m_fromRotY (a+b) /\
  m_mul (m_fromRotZ a) (m_fromRotZ b) = m_fromRotZ (a+b) /\
  m_fromRotX 0 = m_id /\ m_fromRotY 0 = m_id /\ m_fromRotZ 0 = m_id /\
  m_transpose (m_fromRotX a) = m_fromRotX (-a) /\
  m_transpose (m_fromRotY a) = m_fromRotY (-a) /\
  m_transpose (m_fromRotZ a) = m_fromRotZ (-a).
Proof.
  intros. repeat apply conj; unr;
    rewrite ?cos_plus, ?sin_plus, ?cos_neg, ?sin_neg, ?cos_0, ?sin_0; rec_eq; ring.
Qed.


Lemma C10_rotation_constants_proof :
  m_fromRotXPi = m_fromRotX PI /\ m_fromRotYPi = m_fromRotY PI /\ m_fromRotZPi = m_fromRotZ PI /\
  m_fromRotZHalfPi = m_fromRotZ (PI/2).
Proof.
  repeat apply conj; unr; rewrite ?cos_PI, ?sin_PI, ?cos_PI2, ?sin_PI2; rec_eq; ring.
Qed.


Lemma C10_pose2d_heading_proof : forall a b : R,
  pose_mul (mkPose2D 0 0 a) (mkPose2D 0 0 b) = mkPose2D 0 0 (a+b) /\
  transformFromPose2D (mkPose2D 0 0 a) = t_fromRotZ a.
Proof.
  intros. split; unr; rec_eq; ring.
Qed.
