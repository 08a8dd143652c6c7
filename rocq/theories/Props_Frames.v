(** * Properties C21 - C23: changes of reference, frames and projections on an axis *)
From Coq Require Import Reals List Lra Lia Psatz Nsatz Bool Arith.
Import ListNotations.
From Flocq Require Import IEEE754.BinarySingleNaN.
From Verif Require Import Scalar RInst F32 RLemmas Model_Base Model_Vec Model_Rigid Model_Almath
  Model_Helpers Spec_Geom Proofs_Geom MemTac Proofs_Transform Proofs_Rotation Proofs_Quat Proofs_ExpLog.
Local Open Scope R_scope.
From Verif Require Proofs_Frames.

(** ** C21 *)

(** C21: with an output distinct from the input, each variant writes the input with every
    3-vector multiplied by the rotation matrix (by its transpose, for the transposed
    variants), and changes nothing else. *)
Theorem C21_change_reference_distinct : forall (h : Transform R) (i o : nat), i <> o ->
  (forall m : mem (Position3D R),
     let r := changeReferencePosition3D h m i o in
     let s := changeReferenceTransposePosition3D h m i o in
     p3v (r o) = mapply (tmat h) (p3v (m i)) /\ p3v (s o) = mapply (mtrans (tmat h)) (p3v (m i)) /\
     (forall x, x <> o -> r x = m x /\ s x = m x)) /\
  (forall m : mem (Velocity6D R),
     let r := changeReferenceVelocity6D h m i o in
     let s := changeReferenceTransposeVelocity6D h m i o in
     vlin (r o) = mapply (tmat h) (vlin (m i)) /\ vang (r o) = mapply (tmat h) (vang (m i)) /\
     vlin (s o) = mapply (mtrans (tmat h)) (vlin (m i)) /\ vang (s o) = mapply (mtrans (tmat h)) (vang (m i)) /\
     (forall x, x <> o -> r x = m x /\ s x = m x)) /\
  (forall m : mem (Position6D R),
     let lin v := (p6_x v, p6_y v, p6_z v) in
     let ang v := (p6_wx v, p6_wy v, p6_wz v) in
     let r := changeReferencePosition6D h m i o in
     let s := changeReferenceTransposePosition6D h m i o in
     lin (r o) = mapply (tmat h) (lin (m i)) /\ ang (r o) = mapply (tmat h) (ang (m i)) /\
     lin (s o) = mapply (mtrans (tmat h)) (lin (m i)) /\ ang (s o) = mapply (mtrans (tmat h)) (ang (m i)) /\
     (forall x, x <> o -> r x = m x /\ s x = m x)).
Proof. exact @Proofs_Frames.C21_change_reference_distinct_proof. Qed.
Print Assumptions C21_change_reference_distinct.

(** C21: the in-place variants compute the same thing; so do the ones on Transform (the
    translation is rotated too), with an output distinct from both inputs. *)
Theorem C21_change_reference_others : forall (h : Transform R) (p : Position3D R),
  p3v (changeReferencePosition3DInPlace h p) = mapply (tmat h) (p3v p) /\
  p3v (changeReferenceTransposePosition3DInPlace h p) = mapply (mtrans (tmat h)) (p3v p) /\
  (forall (m : mem (Transform R)) (k i o : nat), k <> o -> i <> o ->
     let r := changeReferenceTransform m k i o in
     let s := changeReferenceTransposeTransform m k i o in
     meq (tmat (r o)) (mmul (tmat (m k)) (tmat (m i))) /\
     tpos (r o) = mapply (tmat (m k)) (tpos (m i)) /\
     meq (tmat (s o)) (mmul (mtrans (tmat (m k))) (tmat (m i))) /\
     tpos (s o) = mapply (mtrans (tmat (m k))) (tpos (m i)) /\
     (forall x, x <> o -> r x = m x /\ s x = m x)).
Proof. exact @Proofs_Frames.C21_change_reference_others_proof. Qed.
Print Assumptions C21_change_reference_others.

(** C21: for a rigid transform the two directions undo each other and preserve norms and
    scalar products; both are linear. *)
Theorem C21_change_reference_rigid : forall (h : Transform R) (p q : Position3D R) (k : R),
  (rigid h ->
   changeReferenceTransposePosition3DInPlace h (changeReferencePosition3DInPlace h p) = p /\
   changeReferencePosition3DInPlace h (changeReferenceTransposePosition3DInPlace h p) = p /\
   vdot (p3v (changeReferencePosition3DInPlace h p)) (p3v (changeReferencePosition3DInPlace h q))
   = vdot (p3v p) (p3v q) /\
   p3_norm (changeReferencePosition3DInPlace h p) = p3_norm p) /\
  changeReferencePosition3DInPlace h (p3_add p (p3_scale q k)) =
    p3_add (changeReferencePosition3DInPlace h p) (p3_scale (changeReferencePosition3DInPlace h q) k).
Proof. exact @Proofs_Frames.C21_change_reference_rigid_proof. Qed.
Print Assumptions C21_change_reference_rigid.

(** C21: planar change of reference: out of place (distinct variables) and in place, both
    rotate (x, y) by theta and keep the angle. *)
Theorem C21_change_reference_pose2d : forall (theta : R) (m : mem (Pose2D R)) (i o : nat), i <> o ->
  changeReferencePose2D theta m i o o = changeReferencePose2DInPlace theta (m i) /\
  (forall x, x <> o -> changeReferencePose2D theta m i o x = m x) /\
  changeReferencePose2DInPlace theta (m i) =
    mkPose2D (cos theta * pose_x (m i) - sin theta * pose_y (m i))
             (sin theta * pose_x (m i) + cos theta * pose_y (m i)) (pose_theta (m i)).
Proof. exact @Proofs_Frames.C21_change_reference_pose2d_proof. Qed.
Print Assumptions C21_change_reference_pose2d.

(** C21, violated when the output is the input: the second and third rows read the
    components already overwritten. The quarter turn about z sends (1,0,0) to (0,1,0), but
    called with the same variable twice it gives (0,0,0). *)
Theorem C21_change_reference_aliased_refuted :
  let h := mkTransform 0 (-1) 0 0 1 0 0 0 0 0 1 0 in
  let p := mkPosition3D 1 0 0 in
  rigid h /\ p3v (changeReferencePosition3D h (fun _ => p) 0 0 0%nat) = (0, 0, 0) /\
  mapply (tmat h) (p3v p) = (0, 1, 0).
Proof. exact @Proofs_Frames.C21_change_reference_aliased_refuted_proof. Qed.
Print Assumptions C21_change_reference_aliased_refuted.

Example ex_C21 : rigid (mkTransform 0 (-1) 0 0 1 0 0 0 0 0 1 0) /\
  changeReferencePosition3DInPlace (mkTransform 0 (-1) 0 0 1 0 0 0 0 0 1 0) (mkPosition3D 1 2 3) = mkPosition3D (-2) 1 3.
Proof. split; [apply rigid_mk; repeat split; ring|]. unr. rec_eq; ring. Qed.

(** ** C22 *)

(** C22: orthogonalSpace throws exactly on the null vector. *)
Theorem C22_orthogonalSpace_throws : forall v : Position3D R,
  orthogonalSpace v = Throw <-> v = mkPosition3D 0 0 0.
Proof. exact @Proofs_Frames.C22_orthogonalSpace_throws_proof. Qed.
Print Assumptions C22_orthogonalSpace_throws.

(** C22: for every non-null vector the returned frame passes isTransform with its default
    tolerance, and its z axis is the normalised vector. *)
Theorem C22_orthogonalSpace_isTransform : forall (v : Position3D R), v <> mkPosition3D 0 0 0 ->
  exists t, orthogonalSpace v = Ok t /\ t_isTransform t (1/10000) = true /\
  (t_r1c3 t, t_r2c3 t, t_r3c3 t) = vscale (1 / p3_norm v) (p3v v).
Proof. exact @Proofs_Frames.C22_orthogonalSpace_isTransform_proof. Qed.
Print Assumptions C22_orthogonalSpace_isTransform.

(** C22: exactly, the frame is a rigid transform if and only if a component x or y of the
    vector is above 1e-4 times its norm, or x is null. In any case its z axis is the
    normalised vector and its origin is null. *)
Theorem C22_orthogonalSpace_exact : forall (v : Position3D R), v <> mkPosition3D 0 0 0 ->
  exists t, orthogonalSpace v = Ok t /\ tpos t = (0,0,0) /\
  (t_r1c3 t, t_r2c3 t, t_r3c3 t) = vscale (1 / p3_norm v) (p3v v) /\
  (rigid t <-> 1/10000 * p3_norm v < Rabs (p3_x v) \/ 1/10000 * p3_norm v < Rabs (p3_y v) \/ p3_x v = 0).
Proof. exact @Proofs_Frames.C22_orthogonalSpace_exact_proof. Qed.
Print Assumptions C22_orthogonalSpace_exact.

(** C22, violated: for the vector (80000, 0, 1599999999), of norm 1600000001, the frame
    returned is not orthogonal: its first and third axes make a scalar product of
    80000/1600000001. *)
Theorem C22_orthogonalSpace_refuted : exists t,
  orthogonalSpace (mkPosition3D 80000 0 1599999999) = Ok t /\ ~ rigid t /\
  cdot (tmat t) 0 2 = 80000/1600000001.
Proof. exact @Proofs_Frames.C22_orthogonalSpace_refuted_proof. Qed.
Print Assumptions C22_orthogonalSpace_refuted.

(** C22: from two orthogonal unit axes the three constructors return the rotation whose
    columns are these axes and the one completing them to a right-handed frame. *)
Theorem C22_rotationFromAxes : forall a b : Position3D R,
  vdot (p3v a) (p3v a) = 1 -> vdot (p3v b) (p3v b) = 1 -> vdot (p3v a) (p3v b) = 0 ->
  let col (r : Rotation R) (k : nat) := (rmat r 0%nat k, rmat r 1%nat k, rmat r 2%nat k) in
  exists r s t, rotationFromAxesXY a b = Ok r /\ rotationFromAxesXZ a b = Ok s /\ rotationFromAxesYZ a b = Ok t /\
  is_rot r /\ col r 0%nat = p3v a /\ col r 1%nat = p3v b /\
  is_rot s /\ col s 0%nat = p3v a /\ col s 2%nat = p3v b /\
  is_rot t /\ col t 1%nat = p3v a /\ col t 2%nat = p3v b.
Proof. exact @Proofs_Frames.C22_rotationFromAxes_proof. Qed.
Print Assumptions C22_rotationFromAxes.

(** C22: axes that are not of norm 1 within 1e-4, or not orthogonal within 1e-3, are
    rejected by an assertion. *)
Theorem C22_rotationFromAxes_rejects : forall a b : Position3D R,
  (1/10000 < Rabs (1 - vnorm (p3v a)) \/ 1/10000 < Rabs (1 - vnorm (p3v b)) \/
   1/1000 < Rabs (vdot (p3v a) (p3v b))) ->
  rotationFromAxesXY a b = Abort /\ rotationFromAxesXZ a b = Abort /\ rotationFromAxesYZ a b = Abort.
Proof. exact @Proofs_Frames.C22_rotationFromAxes_rejects_proof. Qed.
Print Assumptions C22_rotationFromAxes_rejects.

Example ex_C22 : vdot (p3v (mkPosition3D (3/5) (4/5) 0)) (p3v (mkPosition3D (-4/5) (3/5) 0)) = 0 /\
  vdot (p3v (mkPosition3D (3/5) (4/5) 0)) (p3v (mkPosition3D (3/5) (4/5) 0)) = 1.
Proof. unr. lra. Qed.

(** ** C23 *)

(** C23: whatever is returned is the rotation by some angle about the normalised axis.
    (Where the code would divide 0 by 0, excluded by the hypothesis, see the refutation
    below.) The axis is rejected by an exception when it is null. *)
Theorem C23_turns_about_axis : forall (axis : Position3D R) (m r : Rotation R),
  axisRotationProjection axis m = Ok r ->
  let u := vscale (1 / p3_norm axis) (p3v axis) in
  (let '(x, y, z) := u in ~ (axisProj_a x y z m = 0 /\ axisProj_b x y z m = 0)) ->
  exists th, turns_about (rmat r) th u.
Proof. exact @Proofs_Frames.C23_turns_about_axis_proof. Qed.
Print Assumptions C23_turns_about_axis.

(** C23: a null axis is rejected. *)
Theorem C23_null_axis_throws : forall m : Rotation R, axisRotationProjection (mkPosition3D 0 0 0) m = Throw.
Proof. exact @Proofs_Frames.C23_null_axis_throws_proof. Qed.
Print Assumptions C23_null_axis_throws.

(** C23: for an axis in a coordinate plane (one null component) a rotation about that axis
    is returned unchanged, whatever its angle. *)
Theorem C23_fixes_rotations_plane : forall (axis : Position3D R) (m : Rotation R) (th : R),
  axis <> mkPosition3D 0 0 0 -> p3_x axis * p3_y axis * p3_z axis = 0 ->
  turns_about (rmat m) th (vscale (1 / p3_norm axis) (p3v axis)) ->
  axisRotationProjection axis m = Ok m.
Proof. exact @Proofs_Frames.C23_fixes_rotations_plane_proof. Qed.
Print Assumptions C23_fixes_rotations_plane.

(** C23: for such an axis the projection is idempotent. *)
Theorem C23_idempotent_plane : forall (axis : Position3D R) (m r : Rotation R),
  axis <> mkPosition3D 0 0 0 -> p3_x axis * p3_y axis * p3_z axis = 0 ->
  (let '(x, y, z) := vscale (1 / p3_norm axis) (p3v axis) in ~ (axisProj_a x y z m = 0 /\ axisProj_b x y z m = 0)) ->
  axisRotationProjection axis m = Ok r -> axisRotationProjection axis r = Ok r.
Proof. exact @Proofs_Frames.C23_idempotent_plane_proof. Qed.
Print Assumptions C23_idempotent_plane.

Example ex_C23 : turns_about (rmat (mkRotation 0 (-1) 0 1 0 0 0 0 1)) (PI/2) (vscale (1 / p3_norm (mkPosition3D 0 0 5)) (p3v (mkPosition3D 0 0 5))).
Proof.
  assert (E : p3_norm (mkPosition3D 0 0 5) = 5).
  { unfold p3_norm. cbn. apply sqrt_unique'; lra. }
  rewrite E. unfold vscale, p3v, vx, vy, vz. cbn [fst snd p3_x p3_y p3_z].
  split.
  - unfold vdot, vx, vy, vz. cbn [fst snd]. field.
  - intros [[x y] z]. unfold rodrigues. rewrite cos_PI2, sin_PI2. unr. pair_eq; field.
Qed.

(** C23: exactly, a rotation by [th] about the axis, whose normalised vector is (x,y,z), is
    returned unchanged if and only if the axis is in a coordinate plane, or cos th = 0, or the
    coefficients (3,3) and (3,2) of the matrix differ by 6 cos th. *)
Theorem C23_fixes_rotations_exact : forall (axis : Position3D R) (m : Rotation R) (th : R),
  axis <> mkPosition3D 0 0 0 ->
  turns_about (rmat m) th (vscale (1 / p3_norm axis) (p3v axis)) ->
  (axisRotationProjection axis m = Ok m <->
   (p3_x axis * p3_y axis * p3_z axis = 0 \/ cos th = 0 \/ m_r3c3 m - m_r3c2 m = 6 * cos th)).
Proof. exact @Proofs_Frames.C23_fixes_rotations_exact_proof. Qed.
Print Assumptions C23_fixes_rotations_exact.

(** C23: exactly, what the projection returns is returned unchanged by a second projection if
    and only if the axis is in a coordinate plane, or it turns by a quarter turn, or its
    coefficients (3,3) and (3,2) differ by 6 times the cosine of its angle. *)
Theorem C23_idempotent_exact : forall (axis : Position3D R) (m r : Rotation R),
  axis <> mkPosition3D 0 0 0 ->
  let u := vscale (1 / p3_norm axis) (p3v axis) in
  (let '(x, y, z) := u in ~ (axisProj_a x y z m = 0 /\ axisProj_b x y z m = 0)) ->
  axisRotationProjection axis m = Ok r ->
  exists th, turns_about (rmat r) th u /\
  (axisRotationProjection axis r = Ok r <->
   (p3_x axis * p3_y axis * p3_z axis = 0 \/ cos th = 0 \/ m_r3c3 r - m_r3c2 r = 6 * cos th)).
Proof. exact @Proofs_Frames.C23_idempotent_exact_proof. Qed.
Print Assumptions C23_idempotent_exact.

Example ex_C23_exact : axisRotationProjection (mkPosition3D 0 3 4) m_id = Ok m_id /\
  axisRotationProjection (mkPosition3D 2 2 1) m_id <> Ok m_id.
Proof.
  assert (T : forall x y z s, 0 <= s -> s <> 0 -> s*s = x*x+y*y+z*z -> turns_about (rmat m_id) 0 (vscale (1 / p3_norm (mkPosition3D x y z)) (p3v (mkPosition3D x y z)))).
  { intros x y z s h n e. assert (N : p3_norm (mkPosition3D x y z) = s) by (unfold p3_norm; cbn; apply sqrt_unique'; assumption).
    rewrite N. unfold vscale, p3v, vx, vy, vz. cbn [fst snd p3_x p3_y p3_z]. split.
    - unfold vdot, vx, vy, vz. cbn [fst snd]. transitivity ((x*x+y*y+z*z)/(s*s)); [field; exact n|]. rewrite <- e. field. exact n.
    - intros [[p q] r]. unfold rodrigues. rewrite cos_0, sin_0. unr. pair_eq; field; exact n. }
  split.
  - apply (C23_fixes_rotations_exact _ _ 0).
    + intro e. apply (f_equal p3_y) in e. cbn in e. lra.
    + apply (T 0 3 4 5); lra.
    + left. cbn. ring.
  - intro e. apply (C23_fixes_rotations_exact _ _ 0) in e.
    + rewrite cos_0 in e. cbn in e. lra.
    + intro k. apply (f_equal p3_y) in k. cbn in k. lra.
    + apply (T 2 2 1 3); lra.
Qed.

(** C23: the overloads on Transform do the same to its rotation part and keep its
    translation. *)
Theorem C23_transform_overloads : forall (axis : Position3D R) (t : Transform R),
  match axisRotationProjection axis (rotationFromTransform t) with
  | Ok r => exists u, axisRotationProjectionT axis t = Ok u /\ axisRotationProjectionTInPlace axis t = Ok u /\
      rotationFromTransform u = r /\ tpos u = tpos t
  | _ => axisRotationProjectionT axis t = axisRotationProjectionTInPlace axis t /\
         forall u, axisRotationProjectionT axis t <> Ok u
  end.
Proof. exact @Proofs_Frames.C23_transform_overloads_proof. Qed.
Print Assumptions C23_transform_overloads.

(** C23, violated: the identity, which is a rotation of angle 0 about every axis, is not
    returned unchanged for the axis (2,2,1). *)
Theorem C23_general_axis_refuted :
  turns_about (rmat m_id) 0 (vscale (1 / p3_norm (mkPosition3D 2 2 1)) (p3v (mkPosition3D 2 2 1))) /\
  axisRotationProjection (mkPosition3D 2 2 1) m_id <> Ok m_id.
Proof. exact @Proofs_Frames.C23_general_axis_refuted_proof. Qed.
Print Assumptions C23_general_axis_refuted.

(** C23, violated in binary32: for the axis z and the exact quarter turn about x the code
    evaluates 0/0, and (for any libm whose acos, cos and sin of NaN are NaN) returns a
    matrix of NaNs instead of throwing or returning a rotation about z. *)
Theorem C23_zero_over_zero_refuted : forall L : libm32,
  l_acos L B754_nan = B754_nan -> l_cos L B754_nan = B754_nan -> l_sin L B754_nan = B754_nan ->
  exists r, axisRotationProjection (S := F32Scalar L)
     (mkPosition3D (f32_ofZ 0) (f32_ofZ 0) (f32_ofZ 1))
     (mkRotation (f32_ofZ 1) (f32_ofZ 0) (f32_ofZ 0) (f32_ofZ 0) (f32_ofZ 0) (f32_ofZ (-1))
                 (f32_ofZ 0) (f32_ofZ 1) (f32_ofZ 0)) = Ok r /\
  is_nan (m_r1c1 r) = true /\ is_nan (m_r1c2 r) = true /\ is_nan (m_r2c1 r) = true /\ is_nan (m_r2c2 r) = true.
Proof. exact @Proofs_Frames.C23_zero_over_zero_refuted_proof. Qed.
Print Assumptions C23_zero_over_zero_refuted.
