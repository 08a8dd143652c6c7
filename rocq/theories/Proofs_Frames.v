(** * Lemmas for Props_Frames *)

From Coq Require Import Reals List Lra Lia Psatz Nsatz Bool Arith.
Import ListNotations.
From Flocq Require Import IEEE754.BinarySingleNaN.
From Verif Require Import Scalar RInst F32 RLemmas Model_Base Model_Vec Model_Rigid Model_Almath
  Model_Helpers Spec_Geom Proofs_Geom MemTac Proofs_Transform Proofs_Rotation Proofs_Quat Proofs_ExpLog.
Local Open Scope R_scope.


(** The whole execution of a change of reference, [i <> o]. *)
Ltac out_spec d :=
  let P := fresh "P" in
  intros h m i o hn;
  match goal with |- ?l = ?r /\ frame _ _ ?M =>
    set (P := fun m' => m' o = r /\ frame m o m'); change (P M) end;
  match goal with |- P (?f m i o) =>
    let H := fresh "H" in
    assert (H : forall m1, m1 o = m o -> frame m o m1 -> P (f m1 i o));
    [ destruct (m o) as [] eqn:Eo; destruct (m i) as [] eqn:Ei;
      let m1 := fresh in let e := fresh in let F := fresh in
      intros m1 e F; d tt; mem_steps; subst P; split; assumption
    | apply H; auto using frame_refl ]
  end.

Lemma cr_p3 : forall (h : Transform R) (m : mem (Position3D R)) i o, i <> o ->
  changeReferencePosition3D h m i o o = changeReferencePosition3DInPlace h (m i) /\
  frame m o (changeReferencePosition3D h m i o).
Proof. out_spec ltac:(fun _ => cbv delta [changeReferencePosition3D]). Qed.

Lemma crt_p3 : forall (h : Transform R) (m : mem (Position3D R)) i o, i <> o ->
  changeReferenceTransposePosition3D h m i o o = changeReferenceTransposePosition3DInPlace h (m i) /\
  frame m o (changeReferenceTransposePosition3D h m i o).
Proof. out_spec ltac:(fun _ => cbv delta [changeReferenceTransposePosition3D]). Qed.

Definition rot_v6 (h : Transform R) (v : Velocity6D R) : Velocity6D R :=
  mkVelocity6D (t_r1c1 h * v6_xd v + t_r1c2 h * v6_yd v + t_r1c3 h * v6_zd v)
               (t_r2c1 h * v6_xd v + t_r2c2 h * v6_yd v + t_r2c3 h * v6_zd v)
               (t_r3c1 h * v6_xd v + t_r3c2 h * v6_yd v + t_r3c3 h * v6_zd v)
               (t_r1c1 h * v6_wxd v + t_r1c2 h * v6_wyd v + t_r1c3 h * v6_wzd v)
               (t_r2c1 h * v6_wxd v + t_r2c2 h * v6_wyd v + t_r2c3 h * v6_wzd v)
               (t_r3c1 h * v6_wxd v + t_r3c2 h * v6_wyd v + t_r3c3 h * v6_wzd v).
Definition rott_v6 (h : Transform R) (v : Velocity6D R) : Velocity6D R :=
  mkVelocity6D (t_r1c1 h * v6_xd v + t_r2c1 h * v6_yd v + t_r3c1 h * v6_zd v)
               (t_r1c2 h * v6_xd v + t_r2c2 h * v6_yd v + t_r3c2 h * v6_zd v)
               (t_r1c3 h * v6_xd v + t_r2c3 h * v6_yd v + t_r3c3 h * v6_zd v)
               (t_r1c1 h * v6_wxd v + t_r2c1 h * v6_wyd v + t_r3c1 h * v6_wzd v)
               (t_r1c2 h * v6_wxd v + t_r2c2 h * v6_wyd v + t_r3c2 h * v6_wzd v)
               (t_r1c3 h * v6_wxd v + t_r2c3 h * v6_wyd v + t_r3c3 h * v6_wzd v).
Definition rot_p6 (h : Transform R) (v : Position6D R) : Position6D R :=
  mkPosition6D (t_r1c1 h * p6_x v + t_r1c2 h * p6_y v + t_r1c3 h * p6_z v)
               (t_r2c1 h * p6_x v + t_r2c2 h * p6_y v + t_r2c3 h * p6_z v)
               (t_r3c1 h * p6_x v + t_r3c2 h * p6_y v + t_r3c3 h * p6_z v)
               (t_r1c1 h * p6_wx v + t_r1c2 h * p6_wy v + t_r1c3 h * p6_wz v)
               (t_r2c1 h * p6_wx v + t_r2c2 h * p6_wy v + t_r2c3 h * p6_wz v)
               (t_r3c1 h * p6_wx v + t_r3c2 h * p6_wy v + t_r3c3 h * p6_wz v).
Definition rott_p6 (h : Transform R) (v : Position6D R) : Position6D R :=
  mkPosition6D (t_r1c1 h * p6_x v + t_r2c1 h * p6_y v + t_r3c1 h * p6_z v)
               (t_r1c2 h * p6_x v + t_r2c2 h * p6_y v + t_r3c2 h * p6_z v)
               (t_r1c3 h * p6_x v + t_r2c3 h * p6_y v + t_r3c3 h * p6_z v)
               (t_r1c1 h * p6_wx v + t_r2c1 h * p6_wy v + t_r3c1 h * p6_wz v)
               (t_r1c2 h * p6_wx v + t_r2c2 h * p6_wy v + t_r3c2 h * p6_wz v)
               (t_r1c3 h * p6_wx v + t_r2c3 h * p6_wy v + t_r3c3 h * p6_wz v).

Lemma cr_v6 : forall (h : Transform R) (m : mem (Velocity6D R)) i o, i <> o ->
  changeReferenceVelocity6D h m i o o = rot_v6 h (m i) /\
  frame m o (changeReferenceVelocity6D h m i o).
Proof. out_spec ltac:(fun _ => cbv delta [changeReferenceVelocity6D]). Qed.
Lemma crt_v6 : forall (h : Transform R) (m : mem (Velocity6D R)) i o, i <> o ->
  changeReferenceTransposeVelocity6D h m i o o = rott_v6 h (m i) /\
  frame m o (changeReferenceTransposeVelocity6D h m i o).
Proof. out_spec ltac:(fun _ => cbv delta [changeReferenceTransposeVelocity6D]). Qed.
Lemma cr_p6 : forall (h : Transform R) (m : mem (Position6D R)) i o, i <> o ->
  changeReferencePosition6D h m i o o = rot_p6 h (m i) /\
  frame m o (changeReferencePosition6D h m i o).
Proof. out_spec ltac:(fun _ => cbv delta [changeReferencePosition6D]). Qed.
Lemma crt_p6 : forall (h : Transform R) (m : mem (Position6D R)) i o, i <> o ->
  changeReferenceTransposePosition6D h m i o o = rott_p6 h (m i) /\
  frame m o (changeReferenceTransposePosition6D h m i o).
Proof. out_spec ltac:(fun _ => cbv delta [changeReferenceTransposePosition6D]). Qed.

Lemma C21_change_reference_distinct_proof : forall (h : Transform R) (i o : nat), i <> o ->
  (forall m : mem (Position3D R),
     let r := changeReferencePosition3D h m i o in
     let s := changeReferenceTransposePosition3D h m i o in
     p3v (r o) = mapply (tmat h) (p3v (m i)) /\ p3v (s o) = mapply (mtrans (tmat h)) (p3v (m i)) /\
     (forall x, x <> o -> r x = m x /\ s x = m x)) /\
  (forall m : mem (Velocity6D R),
     let r := changeReferenceVelocity6D h m i o in
     let s := changeReferenceTransposeVelocity6D h m i o in
     vlin (r o) = mapply (tmat h) (vlin (m i)) /\ vang (r o) = mapply (tmat h) (vang (m i)) /\
     vlin (s o) = mapply (mtrans (tmat h)) (vlin (m i)) /\ vang (s o) = mapply (mtrans (tmat h)) (vang (m i)) /\
     (forall x, x <> o -> r x = m x /\ s x = m x)) /\
  (forall m : mem (Position6D R),
     let lin v := (p6_x v, p6_y v, p6_z v) in
     let ang v := (p6_wx v, p6_wy v, p6_wz v) in
     let r := changeReferencePosition6D h m i o in
     let s := changeReferenceTransposePosition6D h m i o in
     lin (r o) = mapply (tmat h) (lin (m i)) /\ ang (r o) = mapply (tmat h) (ang (m i)) /\
     lin (s o) = mapply (mtrans (tmat h)) (lin (m i)) /\ ang (s o) = mapply (mtrans (tmat h)) (ang (m i)) /\
     (forall x, x <> o -> r x = m x /\ s x = m x)).
Proof.
  intros h i o hn. split; [|split]; intros m; cbv zeta.
  - destruct (cr_p3 h m i o hn) as [e1 f1]. destruct (crt_p3 h m i o hn) as [e2 f2]. rewrite e1, e2.
    split; [reflexivity|]. split; [reflexivity|]. intros x hx. split; [apply f1|apply f2]; exact hx.
  - destruct (cr_v6 h m i o hn) as [e1 f1]. destruct (crt_v6 h m i o hn) as [e2 f2]. rewrite e1, e2.
    repeat (split; [reflexivity|]). intros x hx. split; [apply f1|apply f2]; exact hx.
  - destruct (cr_p6 h m i o hn) as [e1 f1]. destruct (crt_p6 h m i o hn) as [e2 f2]. rewrite e1, e2.
    repeat (split; [reflexivity|]). intros x hx. split; [apply f1|apply f2]; exact hx.
Qed.


Lemma C21_change_reference_others_proof : forall (h : Transform R) (p : Position3D R),
  p3v (changeReferencePosition3DInPlace h p) = mapply (tmat h) (p3v p) /\
  p3v (changeReferenceTransposePosition3DInPlace h p) = mapply (mtrans (tmat h)) (p3v p) /\
  (forall (m : mem (Transform R)) (k i o : nat), k <> o -> i <> o ->
     let r := changeReferenceTransform m k i o in
     let s := changeReferenceTransposeTransform m k i o in
     meq (tmat (r o)) (mmul (tmat (m k)) (tmat (m i))) /\
     tpos (r o) = mapply (tmat (m k)) (tpos (m i)) /\
     meq (tmat (s o)) (mmul (mtrans (tmat (m k))) (tmat (m i))) /\
     tpos (s o) = mapply (mtrans (tmat (m k))) (tpos (m i)) /\
     (forall x, x <> o -> r x = m x /\ s x = m x)).
Proof.
  intros h p. split; [reflexivity|]. split; [reflexivity|].
  intros m k i o hk hi r s.
  assert (A : r o = (let a := m k in let b := m i in
      mkTransform (t_r1c1 a * t_r1c1 b + t_r1c2 a * t_r2c1 b + t_r1c3 a * t_r3c1 b)
       (t_r1c1 a * t_r1c2 b + t_r1c2 a * t_r2c2 b + t_r1c3 a * t_r3c2 b)
       (t_r1c1 a * t_r1c3 b + t_r1c2 a * t_r2c3 b + t_r1c3 a * t_r3c3 b)
       (t_r1c1 a * t_r1c4 b + t_r1c2 a * t_r2c4 b + t_r1c3 a * t_r3c4 b)
       (t_r2c1 a * t_r1c1 b + t_r2c2 a * t_r2c1 b + t_r2c3 a * t_r3c1 b)
       (t_r2c1 a * t_r1c2 b + t_r2c2 a * t_r2c2 b + t_r2c3 a * t_r3c2 b)
       (t_r2c1 a * t_r1c3 b + t_r2c2 a * t_r2c3 b + t_r2c3 a * t_r3c3 b)
       (t_r2c1 a * t_r1c4 b + t_r2c2 a * t_r2c4 b + t_r2c3 a * t_r3c4 b)
       (t_r3c1 a * t_r1c1 b + t_r3c2 a * t_r2c1 b + t_r3c3 a * t_r3c1 b)
       (t_r3c1 a * t_r1c2 b + t_r3c2 a * t_r2c2 b + t_r3c3 a * t_r3c2 b)
       (t_r3c1 a * t_r1c3 b + t_r3c2 a * t_r2c3 b + t_r3c3 a * t_r3c3 b)
       (t_r3c1 a * t_r1c4 b + t_r3c2 a * t_r2c4 b + t_r3c3 a * t_r3c4 b)) /\ frame m o r).
  { match goal with |- _ = ?v /\ _ => set (P := fun m' => m' o = v /\ frame m o m') end. change (P r). subst r.
    assert (H : forall m1, m1 o = m o -> frame m o m1 -> P (changeReferenceTransform m1 k i o)).
    { cbv zeta in P. destruct (m o) as [] eqn:Eo. destruct (m k) as [] eqn:Ek. destruct (m i) as [] eqn:Ei.
      intros m1 e F. cbv delta [changeReferenceTransform]. mem_steps. subst P. split; assumption. }
    apply H; auto using frame_refl. }
  assert (B : s o = (let a := m k in let b := m i in
      mkTransform (t_r1c1 a * t_r1c1 b + t_r2c1 a * t_r2c1 b + t_r3c1 a * t_r3c1 b)
       (t_r1c1 a * t_r1c2 b + t_r2c1 a * t_r2c2 b + t_r3c1 a * t_r3c2 b)
       (t_r1c1 a * t_r1c3 b + t_r2c1 a * t_r2c3 b + t_r3c1 a * t_r3c3 b)
       (t_r1c1 a * t_r1c4 b + t_r2c1 a * t_r2c4 b + t_r3c1 a * t_r3c4 b)
       (t_r1c2 a * t_r1c1 b + t_r2c2 a * t_r2c1 b + t_r3c2 a * t_r3c1 b)
       (t_r1c2 a * t_r1c2 b + t_r2c2 a * t_r2c2 b + t_r3c2 a * t_r3c2 b)
       (t_r1c2 a * t_r1c3 b + t_r2c2 a * t_r2c3 b + t_r3c2 a * t_r3c3 b)
       (t_r1c2 a * t_r1c4 b + t_r2c2 a * t_r2c4 b + t_r3c2 a * t_r3c4 b)
       (t_r1c3 a * t_r1c1 b + t_r2c3 a * t_r2c1 b + t_r3c3 a * t_r3c1 b)
       (t_r1c3 a * t_r1c2 b + t_r2c3 a * t_r2c2 b + t_r3c3 a * t_r3c2 b)
       (t_r1c3 a * t_r1c3 b + t_r2c3 a * t_r2c3 b + t_r3c3 a * t_r3c3 b)
       (t_r1c3 a * t_r1c4 b + t_r2c3 a * t_r2c4 b + t_r3c3 a * t_r3c4 b)) /\ frame m o s).
  { match goal with |- _ = ?v /\ _ => set (P := fun m' => m' o = v /\ frame m o m') end. change (P s). subst s.
    assert (H : forall m1, m1 o = m o -> frame m o m1 -> P (changeReferenceTransposeTransform m1 k i o)).
    { cbv zeta in P. destruct (m o) as [] eqn:Eo. destruct (m k) as [] eqn:Ek. destruct (m i) as [] eqn:Ei.
      intros m1 e F. cbv delta [changeReferenceTransposeTransform]. mem_steps. subst P. split; assumption. }
    apply H; auto using frame_refl. }
  destruct A as [A FA], B as [B FB]. clearbody r s. cbv zeta in A, B. rewrite A, B.
  destruct (m k), (m i). rewrite !tmat_mk.
  split; [|split; [|split; [|split]]].
  - intros x y hx hy. destruct x as [|[|[|x]]]; [| | |lia]; destruct y as [|[|[|y]]]; try lia; reflexivity.
  - reflexivity.
  - intros x y hx hy. destruct x as [|[|[|x]]]; [| | |lia]; destruct y as [|[|[|y]]]; try lia; reflexivity.
  - reflexivity.
  - intros x hx. split; [apply FA|apply FB]; exact hx.
Qed.


Lemma C21_change_reference_rigid_proof : forall (h : Transform R) (p q : Position3D R) (k : R),
  (rigid h ->
   changeReferenceTransposePosition3DInPlace h (changeReferencePosition3DInPlace h p) = p /\
   changeReferencePosition3DInPlace h (changeReferenceTransposePosition3DInPlace h p) = p /\
   vdot (p3v (changeReferencePosition3DInPlace h p)) (p3v (changeReferencePosition3DInPlace h q))
   = vdot (p3v p) (p3v q) /\
   p3_norm (changeReferencePosition3DInPlace h p) = p3_norm p) /\
  changeReferencePosition3DInPlace h (p3_add p (p3_scale q k)) =
    p3_add (changeReferencePosition3DInPlace h p) (p3_scale (changeReferencePosition3DInPlace h q) k).
Proof.
  intros [a b c x d e f y g l i z] [p1 p2 p3] [q1 q2 q3] k. split.
  - intro H. apply rigid_mk in H. destruct (so3_full _ _ _ _ _ _ _ _ _ H) as [(r1&r2&r3&r4&r5&r6) _].
    destruct H as [(h1&h2&h3&h4&h5&h6) _].
    unfold changeReferencePosition3DInPlace, changeReferenceTransposePosition3DInPlace, p3_norm, vdot, p3v, vx, vy, vz.
    cbn. split; [|split; [|split]].
    + rec_eq; nsatz.
    + rec_eq; nsatz.
    + nsatz.
    + f_equal. nsatz.
  - unr. rec_eq; ring.
Qed.


Lemma C21_change_reference_pose2d_proof : forall (theta : R) (m : mem (Pose2D R)) (i o : nat), i <> o ->
  changeReferencePose2D theta m i o o = changeReferencePose2DInPlace theta (m i) /\
  (forall x, x <> o -> changeReferencePose2D theta m i o x = m x) /\
  changeReferencePose2DInPlace theta (m i) =
    mkPose2D (cos theta * pose_x (m i) - sin theta * pose_y (m i))
             (sin theta * pose_x (m i) + cos theta * pose_y (m i)) (pose_theta (m i)).
Proof.
  intros theta m i o hn. unfold changeReferencePose2D, mseq. split; [|split].
  - rewrite !mupd_same. rewrite !mupd_other by exact hn. reflexivity.
  - intros x hx. rewrite !mupd_other by exact hx. reflexivity.
  - reflexivity.
Qed.


Lemma C21_change_reference_aliased_refuted_proof :
  let h := mkTransform 0 (-1) 0 0 1 0 0 0 0 0 1 0 in
  let p := mkPosition3D 1 0 0 in
  rigid h /\ p3v (changeReferencePosition3D h (fun _ => p) 0 0 0%nat) = (0, 0, 0) /\
  mapply (tmat h) (p3v p) = (0, 1, 0).
Proof.
  cbv zeta. split; [apply rigid_mk; repeat split; ring|]. split.
  - unr. pair_eq; ring.
  - unr. pair_eq; ring.
Qed.




Lemma p3_normalize_ok : forall x y z s : R, s*s = x*x+y*y+z*z -> 0 < s ->
  p3_normalize (mkPosition3D x y z) = Ok (mkPosition3D (x*(1/s)) (y*(1/s)) (z*(1/s))).
Proof.
  intros x y z s e h. unfold p3_normalize, p3_div, p3_norm. cbn.
  rewrite <- e. rewrite sqrt_square by lra. rewrite Reqb_false by lra. reflexivity.
Qed.

Lemma p3_div_ok : forall x y z s : R, s*s = x*x+y*y+z*z -> 0 < s ->
  p3_div (mkPosition3D x y z) (p3_norm (mkPosition3D x y z)) = Ok (mkPosition3D (x*(1/s)) (y*(1/s)) (z*(1/s))).
Proof.
  intros x y z s e h. unfold p3_div, p3_norm. cbn.
  rewrite <- e. rewrite sqrt_square by lra. rewrite Reqb_false by lra. reflexivity.
Qed.

Lemma inv_unit : forall x y z s, s <> 0 -> s*s = x*x+y*y+z*z ->
  x*(1/s)*(x*(1/s)) + y*(1/s)*(y*(1/s)) + z*(1/s)*(z*(1/s)) = 1.
Proof.
  intros x y z s h e. transitivity ((x*x+y*y+z*z)/(s*s)); [field; auto|]. rewrite <- e. field. auto.
Qed.

(** The computation once the first axis candidate [a] is known. *)
Lemma os_end : forall (x y z a b c r : R) (t : Transform R),
  x*x+y*y+z*z = 1 -> a*x+b*y+c*z = 0 -> r*r = a*a+b*b+c*c -> 0 < r ->
  exists x1 y1 z1,
  x1*x1+y1*y1+z1*z1 = 1 /\ x1*x+y1*y+z1*z = 0 /\
  rbind (p3_normalize (mkPosition3D a b c)) (fun axis1 =>
  rbind (p3_normalize (p3_crossProduct (mkPosition3D x y z) axis1)) (fun axis2 =>
  Ok (mkTransform (p3_x axis1) (p3_x axis2) x (t_r1c4 t)
                  (p3_y axis1) (p3_y axis2) y (t_r2c4 t)
                  (p3_z axis1) (p3_z axis2) z (t_r3c4 t)))) =
  Ok (mkTransform x1 (y*z1-z*y1) x (t_r1c4 t) y1 (z*x1-x*z1) y (t_r2c4 t) z1 (x*y1-y*x1) z (t_r3c4 t)).
Proof.
  intros x y z a b c r t hu ho hr rp.
  exists (a*(1/r)), (b*(1/r)), (c*(1/r)).
  assert (U := inv_unit a b c r ltac:(lra) hr).
  assert (O : a*(1/r)*x+b*(1/r)*y+c*(1/r)*z = 0).
  { transitivity ((a*x+b*y+c*z)*(1/r)); [ring|]. rewrite ho. ring. }
  split; [exact U|]. split; [exact O|].
  rewrite (p3_normalize_ok a b c r hr rp). cbn [rbind].
  unfold p3_crossProduct. cbn [p3_x p3_y p3_z s_sub s_mul RScalar].
  rewrite (p3_normalize_ok _ _ _ 1); [|revert U O; generalize (a*(1/r)) (b*(1/r)) (c*(1/r)); clear - hu; intros; nsatz|lra].
  cbn [rbind p3_x p3_y p3_z]. f_equal.
  destruct t. cbn. rec_eq; field; lra.
Qed.

Lemma os_start : forall (vx0 vy0 vz0 s : R) (t : Transform R), s*s = vx0*vx0+vy0*vy0+vz0*vz0 -> 0 < s ->
  let x := vx0*(1/s) in let y := vy0*(1/s) in let z := vz0*(1/s) in
  orthogonalSpaceInto (mkPosition3D vx0 vy0 vz0) t =
  (let axis := if Rltb (1/10000) (Rabs x) then mkPosition3D (-y) x 0
    else if Rltb (1/10000) (Rabs y) then mkPosition3D 0 (-z) y else mkPosition3D z 0 0 in
   rbind (p3_normalize axis) (fun axis1 =>
   rbind (p3_normalize (p3_crossProduct (mkPosition3D x y z) axis1)) (fun axis2 =>
   Ok (mkTransform (p3_x axis1) (p3_x axis2) x (t_r1c4 t)
                  (p3_y axis1) (p3_y axis2) y (t_r2c4 t)
                  (p3_z axis1) (p3_z axis2) z (t_r3c4 t))))).
Proof.
  intros * e h x y z. unfold orthogonalSpaceInto. rewrite (p3_div_ok _ _ _ s e h). reflexivity.
Qed.

Lemma sq_lt_1 : forall x, Rabs x <= 1/10000 -> x*x <= 1/100000000.
Proof. intros x h. destruct (Rabs_cases x) as [[h0 e]|[h0 e]]; rewrite e in h; nra. Qed.

Lemma Rabs_sq_pos : forall x, 1/10000 < Rabs x -> 0 < x*x.
Proof. intros x h. destruct (Rabs_cases x) as [[h0 e]|[h0 e]]; rewrite e in h; nra. Qed.

Lemma C22_orthogonalSpace_throws_proof : forall v : Position3D R,
  orthogonalSpace v = Throw <-> v = mkPosition3D 0 0 0.
Proof.
  intros [vx0 vy0 vz0]. split.
  - intro h. destruct (Req_dec (vx0*vx0+vy0*vy0+vz0*vz0) 0) as [e|n].
    + destruct (sum3sq_0 _ _ _ e) as (->&->&->). reflexivity.
    + exfalso. destruct (sqrt_ex (vx0*vx0+vy0*vy0+vz0*vz0)) as (s&_&hs&ss); [apply sum3sq_pos|].
      assert (s0 : 0 < s) by (destruct hs; [assumption|subst s; lra]).
      unfold orthogonalSpace in h. rewrite (os_start _ _ _ s _ ss s0) in h. cbv zeta in h.
      assert (U := inv_unit vx0 vy0 vz0 s ltac:(lra) ss).
      set (x := vx0*(1/s)) in *. set (y := vy0*(1/s)) in *. set (z := vz0*(1/s)) in *. clearbody x y z.
      assert (G : forall a b c, a*x+b*y+c*z = 0 -> 0 < a*a+b*b+c*c ->
        rbind (p3_normalize (mkPosition3D a b c)) (fun axis1 =>
        rbind (p3_normalize (p3_crossProduct (mkPosition3D x y z) axis1)) (fun axis2 =>
        Ok (mkTransform (p3_x axis1) (p3_x axis2) x (t_r1c4 t_id)
                  (p3_y axis1) (p3_y axis2) y (t_r2c4 t_id)
                  (p3_z axis1) (p3_z axis2) z (t_r3c4 t_id)))) <> Throw).
      { intros a b c o p. destruct (sqrt_ex (a*a+b*b+c*c)) as (r&_&hr&rr); [lra|].
        destruct (os_end x y z a b c r t_id U o rr) as (x1&y1&z1&_&_&E); [nra|]. rewrite E. discriminate. }
      destruct (Rltb_spec (1/10000) (Rabs x)) as [l|l].
      { apply Rabs_sq_pos in l. revert h. apply G; [ring|]. nra. }
      destruct (Rltb_spec (1/10000) (Rabs y)) as [l'|l'].
      { apply Rabs_sq_pos in l'. revert h. apply G; [ring|]. nra. }
      assert (X := sq_lt_1 x ltac:(lra)). assert (Y := sq_lt_1 y ltac:(lra)).
      assert (Z : 1/2 < z*z) by lra.
      destruct (sqrt_ex (z*z+0*0+0*0)) as (r&_&hr&rr); [nra|].
      assert (r0 : 0 < r) by nra.
      rewrite (p3_normalize_ok z 0 0 r rr r0) in h. cbn [rbind] in h.
      unfold p3_crossProduct in h. cbn [p3_x p3_y p3_z s_sub s_mul RScalar] in h.
      set (e := z*(1/r)) in *. assert (ee : e*e = 1).
      { unfold e. transitivity ((z*z)/(r*r)); [field; lra|]. replace (r*r) with (z*z) by lra. field. intro K; rewrite K in Z; lra. }
      match type of h with rbind (p3_normalize (mkPosition3D ?a ?b ?c)) _ = _ =>
        destruct (sqrt_ex (a*a+b*b+c*c)) as (q&_&hq&qq); [apply sum3sq_pos|];
        rewrite (p3_normalize_ok a b c q qq) in h end.
      * discriminate.
      * destruct hq as [hq|hq]; [exact hq|]. exfalso. rewrite <- hq in qq.
        assert (K : z*z*(e*e) + y*y*(e*e) = 0) by (ring_simplify in qq; nra).
        rewrite ee in K. assert (Y0 := Rle_0_sqr y). unfold Rsqr in Y0. lra.
  - intro h. injection h as -> -> ->. unfold orthogonalSpace, orthogonalSpaceInto, p3_div, p3_norm. cbn.
    replace (0*0+0*0+0*0) with 0 by ring. rewrite sqrt_0. rewrite Reqb_true by reflexivity. reflexivity.
Qed.


(** C22: for a vector with a component x or y above 1e-4 times its norm, or with x = 0,
    orthogonalSpace is a rigid transform whose z axis is the normalised vector. *)
Lemma C22_orthogonalSpace_if_proof : forall (v : Position3D R), v <> mkPosition3D 0 0 0 ->
  (1/10000 * p3_norm v < Rabs (p3_x v) \/ 1/10000 * p3_norm v < Rabs (p3_y v) \/ p3_x v = 0) ->
  exists t, orthogonalSpace v = Ok t /\ rigid t /\ tpos t = (0,0,0) /\
  (t_r1c3 t, t_r2c3 t, t_r3c3 t) = vscale (1 / p3_norm v) (p3v v).
Proof.
  intros [vx0 vy0 vz0] hv H.
  destruct (sqrt_ex (vx0*vx0+vy0*vy0+vz0*vz0)) as (s&es&hs&ss); [apply sum3sq_pos|].
  assert (s0 : 0 < s).
  { destruct hs as [|hs]; [assumption|]. exfalso. apply hv. rewrite <- hs in ss.
    destruct (sum3sq_0 vx0 vy0 vz0) as (->&->&->); [lra|reflexivity]. }
  assert (EN : p3_norm (mkPosition3D vx0 vy0 vz0) = s) by exact es.
  rewrite EN in *. cbn [p3_x p3_y] in H.
  unfold orthogonalSpace. rewrite (os_start _ _ _ s _ ss s0). cbv zeta.
  assert (U := inv_unit vx0 vy0 vz0 s ltac:(lra) ss).
  assert (AB : forall q, Rabs (q*(1/s)) = Rabs q / s).
  { intro q. rewrite Rabs_mult. rewrite (Rabs_right (1/s)); [field; lra|].
    left. apply Rdiv_lt_0_compat; lra. }
  assert (HX : 1/10000 * s < Rabs vx0 <-> 1/10000 < Rabs (vx0*(1/s))).
  { rewrite AB. split; intro h.
    - apply Rmult_lt_reg_r with s; [exact s0|]. replace (Rabs vx0/s*s) with (Rabs vx0) by (field; lra). exact h.
    - apply Rmult_lt_compat_r with (r := s) in h; [|exact s0]. replace (Rabs vx0/s*s) with (Rabs vx0) in h by (field; lra). exact h. }
  assert (HY : 1/10000 * s < Rabs vy0 <-> 1/10000 < Rabs (vy0*(1/s))).
  { rewrite AB. split; intro h.
    - apply Rmult_lt_reg_r with s; [exact s0|]. replace (Rabs vy0/s*s) with (Rabs vy0) by (field; lra). exact h.
    - apply Rmult_lt_compat_r with (r := s) in h; [|exact s0]. replace (Rabs vy0/s*s) with (Rabs vy0) in h by (field; lra). exact h. }
  rewrite HX, HY in H. clear HX HY AB.
  assert (H0 : vx0 = 0 -> vx0*(1/s) = 0) by (intros ->; ring).
  assert (EZ : vscale (1/s) (p3v (mkPosition3D vx0 vy0 vz0)) = (vx0*(1/s), vy0*(1/s), vz0*(1/s))).
  { unfold vscale, p3v, vx, vy, vz. cbn. pair_eq; ring. }
  rewrite EZ. clear EZ.
  set (x := vx0*(1/s)) in *. set (y := vy0*(1/s)) in *. set (z := vz0*(1/s)) in *. clearbody x y z.
  assert (G : forall a b c, a*x+b*y+c*z = 0 -> 0 < a*a+b*b+c*c -> exists t,
        rbind (p3_normalize (mkPosition3D a b c)) (fun axis1 =>
        rbind (p3_normalize (p3_crossProduct (mkPosition3D x y z) axis1)) (fun axis2 =>
        Ok (mkTransform (p3_x axis1) (p3_x axis2) x (t_r1c4 t_id)
                  (p3_y axis1) (p3_y axis2) y (t_r2c4 t_id)
                  (p3_z axis1) (p3_z axis2) z (t_r3c4 t_id)))) = Ok t /\
        rigid t /\ tpos t = (0,0,0) /\ (t_r1c3 t, t_r2c3 t, t_r3c3 t) = (x,y,z)).
  { intros a b c o p. destruct (sqrt_ex (a*a+b*b+c*c)) as (r&_&hr&rr); [lra|].
    destruct (os_end x y z a b c r t_id U o rr) as (x1&y1&z1&u1&o1&E); [nra|]. rewrite E.
    eexists. split; [reflexivity|]. split; [|split; reflexivity].
    apply rigid_mk. apply (so3_frame x y z x1 y1 z1 U u1 o1). }
  destruct (Rltb_spec (1/10000) (Rabs x)) as [l|l].
  { apply Rabs_sq_pos in l. apply G; [ring|]. nra. }
  destruct (Rltb_spec (1/10000) (Rabs y)) as [l'|l'].
  { apply Rabs_sq_pos in l'. apply G; [ring|]. nra. }
  assert (x0 : x = 0) by (destruct H as [H|[H|H]]; [lra|lra|auto]). rewrite x0 in *.
  assert (X := sq_lt_1 0 ltac:(rewrite Rabs_R0; lra)). assert (Y := sq_lt_1 y ltac:(lra)).
  apply G; [ring|]. lra.
Qed.

Lemma C22_orthogonalSpace_isTransform_proof : forall (v : Position3D R), v <> mkPosition3D 0 0 0 ->
  exists t, orthogonalSpace v = Ok t /\ t_isTransform t (1/10000) = true /\
  (t_r1c3 t, t_r2c3 t, t_r3c3 t) = vscale (1 / p3_norm v) (p3v v).
Proof.
  intros [vx0 vy0 vz0] hv.
  destruct (sqrt_ex (vx0*vx0+vy0*vy0+vz0*vz0)) as (s&es&hs&ss); [apply sum3sq_pos|].
  assert (s0 : 0 < s).
  { destruct hs as [|hs]; [assumption|]. exfalso. apply hv. rewrite <- hs in ss.
    destruct (sum3sq_0 vx0 vy0 vz0) as (->&->&->); [lra|reflexivity]. }
  assert (EN : p3_norm (mkPosition3D vx0 vy0 vz0) = s) by exact es.
  rewrite EN in *.
  unfold orthogonalSpace. rewrite (os_start _ _ _ s _ ss s0). cbv zeta.
  assert (U := inv_unit vx0 vy0 vz0 s ltac:(lra) ss).
  assert (EZ : vscale (1/s) (p3v (mkPosition3D vx0 vy0 vz0)) = (vx0*(1/s), vy0*(1/s), vz0*(1/s))).
  { unfold vscale, p3v, vx, vy, vz. cbn. pair_eq; ring. }
  rewrite EZ. clear EZ.
  set (x := vx0*(1/s)) in *. set (y := vy0*(1/s)) in *. set (z := vz0*(1/s)) in *. clearbody x y z.
  assert (G : forall a b c, a*x+b*y+c*z = 0 -> 0 < a*a+b*b+c*c -> exists t,
        rbind (p3_normalize (mkPosition3D a b c)) (fun axis1 =>
        rbind (p3_normalize (p3_crossProduct (mkPosition3D x y z) axis1)) (fun axis2 =>
        Ok (mkTransform (p3_x axis1) (p3_x axis2) x (t_r1c4 t_id)
                  (p3_y axis1) (p3_y axis2) y (t_r2c4 t_id)
                  (p3_z axis1) (p3_z axis2) z (t_r3c4 t_id)))) = Ok t /\
        t_isTransform t (1/10000) = true /\ (t_r1c3 t, t_r2c3 t, t_r3c3 t) = (x,y,z)).
  { intros a b c o p. destruct (sqrt_ex (a*a+b*b+c*c)) as (r&_&hr&rr); [lra|].
    destruct (os_end x y z a b c r t_id U o rr) as (x1&y1&z1&u1&o1&E); [nra|]. rewrite E.
    eexists. split; [reflexivity|]. split; [|reflexivity].
    apply C07_isTransform_iff_proof. rewrite tmat_mk. apply near_rotation_mono with 0; [lra|].
    apply near_0_proper. apply (so3_frame x y z x1 y1 z1 U u1 o1). }
  destruct (Rltb_spec (1/10000) (Rabs x)) as [l|l].
  { apply Rabs_sq_pos in l. apply G; [ring|]. nra. }
  destruct (Rltb_spec (1/10000) (Rabs y)) as [l'|l'].
  { apply Rabs_sq_pos in l'. apply G; [ring|]. nra. }
  clear G. apply Rnot_lt_le in l. apply Rnot_lt_le in l'.
  assert (X := sq_lt_1 x l). assert (Y := sq_lt_1 y l').
  assert (X0 : 0 <= x*x) by exact (Rle_0_sqr x). assert (Y0 : 0 <= y*y) by exact (Rle_0_sqr y).
  assert (Z : 1/2 < z*z) by lra.
  destruct (sqrt_ex (z*z+0*0+0*0)) as (r&_&hr&rr); [lra|].
  assert (r0 : 0 < r) by nra.
  rewrite (p3_normalize_ok z 0 0 r rr r0). cbn [rbind].
  unfold p3_crossProduct. cbn [p3_x p3_y p3_z s_sub s_mul RScalar].
  set (e := z*(1/r)) in *. assert (ee : e*e = 1).
  { unfold e. transitivity ((z*z)/(r*r)); [field; lra|]. replace (r*r) with (z*z) by lra. field. intro K; rewrite K in Z; lra. }
  clearbody e.
  destruct (sqrt_ex (1-x*x)) as (q&_&hq&qq); [lra|].
  assert (q0 : 0 < q) by nra. assert (q1 : q <= 1) by nra. assert (q2 : 1 - x*x <= q) by nra.
  rewrite (p3_normalize_ok _ _ _ q); [|nra|exact q0]. cbn [rbind p3_x p3_y p3_z].
  eexists. split; [reflexivity|]. split; [|reflexivity].
  apply C07_isTransform_iff_proof. rewrite tmat_mk.
  (* simplify the coefficients *)
  replace (z*(0*(1/r)) - z*(0*(1/r))) with 0 by ring.
  set (M := of_rows _ _ _ _ _ _ _ _ _).
  assert (EM : forall i j, M i j = of_rows e 0 x 0 (z*e/q) y 0 (-(y*e)/q) z i j).
  { intros i j. unfold M, of_rows. destruct i as [|[|[|i]]]; destruct j as [|[|[|j]]]; try reflexivity; try ring; field; lra. }
  assert (near : near_rotation (of_rows e 0 x 0 (z*e/q) y 0 (-(y*e)/q) z) (1/10000)).
  { unfold near_rotation. split; [|split].
    - intros i j hij.
      assert (Hc : ((i = 0 /\ j = 1) \/ (i = 0 /\ j = 2) \/ (i = 1 /\ j = 2))%nat) by lia.
      destruct Hc as [[-> ->]|[[-> ->]|[-> ->]]]; unfold cdot, sum3, of_rows.
      + match goal with |- Rabs ?E <= _ => replace E with 0 by ring end. rewrite Rabs_R0. lra.
      + match goal with |- Rabs ?E <= _ => replace E with (e*x) by ring end. rewrite Rabs_mult.
        assert (Rabs e = 1). { destruct (Rabs_cases e) as [[h0 ->]|[h0 ->]]; nra. } rewrite H, Rmult_1_l. exact l.
      + match goal with |- Rabs ?E <= _ => replace E with 0 by (field; lra) end. rewrite Rabs_R0. lra.
    - intros i hi. assert (Hc : (i = 0 \/ i = 1 \/ i = 2)%nat) by lia.
      assert (IQ : 1 <= 1/(q*q) <= 100000002/100000000).
      { rewrite qq. split.
        - apply Rmult_le_reg_r with (1-x*x); [lra|]. replace (1/(1-x*x)*(1-x*x)) with 1 by (field; lra). lra.
        - apply Rmult_le_reg_r with (1-x*x); [lra|]. replace (1/(1-x*x)*(1-x*x)) with 1 by (field; lra). lra. }
      assert (W : forall k, k*e/q*(k*e/q) = k*k*(1/(q*q))).
      { intro k. transitivity (k*k*(e*e)/(q*q)); [field; lra|]. rewrite ee. field. lra. }
      destruct Hc as [->|[->| ->]]; unfold rnorm2, sum3, of_rows.
      + match goal with |- Rabs ?E <= _ => replace E with (x*x) by (rewrite ee; ring) end. rewrite Rabs_right; lra.
      + rewrite W. apply Rabs_le. split; nra.
      + replace (-(y*e)/q) with ((-y)*e/q) by (field; lra). rewrite W. apply Rabs_le. split; nra.
    - unfold mdet, of_rows.
      match goal with |- Rabs ?E <= _ => replace E with (q-1) end; [apply Rabs_le; lra|].
      transitivity (e*e*((z*z+y*y)/q) - 1); [|field; lra]. rewrite ee.
      replace (z*z+y*y) with (q*q) by (rewrite qq; lra). field. lra. }
  destruct near as (n1&n2&n3). split; [|split].
  - intros i j h. unfold cdot, sum3. rewrite !EM. exact (n1 i j h).
  - intros i h. unfold rnorm2, sum3. rewrite !EM. exact (n2 i h).
  - unfold mdet. rewrite !EM. exact n3.
Qed.


(** In the last branch the first axis is the x axis, which is not orthogonal to the vector. *)
Lemma os_skew : forall (x y z : R) (t : Transform R), x*x+y*y+z*z = 1 -> x <> 0 -> 0 < z*z ->
  exists a b, a*a = 1 /\
  rbind (p3_normalize (mkPosition3D z 0 0)) (fun axis1 =>
  rbind (p3_normalize (p3_crossProduct (mkPosition3D x y z) axis1)) (fun axis2 =>
  Ok (mkTransform (p3_x axis1) (p3_x axis2) x (t_r1c4 t)
                  (p3_y axis1) (p3_y axis2) y (t_r2c4 t)
                  (p3_z axis1) (p3_z axis2) z (t_r3c4 t)))) =
  Ok (mkTransform a (p3_x b) x (t_r1c4 t) 0 (p3_y b) y (t_r2c4 t) 0 (p3_z b) z (t_r3c4 t)).
Proof.
  intros x y z t U x0 z0.
  destruct (sqrt_ex (z*z+0*0+0*0)) as (r&_&hr&rr); [nra|].
  assert (r0 : 0 < r) by nra.
  rewrite (p3_normalize_ok z 0 0 r rr r0). cbn [rbind].
  unfold p3_crossProduct. cbn [p3_x p3_y p3_z s_sub s_mul RScalar].
  set (e := z*(1/r)) in *. assert (ee : e*e = 1).
  { unfold e. transitivity ((z*z)/(r*r)); [field; lra|]. replace (r*r) with (z*z) by lra. field. intro K; rewrite K in z0; lra. }
  match goal with |- context [p3_normalize (mkPosition3D ?a ?b ?c)] =>
    destruct (sqrt_ex (a*a+b*b+c*c)) as (q&_&hq&qq); [apply sum3sq_pos|];
    rewrite (p3_normalize_ok a b c q qq) end.
  - do 2 eexists. split; [exact ee|]. cbn [rbind p3_x p3_y p3_z]. f_equal.
    instantiate (1 := mkPosition3D _ _ _). cbn [p3_x p3_y p3_z]. rec_eq; try reflexivity; ring.
  - destruct hq as [hq|hq]; [exact hq|]. exfalso. rewrite <- hq in qq.
    assert (K : z*z*(e*e) + y*y*(e*e) = 0) by (ring_simplify in qq; nra).
    rewrite ee in K. assert (Y0 := Rle_0_sqr y). unfold Rsqr in Y0. lra.
Qed.

Lemma C22_orthogonalSpace_exact_proof : forall (v : Position3D R), v <> mkPosition3D 0 0 0 ->
  exists t, orthogonalSpace v = Ok t /\ tpos t = (0,0,0) /\
  (t_r1c3 t, t_r2c3 t, t_r3c3 t) = vscale (1 / p3_norm v) (p3v v) /\
  (rigid t <-> 1/10000 * p3_norm v < Rabs (p3_x v) \/ 1/10000 * p3_norm v < Rabs (p3_y v) \/ p3_x v = 0).
Proof.
  intros v hv.
  destruct (Rlt_le_dec (1/10000 * p3_norm v) (Rabs (p3_x v))) as [a|a].
  { destruct (C22_orthogonalSpace_if_proof v hv) as (t&e&r&p&z); [tauto|]. exists t. tauto. }
  destruct (Rlt_le_dec (1/10000 * p3_norm v) (Rabs (p3_y v))) as [b|b].
  { destruct (C22_orthogonalSpace_if_proof v hv) as (t&e&r&p&z); [tauto|]. exists t. tauto. }
  destruct (Req_dec (p3_x v) 0) as [c|c].
  { destruct (C22_orthogonalSpace_if_proof v hv) as (t&e&r&p&z); [tauto|]. exists t. tauto. }
  destruct v as [vx0 vy0 vz0].
  destruct (sqrt_ex (vx0*vx0+vy0*vy0+vz0*vz0)) as (s&es&hs&ss); [apply sum3sq_pos|].
  assert (s0 : 0 < s).
  { destruct hs as [|hs]; [assumption|]. exfalso. apply hv. rewrite <- hs in ss.
    destruct (sum3sq_0 vx0 vy0 vz0) as (->&->&->); [lra|reflexivity]. }
  assert (EN : p3_norm (mkPosition3D vx0 vy0 vz0) = s) by exact es.
  rewrite EN in *. cbn [p3_x p3_y] in a, b, c |- *.
  assert (EZ : vscale (1/s) (p3v (mkPosition3D vx0 vy0 vz0)) = (vx0*(1/s), vy0*(1/s), vz0*(1/s))).
  { unfold vscale, p3v, vx, vy, vz. cbn. pair_eq; ring. }
  rewrite EZ. clear EZ.
  unfold orthogonalSpace. rewrite (os_start _ _ _ s _ ss s0). cbv zeta.
  assert (U := inv_unit vx0 vy0 vz0 s ltac:(lra) ss).
  assert (AB : forall q, Rabs q <= 1/10000 * s -> Rabs (q*(1/s)) <= 1/10000).
  { intros q h. rewrite Rabs_mult. rewrite (Rabs_right (1/s)) by (left; apply Rdiv_lt_0_compat; lra).
    apply Rmult_le_reg_r with s; [exact s0|]. replace (Rabs q*(1/s)*s) with (Rabs q) by (field; lra). exact h. }
  assert (A := AB _ a). assert (B := AB _ b).
  rewrite (Rltb_false (1/10000) (Rabs (vx0*(1/s)))), (Rltb_false (1/10000) (Rabs (vy0*(1/s)))) by assumption.
  assert (C : vx0*(1/s) <> 0).
  { intro K. apply c. replace vx0 with (vx0*(1/s)*s) by (field; lra). rewrite K. ring. }
  assert (X := sq_lt_1 _ A). assert (Y := sq_lt_1 _ B).
  destruct (os_skew (vx0*(1/s)) (vy0*(1/s)) (vz0*(1/s)) t_id U C) as (d&f&dd&E); [lra|].
  rewrite E. eexists. split; [reflexivity|]. split; [reflexivity|]. split; [reflexivity|]. split.
  - rewrite rigid_mk. intros [(h1&h2&h3&h4&h5&h6) _]. exfalso.
    apply C. revert h5 dd. generalize (vx0*(1/s)). clear. intros. nra.
  - intros [H|[H|H]]; [lra|lra|contradiction].
Qed.


Lemma C22_orthogonalSpace_refuted_proof : exists t,
  orthogonalSpace (mkPosition3D 80000 0 1599999999) = Ok t /\ ~ rigid t /\
  cdot (tmat t) 0 2 = 80000/1600000001.
Proof.
  assert (ss : 1600000001*1600000001 = 80000*80000+0*0+1599999999*1599999999) by lra.
  unfold orthogonalSpace. rewrite (os_start _ _ _ 1600000001 _ ss) by lra. cbv zeta.
  replace (0*(1/1600000001)) with 0 by ring.
  rewrite (Rabs_right (80000*(1/1600000001))) by lra.
  rewrite (Rltb_false (1/10000) (80000*(1/1600000001))) by lra.
  rewrite Rabs_R0. rewrite Rltb_false by lra.
  set (z := 1599999999*(1/1600000001)). set (x := 80000*(1/1600000001)).
  assert (zx : z*z = 1-x*x) by (unfold z, x; lra).
  assert (z0 : 0 < z) by (unfold z; lra).
  rewrite (p3_normalize_ok z 0 0 z) by (try ring; exact z0). cbn [rbind].
  unfold p3_crossProduct. cbn [p3_x p3_y p3_z s_sub s_mul RScalar].
  assert (e1 : z*(1/z) = 1) by (field; lra). rewrite e1. 
  rewrite (p3_normalize_ok _ _ _ z) by (try ring; exact z0). cbn [rbind p3_x p3_y p3_z].
  eexists. split; [reflexivity|]. split.
  - rewrite rigid_mk. intros [(h1&h2&h3&h4&h5&h6) _].
    assert (x = 0). { revert h5 h6 h4. clear - z0. intros. nra. }
    unfold x in H. lra.
  - unr. unfold x. field.
Qed.


Lemma C22_rotationFromAxes_proof : forall a b : Position3D R,
  vdot (p3v a) (p3v a) = 1 -> vdot (p3v b) (p3v b) = 1 -> vdot (p3v a) (p3v b) = 0 ->
  let col (r : Rotation R) (k : nat) := (rmat r 0%nat k, rmat r 1%nat k, rmat r 2%nat k) in
  exists r s t, rotationFromAxesXY a b = Ok r /\ rotationFromAxesXZ a b = Ok s /\ rotationFromAxesYZ a b = Ok t /\
  is_rot r /\ col r 0%nat = p3v a /\ col r 1%nat = p3v b /\
  is_rot s /\ col s 0%nat = p3v a /\ col s 2%nat = p3v b /\
  is_rot t /\ col t 1%nat = p3v a /\ col t 2%nat = p3v b.
Proof.
  intros [a1 a2 a3] [b1 b2 b3] ha hb hab col.
  unfold vdot, p3v, vx, vy, vz in ha, hb, hab. cbn in ha, hb, hab.
  assert (UN : forall x y z, x*x+y*y+z*z = 1 -> p3_isUnitVector (mkPosition3D x y z) unit_eps = true).
  { intros x y z h. unfold p3_isUnitVector, p3_norm, unit_eps. cbn. rewrite h, sqrt_1.
    replace (1-1) with 0 by ring. rewrite Rabs_R0. apply Rleb_true. lra. }
  assert (OR : forall x y z u v w, x*u+y*v+z*w = 0 ->
    p3_isOrthogonal (mkPosition3D x y z) (mkPosition3D u v w) (s_frac 1 1000) = true).
  { intros x y z u v w h. unfold p3_isOrthogonal, p3_dotProduct. cbn. rewrite h, Rabs_R0. apply Rleb_true. lra. }
  do 3 eexists.
  split; [|split; [|split]].
  - unfold rotationFromAxesXY, rotationFromAxesXYZ, p3_crossProduct.
    cbn [p3_x p3_y p3_z s_sub s_mul RScalar].
    rewrite !UN, !OR by first [exact ha | exact hb | nsatz]. cbn [assert_]. reflexivity.
  - unfold rotationFromAxesXZ, rotationFromAxesXYZ, p3_crossProduct.
    cbn [p3_x p3_y p3_z s_sub s_mul RScalar].
    rewrite !UN, !OR by first [exact ha | exact hb | nsatz]. cbn [assert_]. reflexivity.
  - unfold rotationFromAxesYZ, rotationFromAxesXYZ, p3_crossProduct.
    cbn [p3_x p3_y p3_z s_sub s_mul RScalar].
    rewrite !UN, !OR by first [exact ha | exact hb | nsatz]. cbn [assert_]. reflexivity.
  - rewrite !is_rot_mk. unfold col. rewrite !rmat_mk.
    split; [repeat split; nsatz|]. split; [reflexivity|]. split; [reflexivity|].
    split; [repeat split; nsatz|]. split; [reflexivity|]. split; [reflexivity|].
    split; [repeat split; nsatz|]. split; reflexivity.
Qed.


Lemma C22_rotationFromAxes_rejects_proof : forall a b : Position3D R,
  (1/10000 < Rabs (1 - vnorm (p3v a)) \/ 1/10000 < Rabs (1 - vnorm (p3v b)) \/
   1/1000 < Rabs (vdot (p3v a) (p3v b))) ->
  rotationFromAxesXY a b = Abort /\ rotationFromAxesXZ a b = Abort /\ rotationFromAxesYZ a b = Abort.
Proof.
  intros a b H. unfold rotationFromAxesXY, rotationFromAxesXZ, rotationFromAxesYZ.
  assert (A : p3_isUnitVector a unit_eps = Rleb (Rabs (1 - vnorm (p3v a))) (1/10000)) by reflexivity.
  assert (B : p3_isUnitVector b unit_eps = Rleb (Rabs (1 - vnorm (p3v b))) (1/10000)) by reflexivity.
  assert (C : p3_isOrthogonal a b (s_frac 1 1000) = Rleb (Rabs (vdot (p3v a) (p3v b))) (1/1000)) by reflexivity.
  rewrite A, B, C.
  destruct H as [h|[h|h]].
  - rewrite (Rleb_false (Rabs (1 - vnorm (p3v a)))) by lra. repeat split.
  - rewrite (Rleb_false (Rabs (1 - vnorm (p3v b)))) by lra.
    destruct (Rleb (Rabs (1 - vnorm (p3v a))) _); repeat split.
  - rewrite (Rleb_false (Rabs (vdot _ _))) by lra.
    destruct (Rleb (Rabs (1 - vnorm (p3v a))) _); destruct (Rleb (Rabs (1 - vnorm (p3v b))) _); repeat split.
Qed.




Lemma proj_rod : forall x y z th, x*x+y*y+z*z = 1 ->
  turns_about (rmat (axisProj_matrix x y z (1 - cos th) (sin th))) th (x,y,z).
Proof.
  intros x y z th h. split; [exact h|]. intros [[p q] r].
  unfold axisProj_matrix, s_pow2. rewrite rmat_mk.
  unfold mapply, of_rows, rodrigues, vadd, vscale, vcross, vdot, vx, vy, vz.
  cbn [fst snd s_add s_sub s_mul s_neg s_ofZ RScalar].
  generalize (cos th) (sin th). intros c s. pair_eq; nsatz.
Qed.

Lemma C23_turns_about_axis_proof : forall (axis : Position3D R) (m r : Rotation R),
  axisRotationProjection axis m = Ok r ->
  let u := vscale (1 / p3_norm axis) (p3v axis) in
  (let '(x, y, z) := u in ~ (axisProj_a x y z m = 0 /\ axisProj_b x y z m = 0)) ->
  exists th, turns_about (rmat r) th u.
Proof.
  intros [ax ay az] m r h u _.
  unfold axisRotationProjection, axisRotationProjectionInPlace in h.
  cbn [s_eqb s_ltb s_ofZ RScalar] in h.
  destruct (Reqb_spec (p3_norm (mkPosition3D ax ay az)) 0) as [e|n]; [discriminate|].
  destruct (sqrt_ex (ax*ax+ay*ay+az*az)) as (s&es&hs&ss); [apply sum3sq_pos|].
  assert (EN : p3_norm (mkPosition3D ax ay az) = s) by exact es.
  subst u. rewrite EN in *. cbv zeta in h. cbn [p3_x p3_y p3_z s_mul s_div s_ofZ RScalar] in h.
  assert (UE : vscale (1/s) (p3v (mkPosition3D ax ay az)) = (1/s*ax, 1/s*ay, 1/s*az)) by reflexivity.
  rewrite UE.
  assert (U : 1/s*ax*(1/s*ax)+1/s*ay*(1/s*ay)+1/s*az*(1/s*az) = 1).
  { etransitivity; [|exact (inv_unit ax ay az s n ss)]. ring. }
  revert h U. generalize (1/s*ax) (1/s*ay) (1/s*az). clear. intros x y z h U.
  destruct (Rltb _ 0); [discriminate|].
  destruct (Rltb _ _).
  - injection h as <-. eexists. apply proj_rod. exact U.
  - injection h as <-. eexists. apply proj_rod. exact U.
Qed.


Lemma C23_null_axis_throws_proof : forall m : Rotation R, axisRotationProjection (mkPosition3D 0 0 0) m = Throw.
Proof.
  intro m. unfold axisRotationProjection, axisRotationProjectionInPlace, p3_norm. cbn [p3_x p3_y p3_z s_add s_mul s_sqrt s_eqb s_ofZ RScalar].
  replace (0*0+0*0+0*0) with 0 by ring. rewrite sqrt_0. rewrite Reqb_true by reflexivity. reflexivity.
Qed.


Lemma Ok_inj : forall {A} (a b : A), Ok a = Ok b -> a = b.
Proof. intros A a b h. congruence. Qed.

Lemma acos_0' : acos 0 = PI/2.
Proof. exact acos_0. Qed.

Lemma C23_fixes_rotations_plane_proof : forall (axis : Position3D R) (m : Rotation R) (th : R),
  axis <> mkPosition3D 0 0 0 -> p3_x axis * p3_y axis * p3_z axis = 0 ->
  turns_about (rmat m) th (vscale (1 / p3_norm axis) (p3v axis)) ->
  axisRotationProjection axis m = Ok m.
Proof.
  intros [ax ay az] m th hv hm ht.
  destruct (sqrt_ex (ax*ax+ay*ay+az*az)) as (s&es&hs&ss); [apply sum3sq_pos|].
  assert (n : s <> 0).
  { intro h0. apply hv. rewrite h0 in ss. destruct (sum3sq_0 ax ay az) as (->&->&->); [lra|reflexivity]. }
  assert (EN : p3_norm (mkPosition3D ax ay az) = s) by exact es.
  unfold axisRotationProjection, axisRotationProjectionInPlace. rewrite EN in *.
  cbn [s_eqb s_ltb s_ofZ RScalar]. rewrite Reqb_false by exact n.
  cbv zeta. cbn [p3_x p3_y p3_z s_mul s_div s_ofZ RScalar] in *.
  assert (UE : vscale (1/s) (p3v (mkPosition3D ax ay az)) = (1/s*ax, 1/s*ay, 1/s*az)) by reflexivity.
  rewrite UE in ht. clear UE.
  assert (U : 1/s*ax*(1/s*ax)+1/s*ay*(1/s*ay)+1/s*az*(1/s*az) = 1).
  { etransitivity; [|exact (inv_unit ax ay az s n ss)]. ring. }
  assert (M0 : 1/s*ax*(1/s*ay)*(1/s*az) = 0).
  { transitivity ((ax*ay*az)*(1/s*(1/s)*(1/s))); [ring|]. rewrite hm. ring. }
  revert ht U M0. generalize (1/s*ax) (1/s*ay) (1/s*az). clear - hs. intros x y z ht U M0.
  (* the coefficients of m *)
  assert (hr : rod9 (cos th) (sin th) x y z (m_r1c1 m) (m_r1c2 m) (m_r1c3 m) (m_r2c1 m) (m_r2c2 m) (m_r2c3 m)
       (m_r3c1 m) (m_r3c2 m) (m_r3c3 m)).
  { destruct m as [a b c d e f g h i].
    apply (turns_rod9 (mkTransform a b c 0 d e f 0 g h i 0) th x y z). rewrite tmat_mk.
    rewrite rmat_mk in ht. exact ht. }
  destruct m as [a b c d e f g h i]. cbn [m_r1c1 m_r1c2 m_r1c3 m_r2c1 m_r2c2 m_r2c3 m_r3c1 m_r3c2 m_r3c3] in hr.
  destruct hr as (->&->&->&->&->&->&->&->&->).
  set (m := mkRotation _ _ _ _ _ _ _ _ _).
  assert (CS := cs2 th).
  assert (EA : axisProj_a x y z m = - sin th).
  { unfold axisProj_a, m. cbn [m_r1c1 m_r1c2 m_r1c3 m_r2c1 m_r2c2 m_r2c3 m_r3c1 m_r3c2 m_r3c3 s_add s_sub s_mul s_neg RScalar].
    revert CS. generalize (cos th) (sin th). intros C S CS. clear - U M0. nsatz. }
  assert (EB : axisProj_b x y z m = cos th).
  { unfold axisProj_b, m. cbn [m_r1c1 m_r1c2 m_r1c3 m_r2c1 m_r2c2 m_r2c3 m_r3c1 m_r3c2 m_r3c3 s_add s_sub s_mul s_neg RScalar].
    generalize (cos th) (sin th). intros C S. clear - U M0. nsatz. }
  assert (EC : axisProj_c x y z m = 0).
  { unfold axisProj_c, m. cbn [m_r1c1 m_r1c2 m_r1c3 m_r2c1 m_r2c2 m_r2c3 m_r3c1 m_r3c2 m_r3c3 s_add s_sub s_mul s_neg RScalar].
    generalize (cos th) (sin th). intros C S. clear - U M0. nsatz. }
  rewrite EA, EB, EC. cbn [s_add s_sub s_mul s_div s_neg s_sqrt s_acos s_atan2 s_cos s_sin s_ofZ RScalar].
  replace (- sin th * - sin th + cos th * cos th) with 1 by lra.
  rewrite (Rltb_false _ 0) by lra. rewrite sqrt_1. replace (0/1) with 0 by field. rewrite acos_0'.
  destruct (Ratan2_unit (- sin th) (cos th)) as [c1 s1]; [lra|].
  rewrite cos_plus, cos_minus, sin_plus, sin_minus, cos_PI2, sin_PI2, c1, s1.
  replace (- sin th * 0 - cos th * 1) with (- cos th) by ring.
  replace (- sin th * 0 + cos th * 1) with (cos th) by ring.
  replace (cos th * 0 + - sin th * 1) with (- sin th) by ring.
  replace (cos th * 0 - - sin th * 1) with (sin th) by ring.
  assert (T : forall C S, axisProj_trace x y z (1 - C) S m = 1 + 2*(C * cos th + S * sin th)).
  { intros C S. unfold axisProj_trace, m, s_pow2.
    cbn [m_r1c1 m_r1c2 m_r1c3 m_r2c1 m_r2c2 m_r2c3 m_r3c1 m_r3c2 m_r3c3 s_add s_sub s_mul s_neg s_ofZ RScalar].
    generalize (cos th) (sin th). intros C' S'. clear - U. nsatz. }
  rewrite !T. rewrite Rltb_true by lra.
  f_equal. unfold axisProj_matrix, m, s_pow2. cbn [s_add s_sub s_mul s_neg s_ofZ RScalar].
  generalize (cos th) (sin th). intros C' S'. clear - U. rec_eq; nsatz.
Qed.


Lemma C23_idempotent_plane_proof : forall (axis : Position3D R) (m r : Rotation R),
  axis <> mkPosition3D 0 0 0 -> p3_x axis * p3_y axis * p3_z axis = 0 ->
  (let '(x, y, z) := vscale (1 / p3_norm axis) (p3v axis) in ~ (axisProj_a x y z m = 0 /\ axisProj_b x y z m = 0)) ->
  axisRotationProjection axis m = Ok r -> axisRotationProjection axis r = Ok r.
Proof.
  intros axis m r hv hm hn h. destruct (C23_turns_about_axis_proof axis m r h hn) as (th&ht).
  apply (C23_fixes_rotations_plane_proof axis r th hv hm ht).
Qed.



(** The two angles tried solve a cos + b sin = c. *)
Lemma proj_angles : forall a b c, 0 < a*a+b*b -> 0 <= a*a+b*b-c*c ->
  let al := Ratan2 b a in let be := acos (c / sqrt (a*a+b*b)) in
  (a * cos (al + be) + b * sin (al + be) = c /\ a * cos (al - be) + b * sin (al - be) = c) /\
  (forall C S, C*C+S*S = 1 -> a*C + b*S = c ->
   (C = cos (al + be) /\ S = sin (al + be)) \/ (C = cos (al - be) /\ S = sin (al - be))).
Proof.
  intros a b c hp hd al be.
  destruct (sqrt_ex (a*a+b*b)) as (r&er&hr&rr); [lra|].
  assert (r0 : 0 < r) by nra.
  destruct (Ratan2_cos_sin b a) as [hc hs]; [lra|]. fold al in hc, hs. rewrite er in hc, hs.
  assert (EA : a = r * cos al) by (rewrite hc; field; lra).
  assert (EB : b = r * sin al) by (rewrite hs; field; lra).
  assert (BE : cos be = c / r).
  { unfold be. rewrite er. apply cos_acos.
    assert (k : c*c <= r*r) by lra.
    split; apply Rmult_le_reg_r with r; try exact r0; replace (c/r*r) with c by (field; lra); nra. }
  assert (EC : c = r * cos be) by (rewrite BE; field; lra).
  assert (CA := cs2 al). assert (CB := cs2 be).
  split.
  - rewrite cos_plus, sin_plus, cos_minus, sin_minus. rewrite EC. rewrite EA, EB.
    clear EA EB EC BE hc hs. clearbody al be. clear - CA CB. revert CA CB.
    generalize (cos al) (sin al) (cos be) (sin be). intros A B C D CA CB. split; nsatz.
  - intros C S CS E. rewrite cos_plus, sin_plus, cos_minus, sin_minus.
    (* the components of (C,S) along and across (cos al, sin al) *)
    set (P := C * cos al + S * sin al). set (Q := S * cos al - C * sin al).
    assert (HP : P = cos be).
    { apply Rmult_eq_reg_l with r; [|lra]. rewrite <- EC, <- E. unfold P. transitivity (r * cos al * C + r * sin al * S); [ring|].
      rewrite <- EA, <- EB. ring. }
    assert (HQ : (Q - sin be) * (Q + sin be) = 0).
    { assert (PQ : P*P + Q*Q = 1).
      { unfold P, Q. transitivity ((C*C+S*S)*(cos al*cos al+sin al*sin al)); [ring|]. rewrite CS, CA. ring. }
      rewrite HP in PQ. nra. }
    assert (HC : C = P * cos al - Q * sin al).
    { unfold P, Q. transitivity (C*(cos al*cos al+sin al*sin al)); [rewrite CA; ring|ring]. }
    assert (HS : S = P * sin al + Q * cos al).
    { unfold P, Q. transitivity (S*(cos al*cos al+sin al*sin al)); [rewrite CA; ring|ring]. }
    apply Rmult_integral in HQ. destruct HQ as [k|k].
    + left. assert (Q = sin be) by lra. split; [rewrite HC|rewrite HS]; rewrite HP, H; ring.
    + right. assert (Q = - sin be) by lra. split; [rewrite HC|rewrite HS]; rewrite HP, H; ring.
Qed.

Lemma proj_matrix_rod : forall x y z C S, x*x+y*y+z*z = 1 ->
  axisProj_matrix x y z (1 - C) S = mkRotation (C+(1-C)*x*x) ((1-C)*x*y-S*z) ((1-C)*x*z+S*y)
    ((1-C)*x*y+S*z) (C+(1-C)*y*y) ((1-C)*y*z-S*x) ((1-C)*x*z-S*y) ((1-C)*y*z+S*x) (C+(1-C)*z*z).
Proof.
  intros x y z C S U. unfold axisProj_matrix, s_pow2. cbn [s_add s_sub s_mul s_neg s_ofZ RScalar]. rec_eq; nsatz.
Qed.
Lemma proj_matrix_inj : forall x y z C S C' S', x*x+y*y+z*z = 1 ->
  axisProj_matrix x y z (1 - C) S = axisProj_matrix x y z (1 - C') S' -> C = C' /\ S = S'.
Proof.
  intros x y z C S C' S' U E. rewrite !proj_matrix_rod in E by exact U.
  assert (e11 := f_equal m_r1c1 E). assert (e22 := f_equal m_r2c2 E). assert (e33 := f_equal m_r3c3 E).
  assert (e32 := f_equal m_r3c2 E). assert (e23 := f_equal m_r2c3 E). assert (e13 := f_equal m_r1c3 E).
  assert (e31 := f_equal m_r3c1 E). assert (e21 := f_equal m_r2c1 E). assert (e12 := f_equal m_r1c2 E).
  cbn [m_r1c1 m_r1c2 m_r1c3 m_r2c1 m_r2c2 m_r2c3 m_r3c1 m_r3c2 m_r3c3] in *.
  assert (C = C').
  { assert (3*C + (1-C)*(x*x+y*y+z*z) = 3*C' + (1-C')*(x*x+y*y+z*z)) by lra. rewrite U in H. lra. }
  subst C'. split; [reflexivity|].
  assert (sx : S*x = S'*x) by lra. assert (sy : S*y = S'*y) by lra. assert (sz : S*z = S'*z) by lra.
  transitivity (S*x*x+S*y*y+S*z*z); [transitivity (S*(x*x+y*y+z*z)); [rewrite U; ring|ring]|].
  rewrite sx, sy, sz. transitivity (S'*(x*x+y*y+z*z)); [ring|rewrite U; ring].
Qed.

Lemma C23_fixes_rotations_exact_proof : forall (axis : Position3D R) (m : Rotation R) (th : R),
  axis <> mkPosition3D 0 0 0 ->
  turns_about (rmat m) th (vscale (1 / p3_norm axis) (p3v axis)) ->
  (axisRotationProjection axis m = Ok m <->
   (p3_x axis * p3_y axis * p3_z axis = 0 \/ cos th = 0 \/ m_r3c3 m - m_r3c2 m = 6 * cos th)).
Proof.
  intros [ax ay az] m th hv ht.
  destruct (sqrt_ex (ax*ax+ay*ay+az*az)) as (s&es&hs&ss); [apply sum3sq_pos|].
  assert (n : s <> 0).
  { intro h0. apply hv. rewrite h0 in ss. destruct (sum3sq_0 ax ay az) as (->&->&->); [lra|reflexivity]. }
  assert (EN : p3_norm (mkPosition3D ax ay az) = s) by exact es.
  unfold axisRotationProjection, axisRotationProjectionInPlace. rewrite EN in *.
  cbn [s_eqb s_ltb s_ofZ RScalar]. rewrite Reqb_false by exact n.
  cbv zeta. cbn [p3_x p3_y p3_z s_mul s_div s_ofZ RScalar] in *.
  assert (UE : vscale (1/s) (p3v (mkPosition3D ax ay az)) = (1/s*ax, 1/s*ay, 1/s*az)) by reflexivity.
  rewrite UE in ht. clear UE.
  assert (U : 1/s*ax*(1/s*ax)+1/s*ay*(1/s*ay)+1/s*az*(1/s*az) = 1).
  { etransitivity; [|exact (inv_unit ax ay az s n ss)]. ring. }
  assert (M0 : ax*ay*az = 0 <-> 1/s*ax*(1/s*ay)*(1/s*az) = 0).
  { split; intro h.
    - transitivity ((ax*ay*az)*(1/s*(1/s)*(1/s))); [ring|]. rewrite h. ring.
    - transitivity ((1/s*ax*(1/s*ay)*(1/s*az))*(s*s*s)); [field; exact n|]. rewrite h. ring. }
  rewrite M0. clear M0.
  revert ht U. generalize (1/s*ax) (1/s*ay) (1/s*az). clear. intros x y z ht U.
  assert (hr : rod9 (cos th) (sin th) x y z (m_r1c1 m) (m_r1c2 m) (m_r1c3 m) (m_r2c1 m) (m_r2c2 m) (m_r2c3 m)
       (m_r3c1 m) (m_r3c2 m) (m_r3c3 m)).
  { destruct m as [a b c d e f g h i].
    apply (turns_rod9 (mkTransform a b c 0 d e f 0 g h i 0) th x y z). rewrite tmat_mk.
    rewrite rmat_mk in ht. exact ht. }
  clear ht. assert (CS := cs2 th). revert hr CS. generalize (cos th) (sin th). clear th. intros C S hr CS.
  assert (EM : m = axisProj_matrix x y z (1 - C) S).
  { rewrite proj_matrix_rod by exact U. destruct m as [a b c d e f g h i].
    cbn [m_r1c1 m_r1c2 m_r1c3 m_r2c1 m_r2c2 m_r2c3 m_r3c1 m_r3c2 m_r3c3] in hr.
    destruct hr as (->&->&->&->&->&->&->&->&->). reflexivity. }
  assert (D : m_r3c3 m - m_r3c2 m = C + (1-C)*z*z - ((1-C)*y*z + S*x)).
  { rewrite EM, proj_matrix_rod by exact U. reflexivity. }
  set (p := x*y*z). set (dd := m_r3c3 m - m_r3c2 m) in *.
  assert (EA : axisProj_a x y z m = - S - 3*p*C + p*dd).
  { rewrite D. rewrite EM, proj_matrix_rod by exact U. unfold axisProj_a, p. cbn [m_r1c1 m_r1c2 m_r1c3 m_r2c1 m_r2c2 m_r2c3 m_r3c1 m_r3c2 m_r3c3 s_add s_sub s_mul s_neg RScalar].
    clear - U. nsatz. }
  assert (EB : axisProj_b x y z m = C + 3*p*S).
  { rewrite EM, proj_matrix_rod by exact U. unfold axisProj_b, p. cbn [m_r1c1 m_r1c2 m_r1c3 m_r2c1 m_r2c2 m_r2c3 m_r3c1 m_r3c2 m_r3c3 s_add s_sub s_mul s_neg RScalar].
    clear - U. nsatz. }
  assert (EC : axisProj_c x y z m = 3*p).
  { rewrite EM, proj_matrix_rod by exact U. unfold axisProj_c, p. cbn [m_r1c1 m_r1c2 m_r1c3 m_r2c1 m_r2c2 m_r2c3 m_r3c1 m_r3c2 m_r3c3 s_add s_sub s_mul s_neg RScalar].
    clear - U. nsatz. }
  assert (T : forall C' S', axisProj_trace x y z (1 - C') S' m = 1 + 2*(C' * C + S' * S)).
  { intros C' S'. rewrite EM, proj_matrix_rod by exact U. unfold axisProj_trace, s_pow2.
    cbn [m_r1c1 m_r1c2 m_r1c3 m_r2c1 m_r2c2 m_r2c3 m_r3c1 m_r3c2 m_r3c3 s_add s_sub s_mul s_neg s_ofZ RScalar].
    clear - U. nsatz. }
  rewrite EA, EB, EC, !T. cbn [s_add s_sub s_mul s_div s_neg s_sqrt s_acos s_atan2 s_cos s_sin s_ofZ RScalar].
  set (a := - S - 3*p*C + p*dd). set (b := C + 3*p*S).
  assert (KEY : a*C + b*S = 3*p <-> (p = 0 \/ C = 0 \/ dd = 6*C)).
  { assert (X : a*C + b*S - 3*p = p*(C*(dd - 6*C))).
    { unfold a, b. clear - CS. nsatz. }
    split.
    - intro h. assert (h2 : p*(C*(dd - 6*C)) = 0) by lra. apply Rmult_integral in h2. destruct h2 as [h2|h2]; [tauto|].
      apply Rmult_integral in h2. destruct h2 as [h2|h2]; [tauto|right; right; lra].
    - intros [h|[h|h]].
      + rewrite h in X. lra.
      + rewrite h in X. assert (a*C + b*S - 3*p = 0) by (rewrite h, X; ring). lra.
      + rewrite h in X. assert (a*C + b*S - 3*p = 0) by (rewrite X; ring). lra. }
  rewrite <- KEY.
  destruct (Rltb_spec (a*a+b*b-3*p*(3*p)) 0) as [neg|pos].
  { split; [discriminate|]. intro h. exfalso. rewrite <- h in neg.
    assert ((a*S - b*C)*(a*S - b*C) = a*a+b*b - (a*C+b*S)*(a*C+b*S)) by (clear - CS; nsatz).
    generalize (Rle_0_sqr (a*S-b*C)). unfold Rsqr. lra. }
  assert (hd : 0 <= a*a+b*b-3*p*(3*p)) by lra. clear pos.
  assert (hp : 0 < a*a+b*b).
  { destruct (Req_dec p 0) as [e|e].
    - assert (a*a+b*b = 1) by (unfold a, b; rewrite e; clear - CS; nsatz). lra.
    - assert (0 < p*p) by (destruct (Rdichotomy p 0 e); nra). lra. }
  destruct (proj_angles a b (3*p) hp hd) as [[S1 S2] SU]. cbv zeta in S1, S2, SU.
  set (al := Ratan2 b a) in *. set (be := acos (3*p / sqrt (a*a+b*b))) in *.
  assert (C1 := cs2 (al+be)). assert (C2 := cs2 (al-be)).
  set (c1 := cos (al+be)) in *. set (s1 := sin (al+be)) in *. set (c2 := cos (al-be)) in *. set (s2 := sin (al-be)) in *.
  assert (BEST : forall c s, c*c+s*s = 1 -> c*C+s*S <= 1 /\ (c*C+s*S = 1 -> c = C /\ s = S)).
  { intros c s h. assert ((c-C)*(c-C)+(s-S)*(s-S) = 2 - 2*(c*C+s*S)) by (clear - h CS; nsatz).
    generalize (Rle_0_sqr (c-C)) (Rle_0_sqr (s-S)). unfold Rsqr. intros q1 q2. split; [lra|]. intro k.
    assert (z1 : (c-C)*(c-C) = 0) by lra. assert (z2 : (s-S)*(s-S) = 0) by lra.
    apply Rmult_integral in z1, z2. split; lra. }
  assert (B1 := BEST c1 s1 C1). assert (B2 := BEST c2 s2 C2).
  split.
  - destruct (Rltb_spec (1 + 2*(c1*C+s1*S)) (1 + 2*(c2*C+s2*S))); intro E; apply Ok_inj in E; rewrite EM in E;
      apply proj_matrix_inj in E; try exact U; destruct E as [e1 e2]; rewrite <- e1, <- e2; assumption.
  - intro h. destruct (SU C S CS h) as [[h1 h2]|[h1 h2]].
    + rewrite Rltb_false by (rewrite <- h1, <- h2; lra). rewrite <- h1, <- h2, EM. reflexivity.
    + destruct (Rltb_spec (1 + 2*(c1*C+s1*S)) (1 + 2*(c2*C+s2*S))) as [l|l].
      * rewrite <- h1, <- h2, EM. reflexivity.
      * destruct B1 as [b1 b1']. destruct (b1') as [-> ->]; [rewrite <- h1, <- h2 in l; lra|]. rewrite EM. reflexivity.
Qed.


Lemma C23_idempotent_exact_proof : forall (axis : Position3D R) (m r : Rotation R),
  axis <> mkPosition3D 0 0 0 ->
  let u := vscale (1 / p3_norm axis) (p3v axis) in
  (let '(x, y, z) := u in ~ (axisProj_a x y z m = 0 /\ axisProj_b x y z m = 0)) ->
  axisRotationProjection axis m = Ok r ->
  exists th, turns_about (rmat r) th u /\
  (axisRotationProjection axis r = Ok r <->
   (p3_x axis * p3_y axis * p3_z axis = 0 \/ cos th = 0 \/ m_r3c3 r - m_r3c2 r = 6 * cos th)).
Proof.
  intros axis m r hv u hn h. destruct (C23_turns_about_axis_proof axis m r h hn) as (th&ht).
  exists th. split; [exact ht|]. apply C23_fixes_rotations_exact_proof; assumption.
Qed.


Lemma C23_transform_overloads_proof : forall (axis : Position3D R) (t : Transform R),
  match axisRotationProjection axis (rotationFromTransform t) with
  | Ok r => exists u, axisRotationProjectionT axis t = Ok u /\ axisRotationProjectionTInPlace axis t = Ok u /\
      rotationFromTransform u = r /\ tpos u = tpos t
  | _ => axisRotationProjectionT axis t = axisRotationProjectionTInPlace axis t /\
         forall u, axisRotationProjectionT axis t <> Ok u
  end.
Proof.
  intros axis t. unfold axisRotationProjectionT, axisRotationProjectionTInPlace, axisRotationProjection.
  destruct (axisRotationProjectionInPlace axis (rotationFromTransform t)) as [r| | | ]; cbn [rmap rbind].
  - eexists. split; [reflexivity|]. split; [reflexivity|]. destruct r. split; reflexivity.
  - split; [reflexivity|]. intros u. discriminate.
  - split; [reflexivity|]. intros u. discriminate.
  - split; [reflexivity|]. intros u. discriminate.
Qed.


Lemma C23_general_axis_refuted_proof :
  turns_about (rmat m_id) 0 (vscale (1 / p3_norm (mkPosition3D 2 2 1)) (p3v (mkPosition3D 2 2 1))) /\
  axisRotationProjection (mkPosition3D 2 2 1) m_id <> Ok m_id.
Proof.
  assert (EN : p3_norm (mkPosition3D 2 2 1) = 3).
  { unfold p3_norm. cbn. apply sqrt_unique'; lra. }
  rewrite EN. split.
  - split; [unr; field|]. intros [[x y] z]. unfold rodrigues. rewrite cos_0, sin_0. unr. pair_eq; field.
  - intro h. unfold axisRotationProjection, axisRotationProjectionInPlace in h. rewrite EN in h.
    cbn [s_eqb s_ltb s_ofZ RScalar] in h. rewrite Reqb_false in h by lra. cbv zeta in h.
    cbn [p3_x p3_y p3_z s_mul s_div s_ofZ RScalar] in h.
    set (x := 1/3*2) in h. set (z := 1/3*1) in h.
    assert (EA : axisProj_a x x z m_id = - (8/27)) by (unfold x, z; unr; field).
    assert (EB : axisProj_b x x z m_id = 1) by (unfold x, z; unr; field).
    assert (EC : axisProj_c x x z m_id = 4/9) by (unfold x, z; unr; field).
    rewrite EA, EB, EC in h. cbn [s_add s_sub s_mul s_div s_neg s_sqrt s_acos s_atan2 s_cos s_sin s_ofZ RScalar] in h.
    rewrite (Rltb_false _ 0) in h by lra.
    set (al := Ratan2 1 (-(8/27))) in h.
    set (N := sqrt (-(8/27)*-(8/27)+1*1)) in h.
    assert (NN : N*N = 64/729+1). { unfold N. rewrite sqrt_sqrt by lra. lra. }
    assert (N0 : 0 < N). { unfold N. apply sqrt_lt_R0. lra. }
    set (be := acos (4/9/N)) in h.
    assert (CB : cos be = 4/9/N).
    { unfold be. apply cos_acos. 
      assert (N1 : 4/9 < N) by nra.
      assert (0 < 4/9/N < 1).
      { split; [apply Rdiv_lt_0_compat; lra|]. apply Rmult_lt_reg_r with N; [exact N0|].
        replace (4/9/N*N) with (4/9) by (field; lra). lra. }
      lra. }
    assert (CA : cos al = -(8/27)/N /\ sin al = 1/N).
    { apply Ratan2_cos_sin. lra. }
    destruct CA as [CA SA].
    (* a rotation by [t] about the axis being the identity forces cos t = 1 and sin t = 0 *)
    assert (G : forall t, t = al + be \/ t = al - be -> axisProj_matrix x x z (1 - cos t) (sin t) = m_id -> False).
    { intros t ht hh.
      assert (C1 : cos t = 1).
      { apply (f_equal m_r1c1) in hh. revert hh. unfold axisProj_matrix, m_id, s_pow2, x, z.
        cbn [m_r1c1 s_add s_sub s_mul s_neg s_ofZ RScalar]. lra. }
      assert (S0 : sin t = 0).
      { generalize (cs2 t). rewrite C1. intro hs. assert (sin t * sin t = 0) by lra. nra. }
      assert (K : cos (t - al) = cos be).
      { destruct ht as [->| ->].
        - replace (al + be - al) with be by ring. reflexivity.
        - replace (al - be - al) with (- be) by ring. apply cos_neg. }
      rewrite cos_minus, C1, S0, CA, SA, CB in K.
      assert (-(8/27) = 4/9).
      { apply (f_equal (fun q => q*N)) in K.
        replace ((1*(-(8/27)/N)+0*(1/N))*N) with (-(8/27)) in K by (field; lra).
        replace (4/9/N*N) with (4/9) in K by (field; lra). exact K. }
      lra. }
    destruct (Rltb _ _).
    + apply (G (al - be)); [right; reflexivity|]. apply Ok_inj. exact h.
    + apply (G (al + be)); [left; reflexivity|]. apply Ok_inj. exact h.
Qed.


Lemma C23_zero_over_zero_refuted_proof : forall L : libm32,
  l_acos L B754_nan = B754_nan -> l_cos L B754_nan = B754_nan -> l_sin L B754_nan = B754_nan ->
  exists r, axisRotationProjection (S := F32Scalar L)
     (mkPosition3D (f32_ofZ 0) (f32_ofZ 0) (f32_ofZ 1))
     (mkRotation (f32_ofZ 1) (f32_ofZ 0) (f32_ofZ 0) (f32_ofZ 0) (f32_ofZ 0) (f32_ofZ (-1))
                 (f32_ofZ 0) (f32_ofZ 1) (f32_ofZ 0)) = Ok r /\
  is_nan (m_r1c1 r) = true /\ is_nan (m_r1c2 r) = true /\ is_nan (m_r2c1 r) = true /\ is_nan (m_r2c2 r) = true.
Proof.
  intros L ha hc hs.
  set (ax := mkPosition3D _ _ _). set (ro := mkRotation _ _ _ _ _ _ _ _ _).
  assert (N : p3_norm (S := F32Scalar L) ax = f32_ofZ 1) by (apply B2SF_inj; vm_compute; reflexivity).
  set (o := f32_ofZ 0). set (u := f32_ofZ 1).
  assert (A : axisProj_a (S := F32Scalar L) o o u ro = o) by (apply B2SF_inj; vm_compute; reflexivity).
  assert (B : axisProj_b (S := F32Scalar L) o o u ro = o) by (apply B2SF_inj; vm_compute; reflexivity).
  assert (C : axisProj_c (S := F32Scalar L) o o u ro = o) by (apply B2SF_inj; vm_compute; reflexivity).
  assert (X : Bmult mode_NE (Bdiv mode_NE u u) (p3_x ax) = o) by (apply B2SF_inj; vm_compute; reflexivity).
  assert (Y : Bmult mode_NE (Bdiv mode_NE u u) (p3_y ax) = o) by (apply B2SF_inj; vm_compute; reflexivity).
  assert (Z : Bmult mode_NE (Bdiv mode_NE u u) (p3_z ax) = u) by (apply B2SF_inj; vm_compute; reflexivity).
  assert (D : Bltb (Bminus mode_NE (Bplus mode_NE (Bmult mode_NE o o) (Bmult mode_NE o o)) (Bmult mode_NE o o)) o = false)
    by (vm_compute; reflexivity).
  assert (Q : Bdiv mode_NE o (Bsqrt mode_NE (Bplus mode_NE (Bmult mode_NE o o) (Bmult mode_NE o o))) = B754_nan)
    by (vm_compute; reflexivity).
  assert (PN : forall a : f32, Bplus mode_NE a B754_nan = B754_nan) by (intros [[]|[]| |[]]; reflexivity).
  assert (MN : forall a : f32, Bminus mode_NE a B754_nan = B754_nan) by (intros [[]|[]| |[]]; reflexivity).
  assert (E0 : Beqb u o = false) by (vm_compute; reflexivity).
  unfold axisRotationProjection, axisRotationProjectionInPlace. rewrite N.
  cbn [s_eqb s_ltb s_mul s_div s_add s_sub s_neg s_ofZ s_atan2 s_acos s_cos s_sin s_sqrt F32Scalar].
  fold o u. rewrite E0. cbv zeta. rewrite X, Y, Z, A, B, C, D, Q, ha, PN, MN, hc, hs, MN.
  destruct (Bltb _ _); eexists; split; try reflexivity; vm_compute; auto.
Qed.
