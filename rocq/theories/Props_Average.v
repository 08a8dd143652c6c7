(** * Property C54: averaging transforms *)
From Coq Require Import Reals List Lra Lia Psatz Nsatz Bool Arith Permutation.
Import ListNotations.
From Verif Require Import Scalar RInst RLemmas Model_Base Model_Vec Model_Rigid Model_Average
  Spec_Geom Spec_Average SO3 SO3Quat Proofs_Geom.
Local Open Scope R_scope.
From Verif Require Proofs_Average.

(** ** C54 *)

(** An empty range, and only an empty range, throws. *)
Theorem C54_empty : forall l : list (Transform R),
  averageTransforms l = Throw <-> l = [].
Proof. exact @Proofs_Average.C54_empty_proof. Qed.
Print Assumptions C54_empty.

(** The translation of the average is the arithmetic mean of the translations (for
    any transforms). *)
Theorem C54_translation : forall l : list (Transform R), l <> [] ->
  exists t, averageTransforms l = Ok t /\ tpos t = vmean (map tpos l).
Proof. exact @Proofs_Average.C54_translation_proof. Qed.
Print Assumptions C54_translation.

(** The average of rigid transforms is a rigid transform. *)
Theorem C54_rigid : forall l : list (Transform R), l <> [] -> (forall t, In t l -> rigid t) ->
  exists t, averageTransforms l = Ok t /\ rigid t.
Proof. exact @Proofs_Average.C54_rigid_proof. Qed.
Print Assumptions C54_rigid.

(** The rotation of the average: choose for each transform the one of its two unit
    quaternions that is on the same side as that of the first; the result is the
    rotation of their sum brought to norm 1.  (A choice exists when no transform is a
    half turn apart from the first.) *)
Theorem C54_rotation : forall (l : list (Transform R)) (qs : list (Quaternion R)), l <> [] ->
  Forall2 quaternion_of qs l ->
  (forall q, In q qs -> 0 < qdot q (hd (mkQuaternion 0 0 0 0) qs)) ->
  exists t, averageTransforms l = Ok t /\
    quaternion_of (qscale (/ sqrt (qdot (qsum qs) (qsum qs))) (qsum qs)) t.
Proof. exact @Proofs_Average.C54_rotation_proof. Qed.
Print Assumptions C54_rotation.

(** Transforms that all have one rotation have an average of that rotation. *)
Theorem C54_same_rotation : forall (a : Transform R) (l : list (Transform R)), l <> [] ->
  rigid a -> (forall t, In t l -> meq (tmat t) (tmat a)) ->
  exists t, averageTransforms l = Ok t /\ meq (tmat t) (tmat a).
Proof. exact @Proofs_Average.C54_same_rotation_proof. Qed.
Print Assumptions C54_same_rotation.

(** The average of equal rigid transforms, however many, is that transform. *)
Theorem C54_equal : forall (a : Transform R) (n : nat), rigid a -> n <> 0%nat ->
  averageTransforms (repeat a n) = Ok a.
Proof. exact @Proofs_Average.C54_equal_proof. Qed.
Print Assumptions C54_equal.

(** The order of the transforms after the first one does not matter; no order matters
    to the translation. *)
Theorem C54_order : forall (a : Transform R) (l l' : list (Transform R)), Permutation l l' ->
  averageTransforms (a :: l) = averageTransforms (a :: l').
Proof. exact @Proofs_Average.C54_order_proof. Qed.
Print Assumptions C54_order.

(** No reordering changes the translation of the average. *)
Theorem C54_translation_order : forall l l' : list (Transform R), l <> [] -> Permutation l l' ->
  exists t t', averageTransforms l = Ok t /\ averageTransforms l' = Ok t' /\ tpos t = tpos t'.
Proof. exact @Proofs_Average.C54_translation_order_proof. Qed.
Print Assumptions C54_translation_order.

(** The average does not depend on the frame in which the transforms are expressed:
    moving them all by [g] moves the average by [g], as long as none is a half turn
    apart from the first. *)
Theorem C54_frame : forall (g : Transform R) (l : list (Transform R)),
  rigid g -> (forall t, In t l -> rigid t) ->
  (forall t, In t l -> ~ half_turn_apart (hd g l) t) ->
  averageTransforms (map (t_mul g) l) = rmap (t_mul g) (averageTransforms l).
Proof. exact @Proofs_Average.C54_frame_proof. Qed.
Print Assumptions C54_frame.

(** The first transform decides the side, so the rotation of the average may depend
    on which transform comes first: the identity and the rotations about z of cosine
    -7/25 and sine 24/25, -24/25 (about 106 degrees either way). *)
Theorem C54_first_matters :
  let a := mkTransform 1 0 0 0 0 1 0 0 0 0 1 0 in
  let b := mkTransform (-7/25) (-24/25) 0 0 (24/25) (-7/25) 0 0 0 0 1 0 in
  let c := mkTransform (-7/25) (24/25) 0 0 (-24/25) (-7/25) 0 0 0 0 1 0 in
  rigid a /\ rigid b /\ rigid c /\
  averageTransforms [a; b; c] = Ok a /\ averageTransforms [b; a; c] <> Ok a.
Proof. exact @Proofs_Average.C54_first_matters_proof. Qed.
Print Assumptions C54_first_matters.

(** Two different rigid transforms, a non-trivial case of the theorems above: a
    quarter turn about z moved by 2 along x, and the identity. *)
Definition quarter : Transform R := mkTransform 0 (-1) 0 2 1 0 0 0 0 0 1 0.
(*E*)
Definition still : Transform R := mkTransform 1 0 0 0 0 1 0 0 0 0 1 0.
(*E*)
Example C54_rigid_inhabited : rigid quarter /\ rigid still /\ ~ half_turn_apart still quarter /\
  ~ half_turn_apart still still.
Proof.
  split; [apply rigid_mk; repeat split; lra|]. split; [apply rigid_mk; repeat split; lra|].
  unfold half_turn_apart, quarter, still. rewrite !tmat_mk.
  cbv [mtrace mmul mtrans sum3 of_rows]. split; lra.
Qed.

(** A choice of quaternions as in C54_rotation. *)
Example C54_rotation_inhabited :
  Forall2 quaternion_of
    [mkQuaternion 1 0 0 0; mkQuaternion (sqrt 2 / 2) 0 0 (sqrt 2 / 2)] [still; quarter] /\
  (forall q, In q [mkQuaternion 1 0 0 0; mkQuaternion (sqrt 2 / 2) 0 0 (sqrt 2 / 2)] ->
     0 < qdot q (mkQuaternion 1 0 0 0)).
Proof.
  pose proof (sqrt_sqrt 2 ltac:(lra)) as h. pose proof (sqrt_lt_R0 2 ltac:(lra)) as p.
  set (s := sqrt 2) in *. clearbody s. split.
  - repeat constructor;
      try (intros i j hi hj; unfold still, quarter; rewrite tmat_mk;
           destruct i as [|[|[|i]]]; try lia; destruct j as [|[|[|j]]]; try lia;
           cbn [qmat of_rows q_w q_x q_y q_z]; lra);
      unfold unitq, qnorm2; cbn [q_w q_x q_y q_z]; lra.
  - intros q [<-|[<-|[]]]; unfold qdot; cbn [q_w q_x q_y q_z]; lra.
Qed.
