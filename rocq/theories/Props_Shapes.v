(** * Properties C37 and C39: pills and inertia of a point mass *)
From Coq Require Import Reals List Lra Lia Psatz Bool Arith.
Import ListNotations.
From Verif Require Import Scalar RInst RLemmas Model_Base Model_Vec Model_Rigid Model_Almath
  Model_Helpers Model_Tools Spec_Geom Proofs_Geom Proofs_Frames.
Local Open Scope R_scope.
From Verif Require Proofs_Shapes.

(** ** C37 *)

(** C37: computePillParameters throws exactly when its two points are equal. *)
Theorem C37_throws : forall a b : Position3D R, computePillParameters a b = Throw <-> a = b.
Proof. exact @Proofs_Shapes.C37_throws_proof. Qed.
Print Assumptions C37_throws.

(** C37: for two different points, the half extent is half their distance, and the frame
    passes isTransform, is centred at the middle and has its z axis along the segment, from
    the first point to the second. *)
Theorem C37_parameters : forall a b : Position3D R, a <> b ->
  exists tf, computePillParameters a b = Ok (1/2 * p3_distance a b, tf) /\
    t_isTransform tf (1/10000) = true /\
    tpos tf = vscale (1/2) (vadd (p3v a) (p3v b)) /\
    (t_r1c3 tf, t_r2c3 tf, t_r3c3 tf) = vscale (1 / p3_distance a b) (vsub (p3v b) (p3v a)).
Proof. exact @Proofs_Shapes.C37_parameters_proof. Qed.
Print Assumptions C37_parameters.

(** C37: exactly, the frame is a rigid transform if and only if the direction of the segment is
    not within 1e-4 of the z axis in x and y, or has no x component. *)
Theorem C37_rigid_exact : forall a b : Position3D R, a <> b ->
  let d := p3_sub b a in
  exists half tf, computePillParameters a b = Ok (half, tf) /\
  (rigid tf <->
   1/10000 * p3_distance a b < Rabs (p3_x d) \/ 1/10000 * p3_distance a b < Rabs (p3_y d) \/ p3_x d = 0).
Proof. exact @Proofs_Shapes.C37_rigid_exact_proof. Qed.
Print Assumptions C37_rigid_exact.

(** C37: the two spheres of the computed pill are centred at the two given points - but in
    the opposite order. *)
Theorem C37_round_trip : forall a b : Position3D R, a <> b ->
  exists half tf, computePillParameters a b = Ok (half, tf) /\ getSphereCentersFromPill half tf = (b, a).
Proof. exact @Proofs_Shapes.C37_round_trip_proof. Qed.
Print Assumptions C37_round_trip.

(** C37, violated: the points never come back in the order in which they were given. *)
Theorem C37_order_refuted : forall (a b : Position3D R) half tf,
  computePillParameters a b = Ok (half, tf) -> getSphereCentersFromPill half tf <> (a, b).
Proof. exact @Proofs_Shapes.C37_order_refuted_proof. Qed.
Print Assumptions C37_order_refuted.

(** C37: for every half extent and frame, the two centres are symmetric about the origin of
    the frame, and for a rigid frame at distance twice the half extent. *)
Theorem C37_centres : forall (half : R) (tf : Transform R),
  let (a, b) := getSphereCentersFromPill half tf in
  vadd (p3v a) (p3v b) = vscale 2 (tpos tf) /\ (rigid tf -> 0 <= half -> p3_distance a b = 2 * half).
Proof. exact @Proofs_Shapes.C37_centres_proof. Qed.
Print Assumptions C37_centres.

(** A pill along the y axis: the hypotheses of the theorems are met. *)
Example ex_C37 : let a := mkPosition3D 1 0 0 in let b := mkPosition3D 1 4 0 in
  a <> b /\ 1/10000 * p3_distance a b < Rabs (p3_y (p3_sub b a)) /\
  exists tf, computePillParameters a b = Ok (2, tf).
Proof.
  cbv zeta.
  assert (D : p3_distance (mkPosition3D 1 0 0) (mkPosition3D 1 4 0) = 4).
  { unfold p3_distance, p3_distanceSquared. unr. apply sqrt_unique'; lra. }
  assert (N : mkPosition3D 1 0 0 <> mkPosition3D 1 4 0) by (intro h; injection h; lra).
  split; [exact N|]. split.
  - rewrite D. cbn. rsimp. rewrite Rabs_pos_eq by lra. lra.
  - destruct (C37_parameters _ _ N) as [tf [e _]]. rewrite D in e. exists tf. rewrite e. do 2 f_equal. lra.
Qed.

(** ** C39 *)

(** C39, in any arithmetic: nine values are written and they form a symmetric matrix. *)
Theorem C39_symmetric : forall (T : Type) (S : Scalar T) (m : T) (p : Position3D T) (d : T),
  length (pointMassInertia m p) = 9%nat /\
  forall i j, (i < 3)%nat -> (j < 3)%nat -> nth (3*i+j) (pointMassInertia m p) d = nth (3*j+i) (pointMassInertia m p) d.
Proof. exact @Proofs_Shapes.C39_symmetric_proof. Qed.
Print Assumptions C39_symmetric.

(** C39: with I the matrix of the written values, I v = m (p x v) x p for every v. Hence
    v.Iv = m |p x v|^2, which is not negative for m >= 0, and I p = 0. *)
Theorem C39_action : forall (m : R) (p : Position3D R),
  let I : mat3 := fun i j => nth (3*i+j) (pointMassInertia m p) 0 in
  (forall v, mapply I v = vscale m (vcross (vcross (p3v p) v) (p3v p))) /\
  (forall v, vdot v (mapply I v) = m * vdot (vcross (p3v p) v) (vcross (p3v p) v)) /\
  (0 <= m -> forall v, 0 <= vdot v (mapply I v)) /\
  mapply I (p3v p) = (0, 0, 0).
Proof. exact @Proofs_Shapes.C39_action_proof. Qed.
Print Assumptions C39_action.

Example ex_C39 : pointMassInertia 2 (mkPosition3D 1 0 3) = [18; 0; -6; 0; 20; 0; -6; 0; 2].
Proof. unfold pointMassInertia. unr. repeat (apply f_equal2; [ring|]). reflexivity. Qed.
