(** * Masses and centres of merged bodies in double precision *)
From Coq Require Import String List Bool Relations Permutation Lia Arith ZArith Reals Lra.
From Flocq Require Import Core.Core IEEE754.BinarySingleNaN.
Import ListNotations.
From Verif Require Import Scalar Model_Vec Model_Rigid Model_Average Model_Pose Model_Urdf Model_Squash Model_Text Model_UrdfText
  Spec_Urdf Spec_MassFloat F64Err Proofs_Urdf Proofs_Walk.
Local Open Scope R_scope.
From Verif Require Proofs_MassFloat.

(** C80: in double precision squashFixedJointsMass loses at most one rounding of the total mass per
    joint of the robot, whatever the order of the merges. *)
Theorem C80_fixed_joints : forall (L : libm64) (t : tree f64), sound t ->
  (forall j, In j (joints (t_doc t)) -> type_of (j_type j) <> None) ->
  let n := length (joints (t_doc t)) in
  proper_masses (t_doc t) -> (1 + u) ^ n * exact_mass (t_doc t) <= bpow radix2 1022 ->
  exists t', @squashFixedJointsMass f64 (F64Scalar L) t = Ok t' /\ proper_masses (t_doc t') /\
    after_roundings n (exact_mass (t_doc t)) (exact_mass (t_doc t')).
Proof. exact @Proofs_MassFloat.C80_fixed_joints_proof. Qed.
Print Assumptions C80_fixed_joints.

(** C80: likewise makeMasslessJointsFixed. *)
Theorem C80_massless_joints : forall (L : libm64) (t : tree f64), sound t ->
  (forall j, In j (joints (t_doc t)) -> type_of (j_type j) <> None) ->
  let n := length (joints (t_doc t)) in
  proper_masses (t_doc t) -> (1 + u) ^ n * exact_mass (t_doc t) <= bpow radix2 1022 ->
  exists t' names, @makeMasslessJointsFixed f64 (F64Scalar L) t = Ok (t', names) /\ proper_masses (t_doc t') /\
    after_roundings n (exact_mass (t_doc t)) (exact_mass (t_doc t')).
Proof. exact @Proofs_MassFloat.C80_massless_joints_proof. Qed.
Print Assumptions C80_massless_joints.

(** C80: squashInertial in double precision: the mass is the rounded sum, and the position of the new
    centre of mass is, along each axis, the exact one but for five roundings of the positions. *)
Theorem C80_centre : forall (L : libm64) (ma mb : f64) (A B : Transform f64) (Ia Ib : Mat3 f64) (X : R),
  is_finite ma = true -> is_finite mb = true -> 0 <= B2R ma -> 0 <= B2R mb ->
  bpow radix2 (-400) <= B2R ma + B2R mb <= bpow radix2 400 -> X <= bpow radix2 400 ->
  (forall x, In x [t_r1c4 A; t_r2c4 A; t_r3c4 A; t_r1c4 B; t_r2c4 B; t_r3c4 B] -> is_finite x = true /\ Rabs (B2R x) <= X) ->
  let '(m, C, _) := @squashInertial f64 (F64Scalar L) ma A Ia mb B Ib in
  (is_finite m = true /\ after_roundings 1 (B2R ma + B2R mb) (B2R m)) /\
  let close x xa xb := is_finite x = true /\
    Rabs (B2R x - centre (B2R ma) (B2R xa) (B2R mb) (B2R xb)) <= 5 * u * X + bpow radix2 (-600) in
  close (t_r1c4 C) (t_r1c4 A) (t_r1c4 B) /\ close (t_r2c4 C) (t_r2c4 A) (t_r2c4 B) /\ close (t_r3c4 C) (t_r3c4 A) (t_r3c4 B).
Proof. exact @Proofs_MassFloat.C80_centre_proof. Qed.
Print Assumptions C80_centre.

Example C80_instance : let one := mkInertial None (f64_ofZ 1) (f64_ofZ 0) (f64_ofZ 0) (f64_ofZ 0) (f64_ofZ 0) (f64_ofZ 0) (f64_ofZ 0) in
  let d := [ELink (mkLink "a" (Some one) [] []); ELink (mkLink "b" (Some one) [] []);
            EJoint (mkJoint "j" "fixed" "a" "b" None None None)]%string in
  exists t, ctor d = Ok t /\ t_doc t = d /\ proper_masses d /\ (1 + u) ^ 1 * exact_mass d <= bpow radix2 1022.
Proof.
  cbv zeta. eexists. split; [reflexivity|]. split; [reflexivity|].
  assert (h1 : B2R (f64_ofZ 1) = 1) by (cbv; lra).
  split.
  - intros m [<-|[<-|[]]]; (split; [reflexivity|cbn [i_mass]; lra]).
  - unfold exact_mass, masses. cbn [links flat_map app l_inertial fold_right i_mass]. rewrite h1.
    apply Rle_trans with (bpow radix2 2); [unfold u; cbn; lra|apply bpow_le; lia].
Qed.
