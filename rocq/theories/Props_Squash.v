(** * Property C49: squashing the masses of fixed joints *)
From Coq Require Import String List Bool Relations Permutation Lia Arith ZArith Reals Lra Nsatz.
Import ListNotations.
From Verif Require Import Scalar RInst RLemmas Model_Base Model_Vec Model_Rigid Model_Average Model_Pose Model_Urdf Model_Squash
  Spec_Geom Spec_Average Spec_Pose Spec_Urdf Spec_Reroot Spec_Squash SO3 SO3Quat Proofs_Geom Proofs_Quat Proofs_Average Proofs_Pose Proofs_Transform
  Proofs_Urdf Proofs_Walk Proofs_Reroot.
From Verif Require Props_Urdf.
Local Open Scope R_scope.
From Verif Require Proofs_Squash.

(** C49. Squashing a joint moves the body of its child link to its parent link.  Nothing
    else in the document changes, and the total mass does not. *)
Theorem C49_joint_mass : forall (t : tree R) j, sound t -> In j (joints (t_doc t)) -> j_parent j <> j_child j ->
  exists t', squashJointMass t (j_name j) = Ok t' /\ t_root t' = t_root t /\ sound t' /\
    map bare (t_doc t') = map bare (t_doc t) /\
    inertial_at (t_doc t') (j_child j) = None /\
    (inertial_at (t_doc t') (j_parent j) = None <->
       inertial_at (t_doc t) (j_parent j) = None /\ inertial_at (t_doc t) (j_child j) = None) /\
    (forall n, n <> j_parent j -> n <> j_child j -> inertial_at (t_doc t') n = inertial_at (t_doc t) n) /\
    total_mass (t_doc t') = total_mass (t_doc t).
Proof. exact @Proofs_Squash.C49_joint_mass_proof. Qed.
Print Assumptions C49_joint_mass.

(** C49. The centre of mass of the robot stays where it was, wherever the links are, as
    long as the joint is respected. *)
Theorem C49_joint_centre : forall (t t' : tree R) j place, sound t -> In j (joints (t_doc t)) -> j_parent j <> j_child j ->
  squashJointMass t (j_name j) = Ok t' -> holds place j ->
  (forall ci, inertial_at (t_doc t) (j_child j) = Some ci -> mergeable j (inertial_at (t_doc t) (j_parent j)) ci) ->
  total_first place (t_doc t') = total_first place (t_doc t).
Proof. exact @Proofs_Squash.C49_joint_centre_proof. Qed.
Print Assumptions C49_joint_centre.

(** C49. The moments of inertia of the robot, about all axes, are what they were, exactly
    when the inertia of the child is the same turned one way or the other. *)
Theorem C49_joint_inertia : forall (t t' : tree R) j place, sound t -> In j (joints (t_doc t)) -> j_parent j <> j_child j ->
  squashJointMass t (j_name j) = Ok t' -> holds place j ->
  (forall ci, inertial_at (t_doc t) (j_child j) = Some ci -> mergeable j (inertial_at (t_doc t) (j_parent j)) ci) ->
  ((forall o u, total_axial place (t_doc t') o u = total_axial place (t_doc t) o u) <->
   (forall ci, inertial_at (t_doc t) (j_child j) = Some ci -> turns_alike j (inertial_at (t_doc t) (j_parent j)) ci)).
Proof. exact @Proofs_Squash.C49_joint_inertia_proof. Qed.
Print Assumptions C49_joint_inertia.

(** C49. For instance when the axes of inertia of the child are parallel to those of the
    parent, or come back to them after two such rotations, or when its inertia is that of a
    sphere. *)
Theorem C49_alike : forall j p ci,
  (forall w, mapply (orientation j p ci) w = mapply (mtrans (orientation j p ci)) w) \/
  (i_ixx ci = i_iyy ci /\ i_iyy ci = i_izz ci /\ i_ixy ci = 0 /\ i_ixz ci = 0 /\ i_iyz ci = 0) ->
  turns_alike j (Some p) ci.
Proof. exact @Proofs_Squash.C49_alike_proof. Qed.
Print Assumptions C49_alike.

(** C49, refuted. Otherwise the moments of inertia change: the inertia of the child is
    turned by the inverse of the rotation it should be turned by.  Here the child is fixed,
    turned by a third of a turn about the first diagonal, to a parent of the same mass. *)
Theorem C49_turned_refuted : exists (t t' : tree R) j place o u, ctor (t_doc t) = Ok t /\ joints (t_doc t) = cons j nil /\
  j_parent j <> j_child j /\ squashJointMass t (j_name j) = Ok t' /\ holds place j /\
  (forall n i, inertial_at (t_doc t) n = Some i -> i_mass i = 1 /\ pose_from (i_origin i) = mkPose (0,0,0) (0,0,0)) /\
  total_axial place (t_doc t') o u <> total_axial place (t_doc t) o u.
Proof. exact @Proofs_Squash.C49_turned_refuted_proof. Qed.
Print Assumptions C49_turned_refuted.

(** C49, refuted. The centre of mass changes when a body is moved to a parent link without
    one and falls on the origin of its frame: the old offset is kept. *)
Theorem C49_moved_refuted : exists (t t' : tree R) j place, ctor (t_doc t) = Ok t /\ joints (t_doc t) = cons j nil /\
  j_parent j <> j_child j /\ squashJointMass t (j_name j) = Ok t' /\ holds place j /\
  total_mass (t_doc t) = 1 /\ total_first place (t_doc t) = (0,0,0) /\ total_first place (t_doc t') = (-1,0,0).
Proof. exact @Proofs_Squash.C49_moved_refuted_proof. Qed.
Print Assumptions C49_moved_refuted.

(** C49, refuted. The mass of a link is lost when the joint that is squashed goes from the
    link to itself, which the constructor accepts. *)
Theorem C49_self_refuted : exists (t t' : tree R), ctor (t_doc t) = Ok t /\ squashJointMass t "j" = Ok t' /\
  total_mass (t_doc t) = 1 /\ total_mass (t_doc t') = 0.
Proof. exact @Proofs_Squash.C49_self_refuted_proof. Qed.
Print Assumptions C49_self_refuted.

(** C49. squashFixedJointsMass leaves no body on the far side of a fixed joint, and nothing
    but the bodies changes.  The total mass is conserved. *)
Theorem C49_fixed : forall t : tree R, sound t ->
  (forall j, attached (t_doc t) (t_root t) j -> type_of (j_type j) <> None) ->
  exists t', squashFixedJointsMass t = Ok t' /\ t_root t' = t_root t /\ t_ix t' = t_ix t /\
    map bare (t_doc t') = map bare (t_doc t) /\
    total_mass (t_doc t') = total_mass (t_doc t) /\
    (forall j, attached (t_doc t) (t_root t) j -> type_of (j_type j) = Some fixed ->
       inertial_at (t_doc t') (j_child j) = None) /\
    (forall n, (forall j, attached (t_doc t) (t_root t) j -> type_of (j_type j) = Some fixed -> n <> j_parent j /\ n <> j_child j) ->
       inertial_at (t_doc t') n = inertial_at (t_doc t) n).
Proof. exact @Proofs_Squash.C49_fixed_proof. Qed.
Print Assumptions C49_fixed.

(** C49. If all bodies have positive masses, and every link which has another one fixed to
    it has one, then the centre of mass of the robot stays where it was for all positions of
    the links the fixed joints allow; if moreover the fixed joints and the frames of inertia
    are not turned, the moments of inertia about all axes are conserved (_partial: without
    these hypotheses see C49_moved_refuted and C49_turned_refuted). *)
Theorem C49_fixed_physics_partial : forall t t' : tree R, sound t ->
  squashFixedJointsMass t = Ok t' -> heavy (t_doc t) ->
  forall place, allowed (t_doc t) place ->
  total_first place (t_doc t') = total_first place (t_doc t) /\
  (unturned (t_doc t) -> forall o u, total_axial place (t_doc t') o u = total_axial place (t_doc t) o u).
Proof. exact @Proofs_Squash.C49_fixed_physics_partial_proof. Qed.
Print Assumptions C49_fixed_physics_partial.

(** C49. makeMasslessJointsFixed returns the names of the joints it has fixed; nothing
    changes but the type of these joints and the bodies, and the total mass is conserved.
    In the end a joint is fixed exactly when its child link has no body. *)
Theorem C49_massless : forall t : tree R, sound t ->
  (forall j, attached (t_doc t) (t_root t) j -> type_of (j_type j) <> None) ->
  exists t' names, makeMasslessJointsFixed t = Ok (t', names) /\ t_root t' = t_root t /\ t_ix t' = t_ix t /\
    map bare (t_doc t') = map bare (retype names (t_doc t)) /\ NoDup names /\
    (forall n, In n names -> exists j, attached (t_doc t) (t_root t) j /\ j_name j = n /\ type_of (j_type j) <> Some fixed) /\
    total_mass (t_doc t') = total_mass (t_doc t) /\
    (forall j, attached (t_doc t) (t_root t) j ->
       (type_of (j_type j) = Some fixed \/ In (j_name j) names <-> inertial_at (t_doc t') (j_child j) = None)) /\
    (forall n, (forall j, attached (t_doc t) (t_root t) j -> type_of (j_type j) = Some fixed -> n <> j_parent j /\ n <> j_child j) ->
       inertial_at (t_doc t') n = inertial_at (t_doc t) n).
Proof. exact @Proofs_Squash.C49_massless_proof. Qed.
Print Assumptions C49_massless.

(** C49. Under the hypotheses of C49_fixed_physics_partial makeMasslessJointsFixed conserves the
    centre of mass, and the moments of inertia. *)
Theorem C49_massless_physics_partial : forall (t t' : tree R) names, sound t ->
  makeMasslessJointsFixed t = Ok (t', names) -> heavy (t_doc t) ->
  forall place, allowed (t_doc t) place ->
  total_first place (t_doc t') = total_first place (t_doc t) /\
  (unturned (t_doc t) -> forall o u, total_axial place (t_doc t') o u = total_axial place (t_doc t) o u).
Proof. exact @Proofs_Squash.C49_massless_physics_partial_proof. Qed.
Print Assumptions C49_massless_physics_partial.

(** C49. urdfInertialToEigen returns the mass and the centre of mass of a body in the frame
    of its link, and its inertia along the axes of the link exactly when the inertia is the
    same turned one way or the other. *)
Theorem C49_eigen : forall i : Inertial R, let '(m, c, inertia) := urdfInertialToEigen i in
  let Q := rpy_mat (p_rpy (pose_from (i_origin i))) in
  m = i_mass i /\ c = p_xyz (pose_from (i_origin i)) /\
  ((forall u, mquad inertia u = quad i (along (pose_motion (pose_from (i_origin i))) u)) <->
   (forall u, quad i (mapply Q u) = quad i (mapply (mtrans Q) u))).
Proof. exact @Proofs_Squash.C49_eigen_proof. Qed.
Print Assumptions C49_eigen.

(** C49, refuted. urdfInertialToEigen turns the inertia the wrong way, as squashInertial. *)
Theorem C49_eigen_refuted : exists (i : Inertial R) u,
  mquad (snd (urdfInertialToEigen i)) u <> quad i (along (pose_motion (pose_from (i_origin i))) u).
Proof. exact @Proofs_Squash.C49_eigen_refuted_proof. Qed.
Print Assumptions C49_eigen_refuted.

(** ** Examples *)

(** A camera on a mount on a body, and an arm without mass. *)
Definition mule : list (elem R) :=
  [ELink (mkLink "body" (Some (mkInertial (Some (mkPose (1,2,3) (0,0,0))) 5 1 0 0 2 0 3)) [] []);
   ELink (mkLink "mount" (Some (mkInertial None 1 1 0 0 1 0 1)) [] []);
   ELink (mkLink "camera" (Some (mkInertial (Some (mkPose (0,1,0) (0,0,0))) 2 1 0 0 2 0 3)) [] []);
   ELink (mkLink "arm" None [] []);
   EJoint (mkJoint "bolt" "fixed" "body" "mount" (Some (mkPose (0,0,4) (0,0,0))) None None);
   EJoint (mkJoint "screw" "fixed" "mount" "camera" (Some (mkPose (1,0,0) (0,0,0))) None None);
   EJoint (mkJoint "elbow" "revolute" "body" "arm" None None None)].

(*E*)
Definition mule_tree : tree R := mkTree mule ["bolt"; "elbow"; "screw"]%string "body".

(*E*)
Lemma mule_ok : ctor mule = Ok mule_tree.
Proof.
  unfold mule, mule_tree, mule.
  generalize (Some (mkPose (1,2,3) (0,0,0))), (Some (mkPose (0,1,0) (0,0,0))), (Some (mkPose (0,0,4) (0,0,0))), (Some (mkPose (1,0,0) (0,0,0))), 0, 1, 2, 3, 5.
  intros. vm_compute. reflexivity.
Qed.

Lemma mule_sound : sound mule_tree.
Proof.
  destruct (Props_Urdf.C44_or_throws mule) as [[_ [t' [e' [_ [_ h]]]]]|[_ e']]; rewrite mule_ok in e'; [|discriminate].
  now injection e' as <-.
Qed.

(** It meets the hypotheses of the theorems on squashFixedJointsMass and makeMasslessJointsFixed. *)
Lemma mule_hyps : (forall j, attached mule "body" j -> type_of (j_type j) <> None) /\ heavy mule /\ unturned mule.
Proof.
  assert (hj : forall P : Joint R -> Prop, P (mkJoint "bolt" "fixed" "body" "mount" (Some (mkPose (0,0,4) (0,0,0))) None None) ->
    P (mkJoint "screw" "fixed" "mount" "camera" (Some (mkPose (1,0,0) (0,0,0))) None None) ->
    P (mkJoint "elbow" "revolute" "body" "arm" None None None) -> forall j, In j (joints mule) -> P j).
  { intros P h1 h2 h3 j. unfold joints, mule. cbn [flat_map app In]. intros [<-|[<-|[<-|[]]]]; assumption. }
  assert (hi : forall P : Inertial R -> Prop,
    P (mkInertial (Some (mkPose (1,2,3) (0,0,0))) 5 1 0 0 2 0 3) -> P (mkInertial None 1 1 0 0 1 0 1) ->
    P (mkInertial (Some (mkPose (0,1,0) (0,0,0))) 2 1 0 0 2 0 3) -> forall n i, inertial_at mule n = Some i -> P i).
  { intros P h1 h2 h3 n i. unfold inertial_at, mule, links. cbn [flat_map app find l_name].
    destruct ("body" =? n)%string; [intros e; injection e as <-; assumption|].
    destruct ("mount" =? n)%string; [intros e; injection e as <-; assumption|].
    destruct ("camera" =? n)%string; [intros e; injection e as <-; assumption|].
    destruct ("arm" =? n)%string; discriminate. }
  split; [|split; split].
  - intros j h. apply (Proofs_Squash.attached_in mule_tree) in h. revert j h. refine (hj (fun j => type_of (j_type j) <> None) _ _ _); discriminate.
  - refine (hj (fun j => type_of (j_type j) = Some fixed -> inertial_at mule (j_parent j) <> None) _ _ _); discriminate.
  - refine (hi (fun i => 0 < i_mass i) _ _ _); cbn [i_mass]; lra.
  - refine (hj (fun j => type_of (j_type j) = Some fixed -> p_rpy (pose_from (j_origin j)) = (0,0,0)) _ _ _); reflexivity || discriminate.
  - refine (hi (fun i => p_rpy (pose_from (i_origin i)) = (0,0,0)) _ _ _); reflexivity.
Qed.

(** So its bodies can be gathered, its total mass being 8. *)
Example C49_mule : exists t' names, makeMasslessJointsFixed mule_tree = Ok (t', names) /\
  (forall n, In n names <-> n = "elbow"%string) /\ total_mass (t_doc t') = 8 /\
  inertial_at (t_doc t') "camera" = None /\ inertial_at (t_doc t') "mount" = None /\
  forall place, allowed mule place -> total_first place (t_doc t') = total_first place mule.
Proof.
  destruct mule_hyps as [h1 [h2 h3]].
  destruct (C49_massless mule_tree mule_sound h1) as [t' [names [e [_ [_ [_ [_ [hn [hm [hf he]]]]]]]]]]. exists t', names. split; [assumption|].
  assert (hb : attached mule "body" (mkJoint "bolt" "fixed" "body" "mount" (Some (mkPose (0,0,4) (0,0,0))) None None)).
  { exists nil. apply (path_snoc mule "body" nil (mkJoint "bolt" "fixed" "body" "mount" (Some (mkPose (0,0,4) (0,0,0))) None None)); [constructor|cbn; tauto]. }
  assert (hs : attached mule "body" (mkJoint "screw" "fixed" "mount" "camera" (Some (mkPose (1,0,0) (0,0,0))) None None)).
  { exists (cons (mkJoint "bolt" "fixed" "body" "mount" (Some (mkPose (0,0,4) (0,0,0))) None None) nil).
    apply (path_snoc mule "body" _ (mkJoint "screw" "fixed" "mount" "camera" (Some (mkPose (1,0,0) (0,0,0))) None None)); [|cbn; tauto].
    apply (path_snoc mule "body" nil (mkJoint "bolt" "fixed" "body" "mount" (Some (mkPose (0,0,4) (0,0,0))) None None)); [constructor|cbn; tauto]. }
  split; [|split; [|split; [|split]]].
  - assert (hin : forall j, attached mule "body" j -> j_name j = "bolt"%string /\ j_parent j = "body"%string /\ j_child j = "mount"%string /\ type_of (j_type j) = Some fixed \/
      j_name j = "screw"%string /\ j_parent j = "mount"%string /\ j_child j = "camera"%string /\ type_of (j_type j) = Some fixed \/
      j_name j = "elbow"%string /\ type_of (j_type j) = Some revolute).
    { intros j h. apply (Proofs_Squash.attached_in mule_tree) in h. unfold joints, mule_tree, mule in h. cbn [t_doc flat_map app In] in h.
      destruct h as [<-|[<-|[<-|[]]]]; cbn; tauto. }
    intros n. split.
    + intros h. destruct (hn n h) as [j [h4 [<- h5]]]. destruct (hin j h4) as [h6|[h6|h6]]; [| |apply h6]; exfalso; apply h5; apply h6.
    + intros ->. assert (ha : attached mule "body" (mkJoint "elbow" "revolute" "body" "arm" None None None)).
      { exists nil. apply (path_snoc mule "body" nil (mkJoint "elbow" "revolute" "body" "arm" None None None)); [constructor|cbn; tauto]. }
      destruct (proj2 (hf _ ha)) as [h|h]; [|discriminate|exact h]. cbn [j_child]. rewrite he; [reflexivity|].
      intros j h4 h5. destruct (hin j h4) as [[_ [-> [-> _]]]|[[_ [-> [-> _]]]|[_ h6]]]; [split; discriminate|split; discriminate|congruence].
  - rewrite hm. unfold total_mass, total, mule_tree, mule, links. cbn [t_doc flat_map app fold_right l_inertial i_mass]. ring.
  - apply (hf _ hs). now left.
  - apply (hf _ hb). now left.
  - intros place hp. exact (proj1 (C49_massless_physics_partial mule_tree t' names mule_sound e h2 place hp)).
Qed.

(** Squashing the joint of the camera only. *)
Example C49_mule_joint : exists t', squashJointMass mule_tree "screw" = Ok t' /\
  forall place, holds place (mkJoint "screw" "fixed" "mount" "camera" (Some (mkPose (1,0,0) (0,0,0))) None None) ->
  total_first place (t_doc t') = total_first place mule /\
  forall o u, total_axial place (t_doc t') o u = total_axial place mule o u.
Proof.
  pose (j := mkJoint "screw" "fixed" "mount" "camera" (Some (mkPose (1,0,0) (0,0,0))) (@None (Array3d R)) None).
  assert (hj : In j (joints (t_doc mule_tree))) by (cbn; tauto).
  assert (hne : j_parent j <> j_child j) by discriminate.
  destruct (C49_joint_mass mule_tree j mule_sound hj hne) as [t' [e _]]. exists t'. split; [exact e|]. intros place hh.
  assert (hm : forall ci, inertial_at (t_doc mule_tree) (j_child j) = Some ci -> mergeable j (inertial_at (t_doc mule_tree) (j_parent j)) ci).
  { intros ci h. injection h as <-. cbn. lra. }
  split; [exact (C49_joint_centre mule_tree t' j place mule_sound hj hne e hh hm)|].
  apply (C49_joint_inertia mule_tree t' j place mule_sound hj hne e hh hm). intros ci h. injection h as <-.
  apply C49_alike. left. intros w. rewrite Proofs_Squash.rpy0_ident; [apply Proofs_Squash.orientation_id; reflexivity|].
  intros v. apply Proofs_Squash.orientation_id; reflexivity.
Qed.
