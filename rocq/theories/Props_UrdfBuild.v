(** * Property C57: building a rigid body system from a URDF document *)
From Coq Require Import String List Bool Relations Permutation Lia Arith ZArith Reals Lra Classical.
Import ListNotations.
From Verif Require Import Scalar RInst RLemmas Model_Base Model_Vec Model_Rigid Model_Average Model_Pose Model_Urdf Model_Squash Model_UrdfBuild
  Spec_Geom Spec_Average Spec_Pose Spec_Urdf Spec_Reroot Spec_Squash Spec_Edits Spec_UrdfBuild
  Proofs_Geom Proofs_Quat Proofs_Pose Proofs_Urdf Proofs_Walk Proofs_Reroot Proofs_Squash Proofs_Edits.
From Verif Require Model_Builder.
Import Model_Builder (JointType (..), Config (..), BodyMass (..), bm_mass, bm_com, bm_inertia, cfg_no_static_frame, cfg_joint_name, cfg_galilean).
Local Open Scope R_scope.
From Verif Require Proofs_UrdfBuild.

(** C57. The robot is prepared: in the end it is a well-formed robot, in which a joint is
    fixed exactly when its child link has no body.  Then the root link is added, and for
    each joint below it, in an order in which parents come first, what it stands for; the
    function returns exactly when the builder accepts all these calls, and throws
    otherwise, or if a joint is of no kind known to builders. *)
Theorem C57_calls : forall (d : list (elem R)) cfg rm mc t, prepare rm mc d = Ok t ->
  sound t /\
  (forall j, attached (t_doc t) (t_root t) j -> (j_type j = "fixed"%string <-> inertial_at (t_doc t) (j_child j) = None)) /\
  exists js, in_order (t_doc t) (t_root t) js /\
    ((forall j, In j js -> exists k, kind j k) -> exists c0 css,
       added_root cfg (t_doc t) (t_root t) c0 /\ Forall2 (added cfg (t_doc t)) js css /\
       forall B (f : call R -> B -> bool * B) b,
         (forall t' b', buildRigidBodySystemFromUrdf cfg f d rm mc b = Ok (t', b') <-> t' = t /\ fed f (c0 ++ concat css) b b') /\
         ((forall b', ~ fed f (c0 ++ concat css) b b') -> buildRigidBodySystemFromUrdf cfg f d rm mc b = Throw)) /\
    ((exists j, In j js /\ forall k, ~ kind j k) ->
       forall B (f : call R -> B -> bool * B) b, buildRigidBodySystemFromUrdf cfg f d rm mc b = Throw).
Proof. exact @Proofs_UrdfBuild.C57_calls_proof. Qed.
Print Assumptions C57_calls.

(** C57. Whatever the document and the builder, the function returns or throws. *)
Theorem C57_safe : forall (d : list (elem R)) cfg rm mc B (f : call R -> B -> bool * B) b,
  (exists r, buildRigidBodySystemFromUrdf cfg f d rm mc b = Ok r) \/ buildRigidBodySystemFromUrdf cfg f d rm mc b = Throw.
Proof. exact @Proofs_UrdfBuild.C57_safe_proof. Qed.
Print Assumptions C57_safe.

(** C57. If all the links of the document are below the root, then the bodies that are added
    have together the mass of the document, less that of the root link if it was to be
    removed. *)
Theorem C57_mass : forall (d : list (elem R)) cfg rm mc t0 t cs, ctor d = Ok t0 -> connected d (t_root t0) ->
  buildRigidBodySystemFromUrdf cfg Model_Builder.recorder d rm mc nil = Ok (t, cs) ->
  built_mass cs = total_mass d - (if rm then mass_at d (t_root t0) else 0).
Proof. exact @Proofs_UrdfBuild.C57_mass_proof. Qed.
Print Assumptions C57_mass.

(** C57. Without options, and under the hypotheses of C49_massless_physics_partial, the
    system built has the centre of mass of the document, in all positions of the links the
    fixed joints allow (_partial: without these hypotheses see C49_moved_refuted; the
    inertia is as for C49_eigen). *)
Theorem C57_centre_partial : forall (d : list (elem R)) cfg t0 t cs, ctor d = Ok t0 -> connected d (t_root t0) -> heavy d ->
  buildRigidBodySystemFromUrdf cfg Model_Builder.recorder d false false nil = Ok (t, cs) ->
  forall place, allowed d place -> built_first place cs = total_first place d.
Proof. exact @Proofs_UrdfBuild.C57_centre_partial_proof. Qed.
Print Assumptions C57_centre_partial.

(** C57. A builder that checks the names accepts the robots whose root link has a body
    exactly when every moving joint is attached to a body, the root or the child of another
    moving joint; the Galilean frame is not named; and no joint has the name made up for
    that of the root (no link being named as the Galilean frame, and all joints being of
    known kinds). *)
Theorem C57_names : forall (d : list (elem R)) cfg rm mc t, prepare rm mc d = Ok t ->
  (forall l, In l (link_names (t_doc t)) -> l <> cfg_galilean cfg) -> inertial_at (t_doc t) (t_root t) <> None ->
  (forall j, attached (t_doc t) (t_root t) j -> exists k, kind j k) ->
  ((exists r, buildRigidBodySystemFromUrdf cfg (Model_Builder.names_checker Model_Builder.recorder) d rm mc
                (Model_Builder.names_init (cfg_galilean cfg), nil) = Ok r) <->
   names_fit cfg (t_doc t) (t_root t)).
Proof. exact @Proofs_UrdfBuild.C57_names_proof. Qed.
Print Assumptions C57_names.

(** C57, refuted. A well-formed robot with a moving joint behind a fixed one is refused by a
    builder that checks names: the parent was added as a static frame, not as a body. *)
Theorem C57_behind_fixed_refuted : exists (d : list (elem R)) t j, ctor d = Ok t /\ connected d (t_root t) /\
  (forall n i, inertial_at d n = Some i -> 0 < i_mass i) /\ inertial_at d (t_root t) <> None /\
  (forall j, attached d (t_root t) j -> exists k, kind j k) /\
  In j (joints d) /\ j_type j = "fixed"%string /\
  buildRigidBodySystemFromUrdf Model_Builder.default_config (Model_Builder.names_checker Model_Builder.recorder) d false false
    (Model_Builder.names_init ""%string, nil) = Throw.
Proof. exact @Proofs_UrdfBuild.C57_behind_fixed_refuted_proof. Qed.
Print Assumptions C57_behind_fixed_refuted.

(** C57, refuted. Contrary to what is documented, the exploration does not stop at a moving
    joint whose child link has no body: the joint is made fixed, and what is beyond is
    added, attached to a static frame. *)
Theorem C57_explored_refuted : exists (d : list (elem R)) t j k t' cs l, ctor d = Ok t /\ connected d (t_root t) /\
  In j (joints d) /\ turning j /\ inertial_at d (j_child j) = None /\ In k (joints d) /\ j_parent k = j_child j /\
  buildRigidBodySystemFromUrdf Model_Builder.default_config Model_Builder.recorder d false false nil = Ok (t', cs) /\
  In (Model_Builder.AddLink l) cs /\ Model_Builder.l_joint l = j_name k /\
  (forall l', In (Model_Builder.AddLink l') cs -> Model_Builder.l_body l' <> Model_Builder.l_parent l).
Proof. exact @Proofs_UrdfBuild.C57_explored_refuted_proof. Qed.
Print Assumptions C57_explored_refuted.

(** C57, refuted. The name made up for the joint of the root may be that of a joint of the
    robot; a builder that checks names then refuses it. *)
Theorem C57_root_name_refuted : exists (d : list (elem R)) t, ctor d = Ok t /\ connected d (t_root t) /\
  (forall l, In l (link_names d) -> inertial_at d l <> None) /\
  (forall j, attached d (t_root t) j -> exists k, kind j k /\ k <> None) /\
  buildRigidBodySystemFromUrdf Model_Builder.default_config (Model_Builder.names_checker Model_Builder.recorder) d false false
    (Model_Builder.names_init ""%string, nil) = Throw.
Proof. exact @Proofs_UrdfBuild.C57_root_name_refuted_proof. Qed.
Print Assumptions C57_root_name_refuted.

(** C57, refuted. The root link is attached to the frame named "", not to the Galilean frame
    of the configuration: if this one has a name, no robot whose root link has a body is
    accepted. *)
Theorem C57_galilean_refuted : forall (d : list (elem R)) cfg rm mc t, prepare rm mc d = Ok t ->
  cfg_galilean cfg <> ""%string -> inertial_at (t_doc t) (t_root t) <> None ->
  buildRigidBodySystemFromUrdf cfg (Model_Builder.names_checker Model_Builder.recorder) d rm mc
    (Model_Builder.names_init (cfg_galilean cfg), nil) = Throw.
Proof. exact @Proofs_UrdfBuild.C57_galilean_refuted_proof. Qed.
Print Assumptions C57_galilean_refuted.

(** ** Examples *)

(** A tower of three bodies is accepted, with its 14 kg. *)
Import Proofs_UrdfBuild (crane, crane_tree, massive).
Example C57_tower : (exists r, buildRigidBodySystemFromUrdf Model_Builder.default_config (Model_Builder.names_checker Model_Builder.recorder)
    (crane (massive 5) (massive 7) "turn" "revolute") false false (Model_Builder.names_init ""%string, nil) = Ok r) /\
  exists t cs, buildRigidBodySystemFromUrdf Model_Builder.default_config Model_Builder.recorder (crane (massive 5) (massive 7) "turn" "revolute") false false nil = Ok (t, cs) /\
    built_mass cs = 14.
Proof.
  destruct (Proofs_UrdfBuild.tower_prepared (massive 5) (massive 7)) as [[e1 e2] _]; [now eexists|].
  destruct (Proofs_UrdfBuild.crane_attached (massive 5) (massive 7) "turn" "revolute") as [a1 [a2 a3]]. split.
  - apply (C57_names _ Model_Builder.default_config false false _ e2).
    + apply Proofs_UrdfBuild.crane_names.
    + discriminate.
    + apply Proofs_UrdfBuild.crane_kinds. now right.
    + split; [reflexivity|]. split.
      * intros j [h _]. apply Proofs_UrdfBuild.crane_joints in h. destruct h as [-> | ->]; [now left|right].
        exists (mkJoint "turn" "revolute" "base" "mast" None None None). split; [split; [assumption|discriminate]|reflexivity].
      * intros j h _. apply Proofs_UrdfBuild.crane_joints in h. destruct h as [-> | ->]; discriminate.
  - destruct (C57_calls _ Model_Builder.default_config false false _ e2) as [hs [_ [js [ho [h1 _]]]]].
    destruct h1 as [c0 [css [g1 [g2 g3]]]]; [intros j hj; apply (Proofs_UrdfBuild.crane_kinds (massive 5) (massive 7) "turn" "revolute" "base"); [now right|now apply (proj1 (proj2 ho))]|].
    assert (hf : exists s, fed Model_Builder.recorder (c0 ++ concat css) nil s).
    { apply Proofs_UrdfBuild.fed_all. }
    destruct hf as [s hf]. exists (crane_tree (massive 5) (massive 7) "turn" "revolute"), s.
    assert (eb : buildRigidBodySystemFromUrdf Model_Builder.default_config Model_Builder.recorder (crane (massive 5) (massive 7) "turn" "revolute") false false nil = Ok (crane_tree (massive 5) (massive 7) "turn" "revolute", s)) by (apply g3; auto).
    split; [exact eb|]. rewrite (C57_mass _ _ _ _ _ _ _ e1 a3 eb). unfold total_mass, total, crane, massive. cbn. ring.
Qed.
