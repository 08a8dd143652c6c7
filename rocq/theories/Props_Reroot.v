(** * Property C48: changing the root of a robot *)
From Coq Require Import String List Bool Relations Permutation Lia Arith ZArith Reals Lra Nsatz.
Import ListNotations.
From Verif Require Import Scalar RInst RLemmas Model_Base Model_Vec Model_Rigid Model_Average Model_Pose Model_Urdf
  Spec_Geom Spec_Average Spec_Pose Spec_Urdf Spec_Reroot SO3 SO3Quat Proofs_Geom Proofs_Quat Proofs_Average Proofs_Pose Proofs_Transform
  Proofs_Urdf Proofs_Walk.
From Verif Require Props_Urdf.
Local Open Scope R_scope.
From Verif Require Proofs_Reroot.

(** C48. When define_as_root_link returns, the link is the root of a tree that has the same
    links and joints, each joint between the same two links; and in every position of the
    joints all the bodies (inertias, visual and collision geometries) are at the same
    places up to one change of frame of the whole robot. *)
Theorem C48_mechanism : forall (t t' : tree R) link, sound t -> define_as_root_link t link = Ok t' ->
  sound t' /\ t_root t' = link /\ same_mechanism (t_doc t) (t_root t) (t_doc t') link.
Proof. exact @Proofs_Reroot.C48_mechanism_proof. Qed.
Print Assumptions C48_mechanism.

(** C48. It returns for every link of the tree, if the roll, pitch and yaw angles of the
    origins are in their usual ranges and no floating or planar joint is between the old
    and the new root; if there is one it throws. *)
Theorem C48_returns_usual : forall (t : tree R) link p, sound t -> usual_origins (t_doc t) ->
  path (t_doc t) (t_root t) p link ->
  ((forall k, In k p -> In (type_of (j_type k)) [Some fixed; Some revolute; Some continuous; Some prismatic]) ->
   exists t', define_as_root_link t link = Ok t') /\
  ((exists k, In k p /\ In (type_of (j_type k)) [None; Some floating; Some planar]) ->
   define_as_root_link t link = Throw).
Proof. exact @Proofs_Reroot.C48_returns_usual_proof. Qed.
Print Assumptions C48_returns_usual.

(** C48. The frames of the links keep their relative positions, but for the links that were
    above the new root: their frame moves (with their body at the same place in space), as a
    URDF link has its frame at the joint to its parent. *)
Theorem C48_frames : forall (t t' : tree R) link p, sound t -> define_as_root_link t link = Ok t' ->
  path (t_doc t) (t_root t) p link ->
  forall q, exists G, rigid_motion G /\ forall p0 l, path (t_doc t) (t_root t) p0 l -> ~ In l (map (@j_parent R) p) ->
    exists p', path (t_doc t') link p' l /\ forall v, placement q p' v = G (placement q p0 v).
Proof. exact @Proofs_Reroot.C48_frames_proof. Qed.
Print Assumptions C48_frames.

(** C48. transport_root_link_frame changes the frame of reference of the root link only: the
    mechanism is the same, and in every position of the joints the frames of all other links
    are where they were, if the new frame is at [pose] in the old one. *)
Theorem C48_transport : forall (t t' : tree R) pose, sound t -> transport_frame t pose = Ok t' ->
  sound t' /\ t_root t' = t_root t /\ same_mechanism (t_doc t) (t_root t) (t_doc t') (t_root t) /\
  forall q p l, path (t_doc t) (t_root t) p l -> l <> t_root t ->
    exists p', path (t_doc t') (t_root t) p' l /\ forall v, pose_motion pose (placement q p' v) = placement q p v.
Proof. exact @Proofs_Reroot.C48_transport_proof. Qed.
Print Assumptions C48_transport.

(** C48. It returns if the angles of [pose] and of the origins attached to the root link are
    in their usual ranges (otherwise see C48_transport_returns_exact). *)
Theorem C48_transport_returns_usual : forall (t : tree R) pose, sound t -> usual_angles pose -> usual_origins (t_doc t) ->
  exists t', transport_frame t pose = Ok t'.
Proof. exact @Proofs_Reroot.C48_transport_returns_usual_proof. Qed.
Print Assumptions C48_transport_returns_usual.

(** C48. A name that is not the name of a link is refused. *)
Theorem C48_unknown : forall (t : tree R) link, sound t -> ~ In link (link_names (t_doc t)) ->
  define_as_root_link t link = Throw.
Proof. exact @Proofs_Reroot.C48_unknown_proof. Qed.
Print Assumptions C48_unknown.

(** C48. The constructor accepts documents with loops (C46_loop_refuted); for a link of a
    loop define_as_root_link does not return. *)
Theorem C48_loop_refuted : forall (t : tree R) link, sound t -> above (t_doc t) link link ->
  (forall k, In k (joints (t_doc t)) -> In (type_of (j_type k)) [Some fixed; Some revolute; Some continuous; Some prismatic]) ->
  define_as_root_link t link = UB.
Proof. exact @Proofs_Reroot.C48_loop_refuted_proof. Qed.
Print Assumptions C48_loop_refuted.

(** C48, exactly: if no floating or planar joint is between the old and the new root,
    define_as_root_link returns if and only if, for each joint on the way whose origin [o] is
    written in the document, no origin attached to its parent is another way to write [o],
    and neither is the null pose if the joint is not the first one. Otherwise it aborts. *)
Theorem C48_returns_exact : forall (t : tree R) link p, sound t -> path (t_doc t) (t_root t) p link ->
  (forall k, In k p -> In (type_of (j_type k)) [Some fixed; Some revolute; Some continuous; Some prismatic]) ->
  let fine := forall p1 k p2 o, p = (p1 ++ k :: p2)%list -> j_origin k = Some o ->
    (forall P, attached (t_doc t) (j_parent k) P -> ~ rewritten P o) /\
    (p1 <> [] -> ~ rewritten (mkPose (0,0,0) (0,0,0)) o) in
  ((exists t', define_as_root_link t link = Ok t') <-> fine) /\ (define_as_root_link t link = Abort <-> ~ fine).
Proof. exact @Proofs_Reroot.C48_returns_exact_proof. Qed.
Print Assumptions C48_returns_exact.

(** C48, exactly: transport_root_link_frame returns if and only if no origin attached to the
    root link is another way to write [pose]. Otherwise it aborts. *)
Theorem C48_transport_returns_exact : forall (t : tree R) pose, sound t ->
  let fine := forall P, attached (t_doc t) (t_root t) P -> ~ rewritten P pose in
  ((exists t', transport_frame t pose = Ok t') <-> fine) /\ (transport_frame t pose = Abort <-> ~ fine).
Proof. exact @Proofs_Reroot.C48_transport_returns_exact_proof. Qed.
Print Assumptions C48_transport_returns_exact.

(** C48. Two joints of one link at the same place, their rolls written with a difference of
    a whole turn: the call aborts. *)
Theorem C48_whole_turn_refuted : exists (d : list (elem R)) (t : tree R),
  ctor d = Ok t /\ define_as_root_link t "a" = Abort /\
  (exists p, path d (t_root t) p "a"%string /\ forall k, In k p -> type_of (j_type k) = Some fixed).
Proof. exact @Proofs_Reroot.C48_whole_turn_refuted_proof. Qed.
Print Assumptions C48_whole_turn_refuted.

(** An arm: a shoulder that turns about an oblique frame, a slider, a fixed gripper and, on
    the base, a head; the forearm has a mass and a shape. *)
Definition arm : list (elem R) :=
  [ELink (mkLink "base" (Some (mkInertial (Some (mkPose (1,2,3) (0,0,0))) 5 1 0 0 1 0 1)) [] []);
   ELink (mkLink "upper" None [mkShape (Some (mkPose (0,0,1) (PI/2,0,0))) "cylinder"] []);
   ELink (mkLink "fore" (Some (mkInertial None 2 1 0 0 1 0 1)) [] [mkShape None "box"]);
   ELink (mkLink "grip" None [] []); ELink (mkLink "head" None [] []);
   EJoint (mkJoint "shoulder" "revolute" "base" "upper" (Some (mkPose (0,1,2) (PI/2,0,PI/4))) (Some (0,0,1)) None);
   EJoint (mkJoint "slide" "prismatic" "upper" "fore" (Some (mkPose (1,0,0) (0,PI/6,0))) None None);
   EJoint (mkJoint "weld" "fixed" "fore" "grip" None None None);
   EJoint (mkJoint "neck" "continuous" "base" "head" (Some (mkPose (0,0,4) (0,0,PI/2))) None None)].

(*E*)
Definition arm_tree : tree R := mkTree arm ["shoulder"; "neck"; "weld"; "slide"]%string "base"%string.

(*E*)
Lemma arm_ok : ctor arm = Ok arm_tree.
Proof.
  unfold arm, arm_tree, arm.
  generalize (Some (mkPose (1,2,3) (0,0,0))), (Some (mkPose (0,0,1) (PI/2,0,0))), (Some (mkPose (0,1,2) (PI/2,0,PI/4))),
    (Some (mkPose (1,0,0) (0,PI/6,0))), (Some (mkPose (0,0,4) (0,0,PI/2))), (Some (0,0,1)), 0, 1, 2, 5.
  intros. vm_compute. reflexivity.
Qed.

Lemma arm_sound : sound arm_tree.
Proof.
  destruct (Props_Urdf.C44_or_throws arm) as [[_ [t' [e' [_ [_ h]]]]]|[_ e']]; rewrite arm_ok in e'; [|discriminate].
  now injection e' as <-.
Qed.

(** Its angles are in the usual ranges. *)
Lemma arm_usual : usual_origins arm.
Proof.
  assert (hz : usual_angles pose_id) by exact Proofs_Reroot.usual_id. pose proof PI_RGT_0 as hp.
  intros e o he ho. unfold arm in he. cbn [In] in he.
  repeat (destruct he as [<-|he]; [cbn [origins_of l_inertial l_visuals l_collisions i_origin sh_origin j_origin app map In] in ho;
    repeat (destruct ho as [<-|ho]; [cbn [pose_from]; try exact hz; unfold usual_angles, vx, vy, vz; cbn [p_rpy fst snd]; lra|]); contradiction|]).
  contradiction.
Qed.

(** The joints from the base to the gripper: none is floating or planar. *)
Lemma arm_path : path arm "base" [mkJoint "shoulder" "revolute" "base" "upper" (Some (mkPose (0,1,2) (PI/2,0,PI/4))) (Some (0,0,1)) None;
   mkJoint "slide" "prismatic" "upper" "fore" (Some (mkPose (1,0,0) (0,PI/6,0))) None None;
   mkJoint "weld" "fixed" "fore" "grip" None None None] "grip".
Proof.
  change "grip"%string with (j_child (mkJoint "weld" "fixed" "fore" "grip" (@None (Pose R)) None None)) at 2.
  apply (path_snoc arm "base" [_; _]); [|cbn; tauto].
  apply (path_snoc arm "base" [_]); [|cbn; tauto].
  apply (path_snoc arm "base" []); [|cbn; tauto]. constructor.
Qed.

(** So the gripper can become the root, of the same mechanism. *)
Example C48_arm : exists t', define_as_root_link arm_tree "grip" = Ok t' /\
  sound t' /\ t_root t' = "grip"%string /\ same_mechanism arm "base" (t_doc t') "grip".
Proof.
  destruct (C48_returns_usual arm_tree "grip" _ arm_sound arm_usual arm_path) as [h _].
  destruct h as [t' e]; [intros k [<-|[<-|[<-|[]]]]; cbn; tauto|].
  exists t'. split; [assumption|]. exact (C48_mechanism arm_tree t' "grip" arm_sound e).
Qed.

(** The condition of C48_returns_exact holds for the arm. *)
Example C48_arm_exact : forall p1 k p2 o,
  [mkJoint "shoulder" "revolute" "base" "upper" (Some (mkPose (0,1,2) (PI/2,0,PI/4))) (Some (0,0,1)) None;
   mkJoint "slide" "prismatic" "upper" "fore" (Some (mkPose (1,0,0) (0,PI/6,0))) None None;
   mkJoint "weld" "fixed" "fore" "grip" None None None] = (p1 ++ k :: p2)%list -> j_origin k = Some o ->
    (forall P, attached arm (j_parent k) P -> ~ rewritten P o) /\ (p1 <> [] -> ~ rewritten (mkPose (0,0,0) (0,0,0)) o).
Proof.
  apply (C48_returns_exact arm_tree "grip" _ arm_sound arm_path); [intros k [<-|[<-|[<-|[]]]]; cbn; tauto|].
  destruct C48_arm as [t' [e _]]. now exists t'.
Qed.

(** Half turns about the three axes, and no turn: one pose written in two ways. *)
Example C48_rewritten : rewritten (mkPose (0,0,1) (0,0,0)) (mkPose (0,0,1) (PI,PI,PI)).
Proof.
  split; [|split].
  - intros [[x y] z]. unfold pose_motion, rpy_mat, mapply, mmul, sum3, RX, RY, RZ, of_rows, vadd, vx, vy, vz. cbn [p_rpy p_xyz fst snd].
    rewrite cos_0, sin_0, cos_PI, sin_PI. apply f_equal2; [apply f_equal2|]; ring.
  - intros h. injection h as h. pose proof PI_RGT_0. lra.
  - reflexivity.
Qed.

(** A robot whose second joint is floating; the links below it cannot become the root. *)
Definition floater : list (elem R) :=
  [ELink (mkLink "a" None [] []); ELink (mkLink "b" None [] []); ELink (mkLink "c" None [] []);
   EJoint (mkJoint "ab" "floating" "a" "b" None None None); EJoint (mkJoint "bc" "revolute" "b" "c" None None None)].

(*E*)
Example C48_floater : exists t, ctor floater = Ok t /\ define_as_root_link t "c" = Throw.
Proof. eexists. split; [vm_compute; reflexivity|]. vm_compute. reflexivity. Qed.

(** A document with a loop that the constructor accepts. *)
Definition ring : list (elem R) :=
  [ELink (mkLink "r" None [] []); ELink (mkLink "a" None [] []); ELink (mkLink "b" None [] []);
   EJoint (mkJoint "ab" "fixed" "a" "b" None None None); EJoint (mkJoint "ba" "fixed" "b" "a" None None None)].

(*E*)
Example C48_ring : exists t, ctor ring = Ok t /\ sound t /\ above (t_doc t) "a" "a" /\ define_as_root_link t "a" = UB.
Proof.
  assert (e : exists t, ctor ring = Ok t /\ t_doc t = ring) by (eexists; split; [vm_compute; reflexivity|reflexivity]).
  destruct e as [t [e ed]]. exists t. split; [assumption|].
  assert (s : sound t).
  { destruct (Props_Urdf.C44_or_throws ring) as [[_ [t' [e' [_ [_ h]]]]]|[_ e']]; [|congruence].
    rewrite e in e'. now injection e' as <-. }
  assert (l : above (t_doc t) "a" "a").
  { rewrite ed. exists [mkJoint "ab" "fixed" "a" "b" None None None; mkJoint "ba" "fixed" "b" "a" None None None]. split; [discriminate|].
    apply (path_snoc ring "a" [_] (mkJoint "ba" "fixed" "b" "a" None None None)); [|cbn; tauto].
    apply (path_snoc ring "a" [] (mkJoint "ab" "fixed" "a" "b" None None None)); [|cbn; tauto]. constructor. }
  split; [assumption|]. split; [assumption|]. apply C48_loop_refuted; try assumption.
  rewrite ed. intros k [<-|[<-|[]]]; cbn; tauto.
Qed.

(** Making a link the root and then the old root again gives a document that lists the same
    joints, but the traversals no longer visit them in the order of the document. *)
Definition hub : list (elem R) :=
  [ELink (mkLink "hub" None [] []); ELink (mkLink "x" None [] []); ELink (mkLink "y" None [] []);
   EJoint (mkJoint "jx" "fixed" "hub" "x" None None None); EJoint (mkJoint "jy" "fixed" "hub" "y" None None None)].

(*E*)
Example C48_sibling_order : exists t t1 t2, ctor hub = Ok t /\ define_as_root_link t "x" = Ok t1 /\
  define_as_root_link t1 "hub" = Ok t2 /\ t_doc t2 = hub /\
  children hub (t_ix t) "hub" = ["jx"; "jy"]%string /\ children hub (t_ix t2) "hub" = ["jy"; "jx"]%string.
Proof.
  eexists. eexists. eexists. split; [vm_compute; reflexivity|]. split; [vm_compute; reflexivity|].
  split; [vm_compute; reflexivity|]. vm_compute. auto.
Qed.

(** The frame of the base of the arm can be moved and turned. *)
Example C48_arm_transport : exists t', transport_frame arm_tree (mkPose (0,0,1) (PI/2,0,0)) = Ok t' /\
  same_mechanism arm "base" (t_doc t') "base".
Proof.
  destruct (C48_transport_returns_usual arm_tree (mkPose (0,0,1) (PI/2,0,0)) arm_sound) as [t' e].
  - unfold usual_angles. cbn. unfold vx, vy, vz. cbn. pose proof PI_RGT_0. lra.
  - exact arm_usual.
  - exists t'. split; [assumption|]. apply (C48_transport arm_tree t' _ arm_sound e).
Qed.
