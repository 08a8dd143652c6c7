(** * Specification of the construction of a rigid body system from a URDF robot *)

From Coq Require Import String List Reals.
Import ListNotations.
From Verif Require Import Scalar RInst Model_Base Model_Vec Model_Rigid Model_Pose Model_Urdf Model_UrdfBuild
  Spec_Geom Spec_Pose Spec_Urdf Spec_Reroot Spec_Squash.
From Verif Require Model_Squash Model_Builder.
Import Model_Builder (JointType (..), Config (..), BodyMass (..), bm_mass, bm_com, bm_inertia, cfg_no_static_frame, cfg_joint_name, cfg_galilean).
Local Open Scope R_scope.

(** ** What a joint is for the builder

    [None] is a fixed joint.  A joint without axis has the first one. *)
Definition axis_of (j : Joint R) : vec3 := match j_axis j with Some a => a | None => (1,0,0) end.
Definition turning (j : Joint R) : Prop := (j_type j = "revolute" \/ j_type j = "continuous")%string.
Inductive kind (j : Joint R) : option JointType -> Prop :=
| kind_fixed : j_type j = "fixed"%string -> kind j None
| kind_x : turning j -> axis_of j = (1,0,0) -> kind j (Some Rx)
| kind_y : turning j -> axis_of j = (0,1,0) -> kind j (Some Ry)
| kind_z : turning j -> axis_of j = (0,0,1) -> kind j (Some Rz)
| kind_free : j_type j = "floating"%string -> kind j (Some FreeFlyer).

(** ** The calls

    The body of an "inertial" element: its mass, its centre of mass, its inertia (of which
    see C49_eigen). *)
Definition body_of (i : Inertial R) (m : body R) : Prop :=
  bm_mass m = i_mass i /\ bm_com m = p_xyz (pose_from (i_origin i)) /\
  bm_inertia m = snd (Model_Squash.urdfInertialToEigen i).

(** What has to be added for a joint: nothing or a static frame, if it is fixed; or else its
    child link, with its body. *)
Inductive added (cfg : Config) (d : list (elem R)) (j : Joint R) : list (call R) -> Prop :=
| added_nothing : kind j None -> cfg_no_static_frame cfg = true -> added cfg d j []
| added_frame : forall H, kind j None -> cfg_no_static_frame cfg = false ->
    (forall v, motion H v = pose_motion (pose_from (j_origin j)) v) ->
    added cfg d j [Model_Builder.AddStaticFrame (Model_Builder.mkStaticFrame (j_parent j) (j_child j) (j_name j) H)]
| added_link : forall ty i m H, kind j (Some ty) -> inertial_at d (j_child j) = Some i -> body_of i m ->
    (forall v, motion H v = pose_motion (pose_from (j_origin j)) v) ->
    added cfg d j [Model_Builder.AddLink (Model_Builder.mkLink (j_parent j) (j_child j) (j_name j) H ty m)].

(** What has to be added for the root: a free body, attached to nothing. *)
Inductive added_root (cfg : Config) (d : list (elem R)) (root : string) : list (call R) -> Prop :=
| root_nothing : inertial_at d root = None -> added_root cfg d root []
| root_link : forall i m H, inertial_at d root = Some i -> body_of i m -> (forall v, motion H v = v) ->
    added_root cfg d root
      [Model_Builder.AddLink (Model_Builder.mkLink ""%string root (cfg_joint_name cfg root) H FreeFlyer m)].

(** All the joints below the root, each once and after the one above it. *)
Definition in_order (d : list (elem R)) (root : string) (js : list (Joint R)) : Prop :=
  NoDup js /\ (forall j, In j js <-> attached d root j) /\
  forall l1 j l2, js = l1 ++ j :: l2 -> j_parent j = root \/ exists k, In k l1 /\ j_child k = j_parent j.

(** The builder [f] accepts all these calls, one after the other. *)
Inductive fed {B : Type} (f : call R -> B -> bool * B) : list (call R) -> B -> B -> Prop :=
| fed_nil : forall b, fed f [] b b
| fed_cons : forall c cs b b1 b2, f c b = (true, b1) -> fed f cs b1 b2 -> fed f (c :: cs) b b2.

(** ** The system built *)

Definition bodies_sum (g : blink R -> R) (cs : list (call R)) : R :=
  fold_right (fun c s => match c with Model_Builder.AddLink l => g l | _ => 0 end + s) 0 cs.
Definition built_mass (cs : list (call R)) : R := bodies_sum (fun l => bm_mass (Model_Builder.l_mass l)) cs.
(** The mass times the centre of mass, when the frames of the bodies are at [place]. *)
Definition built_first (place : string -> vec3 -> vec3) (cs : list (call R)) : vec3 :=
  let g l := vscale (bm_mass (Model_Builder.l_mass l)) (place (Model_Builder.l_body l) (bm_com (Model_Builder.l_mass l))) in
  (bodies_sum (fun l => vx (g l)) cs, bodies_sum (fun l => vy (g l)) cs, bodies_sum (fun l => vz (g l)) cs).

Definition mass_at (d : list (elem R)) (n : string) : R :=
  match inertial_at d n with Some i => i_mass i | None => 0 end.

(** ** Names

    The robots a builder that checks names accepts: the root has a body and is attached to
    the Galilean frame, every moving joint is attached to a body, and the name made up for
    the joint of the root is free. *)
Definition movable_joint (d : list (elem R)) (root : string) (j : Joint R) : Prop :=
  attached d root j /\ j_type j <> "fixed"%string.
Definition names_fit (cfg : Config) (d : list (elem R)) (root : string) : Prop :=
  cfg_galilean cfg = ""%string /\
  (forall j, movable_joint d root j -> j_parent j = root \/ exists k, movable_joint d root k /\ j_child k = j_parent j) /\
  (forall j, attached d root j -> cfg_no_static_frame cfg = false \/ j_type j <> "fixed"%string ->
     j_name j <> cfg_joint_name cfg root).
