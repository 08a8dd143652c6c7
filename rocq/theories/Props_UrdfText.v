(** * Elements of URDF documents *)
From Coq Require Import String Ascii.
From Coq Require Import List ZArith Bool Lia.
From Flocq Require Import Core.Core IEEE754.BinarySingleNaN.
Import ListNotations.
From Verif Require Import Scalar Model_Vec Model_Rigid Model_Average Model_Pose Model_Urdf Model_Squash Model_Text Model_UrdfText.
From Verif Require Import Model_Anim Spec_UrdfText.
Local Open Scope string_scope.
Local Open Scope Z_scope.
From Verif Require Proofs_UrdfText.

(** C59: what the readers of the elements return, for attributes that are absent, malformed
    or well formed. Numbers, coordinates and names are mandatory unless they have a
    documented default. *)
Theorem C59_readers : forall pt,
  let number p r := reads get_double p pt r in
  let coords p r := reads array3d_get p pt r in
  let text p r := reads Some p pt r in
  (forall r, text ["<xmlattr>"; "name"] r -> el_name pt = mandatory r)
  /\ (forall r, text ["parent"; "<xmlattr>"; "link"] r -> el_parent_link pt = mandatory r)
  /\ (forall r, text ["child"; "<xmlattr>"; "link"] r -> el_child_link pt = mandatory r)
  /\ (forall r, text ["<xmlattr>"; "joint"] r -> mimic_joint pt = mandatory r)
  /\ (forall r, number ["<xmlattr>"; "multiplier"] r -> mimic_multiplier pt = defaulted (f64_ofZ 1) r)
  /\ (forall r, number ["<xmlattr>"; "offset"] r -> mimic_offset pt = defaulted (f64_ofZ 0) r)
  /\ (forall r, number ["mass"; "<xmlattr>"; "value"] r -> inertial_mass pt = mandatory r)
  /\ (forall m r, number ["inertia"; "<xmlattr>"; m] r -> inertial_member m pt = mandatory r)
  /\ (forall r, coords ["<xmlattr>"; "size"] r -> box_size pt = mandatory r)
  /\ (forall r, number ["<xmlattr>"; "radius"] r -> cylinder_radius pt = mandatory r /\ sphere_radius pt = mandatory r)
  /\ (forall r, number ["<xmlattr>"; "length"] r -> cylinder_length pt = mandatory r)
  /\ (forall r, text ["<xmlattr>"; "filename"] r -> mesh_filename pt = mandatory r)
  /\ (forall r r', coords ["<xmlattr>"; "xyz"] r -> coords ["<xmlattr>"; "rpy"] r' ->
      pose_from_ptree pt = (let zeros := (f64_ofZ 0, f64_ofZ 0, f64_ofZ 0) in
                            let! x := defaulted zeros r in let! y := defaulted zeros r' in Ok (mkPose x y)))
  /\ (forall r, coords ["<xmlattr>"; "scale"] r -> mesh_scale pt = lenient (f64_ofZ 1, f64_ofZ 1, f64_ofZ 1) r)
  /\ (forall r, coords ["axis"; "<xmlattr>"; "xyz"] r -> el_axis pt = lenient (f64_ofZ 1, f64_ofZ 0, f64_ofZ 0) r)
  /\ (forall r, number ["limit"; "<xmlattr>"; "effort"] r -> limit_effort pt = optional r)
  /\ (forall r, number ["limit"; "<xmlattr>"; "velocity"] r -> limit_velocity pt = optional r)
  /\ (forall r r', number ["limit"; "<xmlattr>"; "lower"] r -> number ["limit"; "<xmlattr>"; "upper"] r' ->
      limit_lower_upper pt = if match optional r, optional r' with None, None => true | _, _ => false end then None
                             else Some (lenient (f64_ofZ 0) r, lenient (f64_ofZ 0) r')).
Proof. exact @Proofs_UrdfText.C59_readers_proof. Qed.
Print Assumptions C59_readers.

(** C59: the type of a joint is one of six words, and the shape of a visual is the first
    there is among box, cylinder, sphere and mesh; a joint of another type and a visual
    without a shape are refused. *)
Theorem C59_kinds : forall L pt,
  (forall r, reads Some ["<xmlattr>"; "type"] pt r ->
     (forall t, joint_type pt = Ok t <-> r = Value (match t with
        | revolute => "revolute" | continuous => "continuous" | prismatic => "prismatic"
        | fixed => "fixed" | floating => "floating" | planar => "planar" end)) /\
     (joint_type pt = Throw \/ exists t, joint_type pt = Ok t))
  /\ (at_path ["geometry"] pt None -> visual_geometry pt = Throw)
  /\ (forall g box cylinder sphere mesh, at_path ["geometry"] pt (Some g) ->
      at_path ["box"] g box -> at_path ["cylinder"] g cylinder -> at_path ["sphere"] g sphere -> at_path ["mesh"] g mesh ->
      visual_geometry pt =
        match box, cylinder, sphere, mesh with
        | Some c, _, _, _ => Ok (Box c)
        | None, Some c, _, _ => Ok (Cylinder c)
        | None, None, Some c, _ => Ok (Sphere c)
        | None, None, None, Some c => Ok (Mesh c)
        | None, None, None, None => Throw
        end)
  /\ (at_path ["origin"] pt None -> el_origin L pt = Ok (mkPose (f64_ofZ 0, f64_ofZ 0, f64_ofZ 0) (f64_ofZ 0, f64_ofZ 0, f64_ofZ 0)))
  /\ (forall o, at_path ["origin"] pt (Some o) -> el_origin L pt = pose_from_ptree o).
Proof. exact @Proofs_UrdfText.C59_kinds_proof. Qed.
Print Assumptions C59_kinds.

(** A visual with two shapes: the box is kept. *)
Example C59_kinds_case : visual_geometry (PT "" [("geometry", PT "" [("mesh", PT "m" []); ("box", PT "b" [])])]) = Ok (Box (PT "b" [])).
Proof. reflexivity. Qed.

(** C59, finding: a malformed axis or scale is not refused but read as the default. *)
Theorem C59_malformed_refuted : exists pt, reads array3d_get ["axis"; "<xmlattr>"; "xyz"] pt Malformed
  /\ reads array3d_get ["<xmlattr>"; "scale"] pt Malformed
  /\ el_axis pt = (f64_ofZ 1, f64_ofZ 0, f64_ofZ 0) /\ mesh_scale pt = (f64_ofZ 1, f64_ofZ 1, f64_ofZ 1).
Proof. exact @Proofs_UrdfText.C59_malformed_refuted_proof. Qed.
Print Assumptions C59_malformed_refuted.

(** C59: a pose with finite coordinates, put in a document as an origin element or left out
    when it is the identity, is read back equal (the zeros of a null part may change
    sign). *)
Theorem C59_pose : forall L p, fin_pose p ->
  exists q, pose_from_optional L (pose_to_ptree L p) = Ok q /\ eq_pose q p
  /\ (~ eq3 (f64_ofZ 0, f64_ofZ 0, f64_ofZ 0) (p_xyz p) -> p_xyz q = p_xyz p)
  /\ (~ eq3 (f64_ofZ 0, f64_ofZ 0, f64_ofZ 0) (p_rpy p) -> p_rpy q = p_rpy p).
Proof. exact @Proofs_UrdfText.C59_pose_proof. Qed.
Print Assumptions C59_pose.

(** C60: the links of a joint are exchanged, its type and its name are changed as the model
    of the records says, and nothing else that is read. *)
Theorem C60_links : forall pt j, joint_of pt = Ok j ->
  (exists pt', el_flip_links pt = Ok pt' /\ joint_of pt' = Ok (flip_joint_links j))
  /\ (forall type, joint_of (el_make type pt) = Ok (set_type j type))
  /\ (forall n, joint_of (put_name n pt) = Ok (mkJoint n (j_type j) (j_parent j) (j_child j) (j_origin j) (j_axis j) (j_mimic j))).
Proof. exact @Proofs_UrdfText.C60_links_proof. Qed.
Print Assumptions C60_links.

(** C60: the axis of a joint is inverted as the model of the records says: read again, the
    axis is the opposite one. *)
Theorem C60_axis : forall L pt j, joint_of pt = Ok j ->
  (forall a, j_axis j = Some a -> fin3 a) ->
  match @flip_joint_axis f64 (F64Scalar L) j with
  | Ok j' => exists pt', el_flip_axis L pt = Ok pt' /\ joint_of pt' = Ok j'
             /\ (type_of (j_type j) <> Some fixed -> type_of (j_type j) <> Some floating ->
                 eq3 (el_axis pt') (Bopp (a0 (el_axis pt)), Bopp (a1 (el_axis pt)), Bopp (a2 (el_axis pt))))
  | _ => el_flip_axis L pt = Throw
  end.
Proof. exact @Proofs_UrdfText.C60_axis_proof. Qed.
Print Assumptions C60_axis.

(** C60: the origin of a joint is changed exactly as the model of the records says, if the
    numbers written are finite, and no other child of the element. *)
Theorem C60_origin : forall L lhs ilhs noprune pt j, joint_of pt = Ok j ->
  match @premul f64 (F64Scalar L) lhs ilhs (j_origin j) noprune with
  | Ok o => exists pt', el_premul L lhs ilhs noprune pt = Ok pt' /\ (fin_origin o -> joint_of pt' = Ok (set_origin j o))
            /\ forall k, k <> "origin" -> kids_named k pt' = kids_named k pt
  | Abort => el_premul L lhs ilhs noprune pt = Abort
  | _ => False
  end.
Proof. exact @Proofs_UrdfText.C60_origin_proof. Qed.
Print Assumptions C60_origin.

(** C60: the inertial element that squashJointMass writes in the parent link is read again as
    the inertial that the model of the records computes. *)
Theorem C60_inertial : forall L joint j child_inertial ci parent_inertial pi,
  joint_of joint = Ok j -> inertial_of child_inertial = Ok ci ->
  (match parent_inertial, pi with None, None => True | Some x, Some y => inertial_of x = Ok y | _, _ => False end) ->
  exists pt, el_squashed L joint child_inertial parent_inertial = Ok pt
  /\ (fin_inertial (@squashed f64 (F64Scalar L) j pi ci) -> inertial_of pt = Ok (@squashed f64 (F64Scalar L) j pi ci)).
Proof. exact @Proofs_UrdfText.C60_inertial_proof. Qed.
Print Assumptions C60_inertial.

(** C60: changing the frame of the root link changes the origins of its inertial, visual and
    collision elements as the model of the records says. *)
Theorem C60_transport : forall L geo ipose pose pt l, link_of geo pt = Ok l ->
  (length (kids_named "inertial" pt) <= 1)%nat ->
  match @transport_link f64 (F64Scalar L) ipose pose l with
  | Ok l1 => exists pt', el_transport L ipose pose pt = Ok pt' /\ (fin_link l1 -> link_of geo pt' = Ok l1)
             /\ (forall k, ~ In k ["inertial"; "visual"; "collision"] -> kids_named k pt' = kids_named k pt)
             /\ (forall k, Forall2 same_but_origin (kids_named k pt) (kids_named k pt'))
  | Abort => el_transport L ipose pose pt = Abort
  | _ => False
  end.
Proof. exact @Proofs_UrdfText.C60_transport_proof. Qed.
Print Assumptions C60_transport.

(** C61: transform_filenames replaces the names of the files of meshes and textures, each one
    once, and changes nothing else in the document. *)
Theorem C61_names : forall op robot robot', transform_filenames op robot = (Ok tt, robot') ->
  shape_eq robot robot'
  /\ (forall pos, is_filename robot pos -> text_at robot' pos = option_map op (text_at robot pos))
  /\ (forall pos, ~ is_filename robot pos -> text_at robot' pos = text_at robot pos).
Proof. exact @Proofs_UrdfText.C61_names_proof. Qed.
Print Assumptions C61_names.

(** C61: when it throws, at a visual v of a link l, what comes before v in the document has been
    changed as in a document without the rest; of the rest only the materials of the robot are
    changed, each one as in a document of its own. *)
Theorem C61_stopped : forall op robot robot', transform_filenames op robot = (Throw, robot') ->
  exists pre l post vpre v vpost pre' vpre' post',
    (pt_kids robot = pre ++ ("link", l) :: post)%list /\ (pt_kids l = vpre ++ ("visual", v) :: vpost)%list /\ no_child "geometry" v /\
    (transform_filenames op (PT (pt_data robot) (pre ++ [("link", PT (pt_data l) vpre)]))
       = (Ok tt, PT (pt_data robot) (pre' ++ [("link", PT (pt_data l) vpre')])))%list /\
    (robot' = PT (pt_data robot) (pre' ++ ("link", PT (pt_data l) (vpre' ++ ("visual", v) :: vpost)) :: post'))%list /\
    Forall2 (fun c c' => if String.eqb (fst c) "material" then transform_filenames op (PT "" [c]) = (Ok tt, PT "" [c']) else c' = c) post post'.
Proof. exact @Proofs_UrdfText.C61_stopped_proof. Qed.
Print Assumptions C61_stopped.

Example C61_stopped_ex :
  let tex n := ("material", PT "" [("texture", PT "" [("<xmlattr>", PT "" [("filename", PT n [])])])]) in
  let bad := ("link", PT "" [("visual", PT "" [])]) in
  transform_filenames (fun s => s ++ "!") (PT "" [tex "a"; bad; tex "b"]) = (Throw, PT "" [tex "a!"; bad; tex "b!"]).
Proof. reflexivity. Qed.

(** C61: it fails, with an exception, exactly when a visual of a link has no geometry. *)
Theorem C61_throws : forall op robot,
  (fst (transform_filenames op robot) = Ok tt \/ fst (transform_filenames op robot) = Throw)
  /\ (fst (transform_filenames op robot) = Throw <->
      exists l v, In ("link", l) (pt_kids robot) /\ In ("visual", v) (pt_kids l) /\ no_child "geometry" v).
Proof. exact @Proofs_UrdfText.C61_throws_proof. Qed.
Print Assumptions C61_throws.

(** C61: with the identity nothing changes, and two calls are one with the composition. *)
Theorem C61_compose : forall f g robot robot' robot'',
  transform_filenames f robot = (Ok tt, robot') -> transform_filenames g robot' = (Ok tt, robot'') ->
  transform_filenames (fun s => g (f s)) robot = (Ok tt, robot'')
  /\ snd (transform_filenames (fun s => s) robot) = robot.
Proof. exact @Proofs_UrdfText.C61_compose_proof. Qed.
Print Assumptions C61_compose.

(** C61, finding: the exception leaves the robot partly changed. *)
Theorem C61_atomic_refuted : exists op robot robot', transform_filenames op robot = (Throw, robot') /\ robot' <> robot.
Proof. exact @Proofs_UrdfText.C61_atomic_refuted_proof. Qed.
Print Assumptions C61_atomic_refuted.

(** A robot with a mesh in a visual and in a collision: the second one is not changed. *)
Example C61_case :
  let mesh n := PT "" [("mesh", PT "" [("<xmlattr>", PT "" [("filename", PT n [])])])] in
  let robot a := PT "" [("link", PT "" [("visual", PT "" [("geometry", mesh a)]); ("collision", PT "" [("geometry", mesh "b")])])] in
  transform_filenames (fun s => s ++ ".dae") (robot "a") = (Ok tt, robot "a.dae")
  /\ is_filename (robot "a") [0; 0; 0; 0; 0; 0]%nat.
Proof.
  split; [reflexivity|]. eexists _, _. split; [right; left; reflexivity|].
  repeat first [eapply follows_any; [reflexivity|] | eapply follows_first; [reflexivity|split; [eexists; reflexivity|intros j c h; inversion h]|] | apply follows_here].
Qed.

(** A revolute joint with an origin and the axis z, and an inertial. *)
Example C60_case :
  let at_ l := ("<xmlattr>", PT "" (map (fun p => (fst p, PT (snd p) [])) l)) in
  let el k l := (k, PT "" [at_ l]) in
  let joint := PT "" [at_ [("name", "j"); ("type", "revolute")]; el "origin" [("xyz", "1 0 0")]; el "parent" [("link", "a")]; el "child" [("link", "b")]; el "axis" [("xyz", "0 0 1")]] in
  let inertial := PT "" [el "mass" [("value", "2.5")]; el "inertia" [("ixx", "1"); ("ixy", "0"); ("ixz", "0"); ("iyy", "1"); ("iyz", "0"); ("izz", "1")]] in
  (exists j a, joint_of joint = Ok j /\ j_axis j = Some a /\ fin3 a)
  /\ (exists i, inertial_of inertial = Ok i /\ fin_inertial i)
  /\ exists l, link_of (fun _ => "") (PT "" [at_ [("name", "a")]; ("inertial", inertial); ("visual", PT "" [])]) = Ok l.
Proof.
  split; [|split].
  - eexists _, _. split; [reflexivity|]. split; [reflexivity|repeat split].
  - eexists. split; [reflexivity|]. repeat split.
  - eexists. reflexivity.
Qed.

(** A pose whose rotation is null. *)
Example C59_pose_case : fin_pose (mkPose (f64_ofZ 1, f64_ofZ 0, f64_ofZ 0) (f64_ofZ 0, f64_ofZ 0, f64_ofZ 0)).
Proof. repeat split. Qed.
