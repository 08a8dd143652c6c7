(** * Edits of robots: the property tree of the document and the records *)
From Coq Require Import String Ascii.
From Coq Require Import List ZArith Lia Bool.
From Flocq Require Import Core.Core IEEE754.BinarySingleNaN.
Import ListNotations.
From Verif Require Import Scalar Model_Pose Model_Urdf Model_Squash Model_Text Model_UrdfText Model_UrdfDoc Spec_UrdfText Spec_UrdfDoc Proofs_UrdfText.
From Verif Require Import Model_Anim (ptree, PT, pt_data, pt_kids, set_kids).
Local Open Scope string_scope.
From Verif Require Proofs_UrdfDoc.

(** C76: the first joint of the root link and the link are removed from the document as from the
    records. *)
Theorem C76_rm_root : forall geo x, readable_doc geo (x_robot x) ->
  outcome (becomes geo x) (x_rm_root_joint geo x) (rm_root_joint (x_tree geo x)).
Proof. exact @Proofs_UrdfDoc.C76_rm_root_proof. Qed.
Print Assumptions C76_rm_root.

(** C76: the same for a joint without descendants. *)
Theorem C76_rm_leaf : forall geo x n, readable_doc geo (x_robot x) ->
  outcome (becomes geo x) (x_rm_leaf_joint geo x n) (rm_leaf_joint (x_tree geo x) n).
Proof. exact @Proofs_UrdfDoc.C76_rm_leaf_proof. Qed.
Print Assumptions C76_rm_leaf.

(** C76: the frame of the root link is changed in the document as in the records. *)
Theorem C76_transport : forall L geo x pose noprune, readable_doc geo (x_robot x) ->
  (forall t', @transport_root_link_frame f64 (F64Scalar L) (x_tree geo x) pose noprune = Ok t' -> fin_doc (t_doc t')) ->
  outcome (becomes geo x) (x_transport L geo x pose noprune) (@transport_root_link_frame f64 (F64Scalar L) (x_tree geo x) pose noprune).
Proof. exact @Proofs_UrdfDoc.C76_transport_proof. Qed.
Print Assumptions C76_transport.

(** C76: a joint of the root link is reversed in the document as in the records. *)
Theorem C76_flip : forall L geo x n exception, readable_doc geo (x_robot x) -> fin_flip L (x_tree geo x) n exception ->
  outcome (becomes geo x) (x_flip L geo x n exception) (@flip_root_link_joint f64 (F64Scalar L) (x_tree geo x) n exception).
Proof. exact @Proofs_UrdfDoc.C76_flip_proof. Qed.
Print Assumptions C76_flip.

(** C76: the root link is changed in the document as in the records. *)
Theorem C76_define_as_root : forall L geo x link, readable_doc geo (x_robot x) -> fin_edit L (DefineAsRoot link) (x_tree geo x) ->
  outcome (becomes geo x) (x_define_as_root_link L geo x link) (@define_as_root_link f64 (F64Scalar L) (x_tree geo x) link).
Proof. exact @Proofs_UrdfDoc.C76_define_as_root_proof. Qed.
Print Assumptions C76_define_as_root.

(** C76: a joint is made fixed or floating in the document as in the records. *)
Theorem C76_make : forall geo x n, readable_doc geo (x_robot x) ->
  outcome (becomes geo x) (x_make "fixed" x n) (makeJointFixed (x_tree geo x) n)
  /\ outcome (becomes geo x) (x_make "floating" x n) (makeJointFloating (x_tree geo x) n).
Proof. exact @Proofs_UrdfDoc.C76_make_proof. Qed.
Print Assumptions C76_make.

(** C76: the continuous joints are made fixed in the document as in the records, with the same
    list of names. *)
Theorem C76_continuous : forall geo x, readable_doc geo (x_robot x) ->
  outcome (becomes_with geo x) (x_makeContinuousJointsFixed geo x) (makeContinuousJointsFixed (x_tree geo x)).
Proof. exact @Proofs_UrdfDoc.C76_continuous_proof. Qed.
Print Assumptions C76_continuous.

(** C76: the joints that satisfy a predicate on their elements are removed, with their
    descendants, as those whose records satisfy the same predicate. *)
Theorem C76_remove : forall geo x pred pred', readable_doc geo (x_robot x) ->
  (forall pt j, In ("joint", pt) (pt_kids (x_robot x)) -> joint_of pt = Ok j -> pred' j = pred pt) ->
  outcome (becomes_with geo x) (x_removeSubTreeIfJoint geo x pred) (removeSubTreeIfJoint (x_tree geo x) pred').
Proof. exact @Proofs_UrdfDoc.C76_remove_proof. Qed.
Print Assumptions C76_remove.

(** C76: the mass of the child link of a joint is given to the parent link in the document as in
    the records. *)
Theorem C76_squash : forall L geo x n, readable_doc geo (x_robot x) -> fin_edit L (SquashMass n) (x_tree geo x) ->
  outcome (becomes geo x) (x_squashJointMass L x n) (@squashJointMass f64 (F64Scalar L) (x_tree geo x) n).
Proof. exact @Proofs_UrdfDoc.C76_squash_proof. Qed.
Print Assumptions C76_squash.

(** C76: the masses behind the fixed joints are moved in the document as in the records. *)
Theorem C76_squash_fixed : forall L geo x, readable_doc geo (x_robot x) -> fin_squash_walk L (x_tree geo x) ->
  outcome (becomes geo x) (x_squashFixedJointsMass L geo x) (@squashFixedJointsMass f64 (F64Scalar L) (x_tree geo x)).
Proof. exact @Proofs_UrdfDoc.C76_squash_fixed_proof. Qed.
Print Assumptions C76_squash_fixed.

(** C76: the joints without mass are made fixed in the document as in the records, with the same
    list of names. *)
Theorem C76_massless : forall L geo x, readable_doc geo (x_robot x) -> fin_massless_walk L (x_tree geo x) ->
  outcome (becomes_with geo x) (x_makeMasslessJointsFixed L geo x) (@makeMasslessJointsFixed f64 (F64Scalar L) (x_tree geo x)).
Proof. exact @Proofs_UrdfDoc.C76_massless_proof. Qed.
Print Assumptions C76_massless.

(** C76: the history of a robot. The document is read, then edited as often as one wants: the
    document and the records agree at the end, and what the records do not show has not changed.
    The robot is refused by both or by none. *)
Theorem C76_history : forall L geo robot es, Forall (readable geo) (pt_kids robot) ->
  match ctor (doc_of geo robot) with
  | Ok t => exists x, x_ctor geo robot = Ok x /\ x_robot x = robot /\ x_tree geo x = t
            /\ (fin_run L es t -> outcome (becomes geo x) (x_run L geo es x) (run L es t))
  | r => x_ctor geo robot = cast r
  end.
Proof. exact @Proofs_UrdfDoc.C76_history_proof. Qed.
Print Assumptions C76_history.

(** C76: after any edits the text of the robot element is the same, and every element that is
    left has the text of an element of the same kind that was there. *)
Theorem C76_text : forall L geo es x x', x_run L geo es x = Ok x' -> same_texts (x_robot x) (x_robot x').
Proof. exact @Proofs_UrdfDoc.C76_text_proof. Qed.
Print Assumptions C76_text.

(** A robot of three links: the mass of the second is given to the first, which is then no
    longer the root; the last joint is made fixed, then removed. *)
Example C76_case :
  let at_ l := ("<xmlattr>", PT "" (map (fun p => (fst p, PT (snd p) [])) l)) in
  let el k l := (k, PT "" [at_ l]) in
  let inertial m o := ("inertial", PT "" (app o [el "mass" [("value", m)]; el "inertia" [("ixx", "1"); ("ixy", "0"); ("ixz", "0"); ("iyy", "1"); ("iyz", "0"); ("izz", "1")]])) in
  let joint n t p c r := ("joint", PT "" (at_ [("name", n); ("type", t)] :: el "parent" [("link", p)] :: el "child" [("link", c)] :: r)) in
  let robot := PT "" [at_ [("name", "r")]; el "material" [("name", "m")];
    ("link", PT "" [at_ [("name", "a")]; inertial "1" []]);
    ("link", PT "" [at_ [("name", "b")]; inertial "2" [el "origin" [("xyz", "1 0 0")]]; ("visual", PT "" [])]);
    ("link", PT "" [at_ [("name", "c")]]);
    joint "j1" "fixed" "a" "b" [el "origin" [("xyz", "0 0 1")]];
    joint "j2" "continuous" "b" "c" [el "limit" [("effort", "3")]]] in
  let o : f64 := f64_ofZ 0 in
  let L := {| d_cos := fun _ => f64_ofZ 1; d_sin := fun _ => o; d_acos := fun _ => o; d_atan2 := fun _ _ => o; d_fmod := fun _ _ => o; d_pi := o; d_2pi := o; d_pi2 := o |} in
  let es := [SquashMass "j1"; MakeContinuousFixed; DefineAsRoot "b"; RmLeafJoint "j2"] in
  Forall (readable (fun _ => "")) (pt_kids robot)
  /\ exists t, ctor (doc_of (fun _ => "") robot) = Ok t /\ fin_run L es t /\ exists t', run L es t = Ok t' /\ t_root t' = "b".
Proof.
  cbv zeta. split.
  - rewrite Forall_forall. intros c hc. apply Proofs_UrdfDoc.readable_test. revert c hc. apply forallb_forall. vm_compute. reflexivity.
  - match goal with |- exists t, ctor ?d = Ok t /\ fin_run ?L ?es t /\ _ =>
      assert (k : match ctor d with Ok t => Proofs_UrdfDoc.fin_run_b L es t && match run L es t with Ok t' => String.eqb (t_root t') "b" | _ => false end | _ => false end = true)
        by (vm_compute; reflexivity);
      destruct (ctor d) as [t| | |]; try discriminate k; exists t; split; [reflexivity|];
      apply andb_true_iff in k; destruct k as (k1 & k2); split; [now apply Proofs_UrdfDoc.fin_run_test|];
      destruct (run L es t) as [t'| | |]; try discriminate k2; exists t'; split; [reflexivity|now apply String.eqb_eq]
    end.
Qed.
