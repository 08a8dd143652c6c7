(** * Specification: the edits of a robot, in the document and in the records

    A document can be read when its joints and links can be; an edit of the document agrees with
    the edit of the records when it ends in the same way, and gives the document of the new
    records where all that the records do not show is as before. *)
From Coq Require Import String.
From Coq Require Import List ZArith Bool.
From Flocq Require Import IEEE754.BinarySingleNaN.
Import ListNotations.
From Verif Require Import Scalar Model_Pose Model_Urdf Model_Squash Model_Text Model_UrdfText Model_UrdfDoc Spec_UrdfText.
From Verif Require Import Model_Anim (ptree, PT, pt_data, pt_kids, set_kids).
Local Open Scope string_scope.

(** ** Documents that can be read *)
Definition readable (geo : option ptree -> string) (c : string * ptree) : Prop :=
  (fst c = "joint" -> exists j, joint_of (snd c) = Ok j)
  /\ (fst c = "link" -> (exists l, link_of geo (snd c) = Ok l) /\ (List.length (kids_named "inertial" (snd c)) <= 1)%nat).
(** The joints have different names. *)
Definition readable_doc (geo : option ptree -> string) (robot : ptree) : Prop :=
  Forall (readable geo) (pt_kids robot) /\ NoDup (map (@j_name f64) (joints (doc_of geo robot))).

(** ** What the records do not show

    In a joint, all but the type, the two links, the origin and the axis; in a link, all but the
    inertial element and the origins of the visual and collision elements; the other elements. *)
Definition same_rest (c c' : string * ptree) : Prop :=
  fst c' = fst c
  /\ (fst c = "joint" ->
      (forall k, ~ In k ["<xmlattr>"; "parent"; "child"; "origin"; "axis"] -> kids_named k (snd c') = kids_named k (snd c))
      /\ (forall a, a <> "type" -> child_at (attr_of a) (snd c') = child_at (attr_of a) (snd c)))
  /\ (fst c = "link" ->
      (forall k, ~ In k ["inertial"; "visual"; "collision"] -> kids_named k (snd c') = kids_named k (snd c))
      /\ (forall k, In k ["visual"; "collision"] -> Forall2 same_but_origin (kids_named k (snd c)) (kids_named k (snd c'))))
  /\ (fst c <> "joint" -> fst c <> "link" -> c' = c).
(** The second document is the first, less some joints and links. *)
Inductive edited : list (string * ptree) -> list (string * ptree) -> Prop :=
| edited_nil : edited [] []
| edited_keep c c' l l' : same_rest c c' -> edited l l' -> edited (c :: l) (c' :: l')
| edited_drop c l l' : fst c = "joint" \/ fst c = "link" -> edited l l' -> edited (c :: l) l'.

(** The text between the elements of the robot, and the text in each of its elements. *)
Definition same_texts (r r' : ptree) : Prop :=
  pt_data r' = pt_data r
  /\ forall c', In c' (pt_kids r') -> exists c, In c (pt_kids r) /\ fst c = fst c' /\ pt_data (snd c) = pt_data (snd c').

(** ** Agreement *)
Definition outcome {X V} (agree : X -> V -> Prop) (rx : res X) (rv : res V) : Prop :=
  match rv with
  | Ok v => exists x, rx = Ok x /\ agree x v
  | Throw => rx = Throw
  | Abort => rx = Abort
  | UB => rx = UB
  end.
Definition becomes (geo : option ptree -> string) (x x' : xtree) (t' : tree f64) : Prop :=
  x_tree geo x' = t' /\ readable_doc geo (x_robot x') /\ edited (pt_kids (x_robot x)) (pt_kids (x_robot x')).
Definition becomes_with (geo : option ptree -> string) (x : xtree) (x' : xtree * list string) (t' : tree f64 * list string) : Prop :=
  becomes geo x (fst x') (fst t') /\ snd x' = snd t'.

(** ** Finite numbers

    A number that is not finite cannot be read again. *)
Definition fin_elem (e : elem f64) : Prop :=
  match e with EJoint j => fin_origin (j_origin j) | ELink l => fin_link l | EOther _ => True end.
Definition fin_doc (d : list (elem f64)) : Prop := Forall fin_elem d.

Section Finite.
Context (L : libm64).
Local Instance S64 : Scalar f64 := F64Scalar L.

(** The change of frame before the flip of a joint of the root link, and before all the flips. *)
Definition fin_flip (t : tree f64) (n : string) (exception : bool) : Prop :=
  forall j o t1, find_joint (t_doc t) n = Some j -> j_origin j = Some o ->
    transport_root_link_frame t o (fun m => exception && String.eqb m n) = Ok t1 -> fin_doc (t_doc t1).
Fixpoint fin_flips (t : tree f64) (names : list string) : Prop :=
  match names with
  | [] => True
  | n :: r =>
      let exception := match r with [] => false | _ => true end in
      fin_flip t n exception /\ forall t', flip_root_link_joint t n exception = Ok t' -> fin_flips t' r
  end.

(** The inertial element that is computed when the mass of the child of a joint is given to its
    parent. *)
Definition finite3 (v : Array3d f64) : bool := is_finite (a0 v) && is_finite (a1 v) && is_finite (a2 v).
Definition finite_inertial (i : Inertial f64) : bool :=
  match i_origin i with Some p => finite3 (p_xyz p) && finite3 (p_rpy p) | None => true end
  && is_finite (i_mass i) && is_finite (i_ixx i) && is_finite (i_ixy i) && is_finite (i_ixz i)
  && is_finite (i_iyy i) && is_finite (i_iyz i) && is_finite (i_izz i).
Definition finite_squash (d : list (elem f64)) (j : Joint f64) : bool :=
  match find_link d (j_child j) with
  | None => true
  | Some c =>
      match l_inertial c, find_link d (j_parent j) with
      | Some ci, Some p => finite_inertial (squashed j (l_inertial p) ci)
      | _, _ => true
      end
  end.
Definition finite_fixed (d : list (elem f64)) (j : Joint f64) : bool :=
  match type_of (j_type j) with Some fixed => finite_squash d j | _ => true end.
(** The two walks that give masses, stopped at the first result that is not finite. *)
Definition fin_squash_walk (t : tree f64) : Prop :=
  traverse_joints t (fun d => d) (fun d _ => Ok (d, true))
    (fun d j => if finite_fixed d j then sf_finish d j else UB) (t_doc t) <> UB.
Definition fin_massless_walk (t : tree f64) : Prop :=
  traverse_joints t fst (fun v _ => Ok (v, true))
    (fun v j => if finite_fixed (fst v) j then mm_finish v j else UB) (t_doc t, []) <> UB.

(** ** Histories *)
Inductive edit :=
| RmRootJoint
| RmLeafJoint (joint : string)
| DefineAsRoot (link : string)
| TransportRoot (pose : Pose f64)
| MakeFixed (joint : string)
| MakeFloating (joint : string)
| MakeContinuousFixed
| RemoveSubTree (pred : Joint f64 -> bool)
| SquashMass (joint : string)
| SquashFixed
| MakeMasslessFixed.
Definition apply (e : edit) (t : tree f64) : res (tree f64) :=
  match e with
  | RmRootJoint => rm_root_joint t
  | RmLeafJoint n => rm_leaf_joint t n
  | DefineAsRoot l => define_as_root_link t l
  | TransportRoot o => transport_frame t o
  | MakeFixed n => makeJointFixed t n
  | MakeFloating n => makeJointFloating t n
  | MakeContinuousFixed => rmap fst (makeContinuousJointsFixed t)
  | RemoveSubTree p => rmap fst (removeSubTreeIfJoint t p)
  | SquashMass n => squashJointMass t n
  | SquashFixed => squashFixedJointsMass t
  | MakeMasslessFixed => rmap fst (makeMasslessJointsFixed t)
  end.
Definition x_apply (geo : option ptree -> string) (e : edit) (x : xtree) : res xtree :=
  match e with
  | RmRootJoint => x_rm_root_joint geo x
  | RmLeafJoint n => x_rm_leaf_joint geo x n
  | DefineAsRoot l => x_define_as_root_link L geo x l
  | TransportRoot o => x_transport L geo x o (fun _ => false)
  | MakeFixed n => x_make "fixed" x n
  | MakeFloating n => x_make "floating" x n
  | MakeContinuousFixed => rmap fst (x_makeContinuousJointsFixed geo x)
  | RemoveSubTree p => rmap fst (x_removeSubTreeIfJoint geo x (fun pt => match joint_of pt with Ok j => p j | _ => false end))
  | SquashMass n => x_squashJointMass L x n
  | SquashFixed => x_squashFixedJointsMass L geo x
  | MakeMasslessFixed => rmap fst (x_makeMasslessJointsFixed L geo x)
  end.
Definition fin_edit (e : edit) (t : tree f64) : Prop :=
  match e with
  | DefineAsRoot l =>
      forall p, path_to_root (Datatypes.S (List.length (joints (t_doc t)))) t l = Ok p -> fin_flips t (rev p)
  | TransportRoot o => forall t', transport_frame t o = Ok t' -> fin_doc (t_doc t')
  | SquashMass n => forall j, find_joint (t_doc t) n = Some j -> finite_squash (t_doc t) j = true
  | SquashFixed => fin_squash_walk t
  | MakeMasslessFixed => fin_massless_walk t
  | _ => True
  end.
Fixpoint run (es : list edit) (t : tree f64) : res (tree f64) :=
  match es with [] => Ok t | e :: r => let! t' := apply e t in run r t' end.
Fixpoint x_run (geo : option ptree -> string) (es : list edit) (x : xtree) : res xtree :=
  match es with [] => Ok x | e :: r => let! x' := x_apply geo e x in x_run geo r x' end.
Fixpoint fin_run (es : list edit) (t : tree f64) : Prop :=
  match es with [] => True | e :: r => fin_edit e t /\ forall t', apply e t = Ok t' -> fin_run r t' end.
End Finite.
