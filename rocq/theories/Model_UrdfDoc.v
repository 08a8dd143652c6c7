(** * Model: the operations of RobotTree on the property tree of the document

    [Model_Urdf] and [Model_Squash] describe a robot by the records the library reads in its
    elements. Here the same operations work on the property tree itself (boost::property_tree),
    as the code does: elements are found by their name attribute, and changed with the writers of
    [Model_UrdfText]. Reals are the doubles of the document.

    Simplification: to find an element and to follow the joints the model reads all the
    attributes that the library knows, where the code reads the name and the links only. The two
    differ on documents with an attribute that cannot be read; the theorems are about documents
    where all can be. *)
From Coq Require Import String.
From Coq Require Import List ZArith Bool.
Import ListNotations.
From Verif Require Import Scalar Model_Pose Model_Urdf Model_Squash Model_Text Model_UrdfText.
From Verif Require Import Model_Anim (ptree, PT, pt_data, pt_kids, set_kids).
Local Open Scope string_scope.

Section Doc.
Context (L : libm64).
(** The text of a geometry, which no operation changes. *)
Variable geo : option ptree -> string.

(** src/scenegraph/urdf.cpp:406-430: what the library sees in a child of the robot: a joint, a
    link, or something it leaves alone. *)
Definition elem_of (c : string * ptree) : elem f64 :=
  if String.eqb (fst c) "joint" then match joint_of (snd c) with Ok j => EJoint j | _ => EOther "" end
  else if String.eqb (fst c) "link" then match link_of geo (snd c) with Ok l => ELink l | _ => EOther "" end
  else EOther "".
Definition doc_of (robot : ptree) : list (elem f64) := map elem_of (pt_kids robot).

(** src/scenegraph/urdf.cpp:342-377, [RobotTreeP]: the document, the index of the joints by
    parent link (by names, as in [Model_Urdf]) and the name of the root link. *)
Record xtree := mkX { x_robot : ptree; x_ix : list string; x_root : string }.
Definition x_tree (x : xtree) : tree f64 := mkTree (doc_of (x_robot x)) (x_ix x) (x_root x).

(** src/scenegraph/urdf.cpp:406-487, the constructor. *)
Definition x_ctor (robot : ptree) : res xtree :=
  let! t := ctor (doc_of robot) in Ok (mkX robot (t_ix t) (t_root t)).

(** The elements called [n] among the joints or the links (src/scenegraph/urdf.cpp:27-30,
    name_it). *)
Definition is_el (key n : string) (c : string * ptree) : bool :=
  String.eqb (fst c) key && match el_name (snd c) with Ok m => String.eqb m n | _ => false end.

(** src/scenegraph/urdf.cpp:727-741, [RobotTree::link] and [joint]. *)
Definition x_find (key n : string) (robot : ptree) : option ptree :=
  option_map snd (find (is_el key n) (pt_kids robot)).

(** boost::property_tree erase with an iterator. *)
Definition x_rm (key n : string) (robot : ptree) : ptree :=
  set_kids robot (filter (fun c => negb (is_el key n c)) (pt_kids robot)).

(** A change of one element, through the iterator kept in the index. *)
Definition x_upd (key n : string) (f : ptree -> res ptree) (robot : ptree) : res ptree :=
  let! l := mapM (fun c => if is_el key n c then let! c' := f (snd c) in Ok (fst c, c') else Ok c) (pt_kids robot) in
  Ok (set_kids robot l).

(** src/scenegraph/urdf.cpp:489-504. *)
Definition x_rm_root_joint (x : xtree) : res xtree :=
  let d := doc_of (x_robot x) in
  match children d (x_ix x) (x_root x) with
  | [n] =>
      match find_joint d n, find_link d (x_root x) with
      | Some j, Some _ =>
          Ok (mkX (x_rm "joint" n (x_rm "link" (x_root x) (x_robot x)))
                  (filter (fun m => negb (String.eqb m n)) (x_ix x)) (j_child j))
      | _, _ => UB
      end
  | _ => Throw
  end.

(** src/scenegraph/urdf.cpp:506-522. *)
Definition x_rm_leaf_joint (x : xtree) (n : string) : res xtree :=
  let d := doc_of (x_robot x) in
  match find_joint d n with
  | None => Throw
  | Some j =>
      match children d (x_ix x) (j_child j) with
      | [] =>
          match find_link d (j_child j) with
          | Some _ =>
              Ok (mkX (x_rm "link" (j_child j) (x_rm "joint" n (x_robot x)))
                      (filter (fun m => negb (String.eqb m n)) (x_ix x)) (x_root x))
          | None => UB
          end
      | _ => Throw
      end
  end.

(** src/scenegraph/urdf.cpp:564-581, transport_root_link_frame. *)
Definition x_transport (x : xtree) (pose : Pose f64) (noprune : string -> bool) : res xtree :=
  let ipose := @pose_inverse f64 (F64Scalar L) pose in
  let d := doc_of (x_robot x) in
  let range := children d (x_ix x) (x_root x) in
  match find_link d (x_root x) with
  | None => Throw
  | Some _ =>
      let! l := mapM (fun c =>
        if String.eqb (fst c) "joint" then
          match el_name (snd c) with
          | Ok n => if mem n range then let! c' := el_premul L ipose pose (noprune n) (snd c) in Ok (fst c, c') else Ok c
          | _ => Ok c
          end
        else if is_el "link" (x_root x) c then let! c' := el_transport L ipose pose (snd c) in Ok (fst c, c')
        else Ok c) (pt_kids (x_robot x)) in
      Ok (mkX (set_kids (x_robot x) l) (x_ix x) (x_root x))
  end.

(** src/scenegraph/urdf.cpp:636-667, flip_root_link_joint; the index of the joints refuses the
    new child link when another joint has it (multi_index [modify]). *)
Definition x_flip (x : xtree) (n : string) (add_prune_exception : bool) : res xtree :=
  match x_find "joint" n (x_robot x) with
  | None => Throw
  | Some pt =>
      let! p := el_parent_link pt in
      if negb (String.eqb p (x_root x)) then Abort
      else
        let! o := origin_of pt in
        let! x1 :=
          match o with
          | None => Ok x
          | Some o => x_transport x o (fun m => add_prune_exception && String.eqb m n)
          end in
        if existsb (fun k => String.eqb (j_child k) p && negb (String.eqb (j_name k) n)) (joints (doc_of (x_robot x1)))
        then Abort
        else
          let! r := x_upd "joint" n el_flip_links (x_robot x1) in
          let ix := ix_modify (doc_of r) (x_ix x1) n in
          match x_find "joint" n r with
          | None => UB
          | Some k =>
              let! root := el_parent_link k in
              let! k' := el_flip_axis L k in
              let! r := x_upd "joint" n (fun _ => Ok k') r in
              Ok (mkX r ix root)
          end
  end.

(** src/scenegraph/urdf.cpp:669-686, define_as_root_link. *)
Fixpoint x_flip_all (x : xtree) (names : list string) : res xtree :=
  match names with
  | [] => Ok x
  | n :: r => let! x' := x_flip x n (match r with [] => false | _ => true end) in x_flip_all x' r
  end.
Definition x_define_as_root_link (x : xtree) (link : string) : res xtree :=
  let! p := path_to_root (S (List.length (joints (doc_of (x_robot x))))) (x_tree x) link in
  x_flip_all x (rev p).

(** src/scenegraph/urdf.cpp:779-793. *)
Definition x_make (type : string) (x : xtree) (n : string) : res xtree :=
  match x_find "joint" n (x_robot x) with
  | None => Throw
  | Some _ =>
      let! r := x_upd "joint" n (fun pt => Ok (el_make type pt)) (x_robot x) in
      Ok (mkX r (x_ix x) (x_root x))
  end.

(** src/scenegraph/urdf.cpp:796-814, makeContinuousJointsFixed. *)
Definition x_mcf_discover (v : ptree * list string) (j : Joint f64) : res (ptree * list string * bool) :=
  match x_find "joint" (j_name j) (fst v) with
  | None => UB
  | Some pt =>
      let! t := joint_type pt in
      match t with
      | continuous =>
          let! r := x_upd "joint" (j_name j) (fun pt => Ok (el_make "fixed" pt)) (fst v) in
          Ok (r, (snd v ++ [j_name j])%list, true)
      | _ => Ok (v, true)
      end
  end.
Definition x_makeContinuousJointsFixed (x : xtree) : res (xtree * list string) :=
  let! v := traverse_joints (x_tree x) (fun v => doc_of (fst v)) x_mcf_discover (fun v _ => Ok v) (x_robot x, []) in
  Ok (mkX (fst v) (x_ix x) (x_root x), snd v).

(** src/scenegraph/urdf.cpp:930-974, removeSubTreeIfJoint; the predicate is any function of the
    element of the joint. *)
Definition on_joint (robot : ptree) (pred : ptree -> bool) (j : Joint f64) : bool :=
  match x_find "joint" (j_name j) robot with Some pt => pred pt | None => false end.
Fixpoint x_rm_leaves (x : xtree) (names : list string) : res xtree :=
  match names with
  | [] => Ok x
  | n :: r => let! x' := x_rm_leaf_joint x n in x_rm_leaves x' r
  end.
Definition x_removeSubTreeIfJoint (x : xtree) (pred : ptree -> bool) : res (xtree * list string) :=
  let p := on_joint (x_robot x) pred in
  let! v := traverse_joints (x_tree x) (fun _ => doc_of (x_robot x)) (lj_discover p) (lj_finish p) (0%Z, []) in
  let! x' := x_rm_leaves x (rev (snd v)) in
  Ok (x', snd v).

(** src/scenegraph/urdf.cpp:816-876, squashJointMass. *)
Definition x_squash_joint (robot : ptree) (joint : ptree) : res ptree :=
  let! c := el_child_link joint in
  match x_find "link" c robot with
  | None => Throw
  | Some child =>
      match child_at ["inertial"] child with
      | None => Ok robot
      | Some ci =>
          let! p := el_parent_link joint in
          match x_find "link" p robot with
          | None => Throw
          | Some parent =>
              let! i := el_squashed L joint ci (child_at ["inertial"] parent) in
              let! r := x_upd "link" p (fun pt => Ok (put_child ["inertial"] i pt)) robot in
              x_upd "link" c (fun pt => Ok (erase "inertial" pt)) r
          end
      end
  end.
Definition x_squashJointMass (x : xtree) (n : string) : res xtree :=
  match x_find "joint" n (x_robot x) with
  | None => Throw
  | Some pt => let! r := x_squash_joint (x_robot x) pt in Ok (mkX r (x_ix x) (x_root x))
  end.

(** src/scenegraph/urdf.cpp:882-898, squashFixedJointsMass. *)
Definition x_sf_finish (robot : ptree) (j : Joint f64) : res ptree :=
  match x_find "joint" (j_name j) robot with
  | None => UB
  | Some pt =>
      let! t := joint_type pt in
      match t with fixed => x_squash_joint robot pt | _ => Ok robot end
  end.
Definition x_squashFixedJointsMass (x : xtree) : res xtree :=
  let! r := traverse_joints (x_tree x) doc_of (fun r _ => Ok (r, true)) x_sf_finish (x_robot x) in
  Ok (mkX r (x_ix x) (x_root x)).

(** src/scenegraph/urdf.cpp:901-928, makeMasslessJointsFixed. *)
Definition x_mm_finish (v : ptree * list string) (j : Joint f64) : res (ptree * list string) :=
  match x_find "joint" (j_name j) (fst v) with
  | None => UB
  | Some pt =>
      let! t := joint_type pt in
      match t with
      | fixed => let! r := x_squash_joint (fst v) pt in Ok (r, snd v)
      | _ =>
          let! c := el_child_link pt in
          match x_find "link" c (fst v) with
          | None => Throw
          | Some child =>
              match child_at ["inertial"] child with
              | Some _ => Ok v
              | None =>
                  let! r := x_upd "joint" (j_name j) (fun pt => Ok (el_make "fixed" pt)) (fst v) in
                  Ok (r, (snd v ++ [j_name j])%list)
              end
          end
      end
  end.
Definition x_makeMasslessJointsFixed (x : xtree) : res (xtree * list string) :=
  let! v := traverse_joints (x_tree x) (fun v => doc_of (fst v)) (fun v _ => Ok (v, true)) x_mm_finish (x_robot x, []) in
  Ok (mkX (fst v) (x_ix x) (x_root x), snd v).
End Doc.
