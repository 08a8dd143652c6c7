(** * URDF robots: the kinematic tree

    Source: /repo/src/scenegraph/urdf.cpp (class RobotTreeP and the functions that use it)
    and /repo/almath/scenegraph/urdf.h.

    The document is the list of the children of the "robot" element.  Simplifications: a
    joint or link element is a record of what the library reads or writes in it, the
    mandatory attributes (name, parent, child, the joint of a mimic) are present (the
    library throws ptree_bad_path when it reads a missing one), a link has at most one
    "inertial" element, and what the library never touches is a string.  Numbers are of
    type [T] (double), written and read back unchanged.

    RobotTreeP keeps iterators into the document.  Since it refuses duplicate names, an
    iterator is modelled by the name of the element; the index of the joints by parent
    link, a boost::multi_index ordered_non_unique index, is the list of the names in the
    order of the index.  The other indices are only searched, so they are not kept. *)

From Coq Require Import String.
From Coq Require Import List Bool ZArith.
Import ListNotations.
From Verif Require Import Scalar Model_Rigid Model_Average Model_Pose.
Local Open Scope string_scope.
Local Open Scope list_scope.

Set Implicit Arguments.

(** almath/scenegraph/urdf.h:321, [Joint::Type]. *)
Inductive jtype := revolute | continuous | prismatic | fixed | floating | planar.

(** src/scenegraph/urdf.cpp:194-203, [Joint::type]; [None] throws. *)
Definition type_of (s : string) : option jtype :=
  if s =? "revolute" then Some revolute
  else if s =? "continuous" then Some continuous
  else if s =? "prismatic" then Some prismatic
  else if s =? "fixed" then Some fixed
  else if s =? "floating" then Some floating
  else if s =? "planar" then Some planar
  else None.

Section Urdf.
Context {T : Type} {S : Scalar T}.

(** A "joint" element: src/scenegraph/urdf.cpp:189-245. *)
Record Joint := mkJoint {
  j_name : string;
  j_type : string;
  j_parent : string;
  j_child : string;
  j_origin : option (Pose T);
  j_axis : option (Array3d T);
  j_mimic : option string
}.

(** An "inertial" element: src/scenegraph/urdf.cpp:247-266. *)
Record Inertial := mkInertial {
  i_origin : option (Pose T);
  i_mass : T;
  i_ixx : T; i_ixy : T; i_ixz : T; i_iyy : T; i_iyz : T; i_izz : T
}.

(** A "visual" or "collision" element: src/scenegraph/urdf.cpp:303-326. *)
Record Shape := mkShape { sh_origin : option (Pose T); sh_geometry : string }.

(** A "link" element: src/scenegraph/urdf.cpp:328-336. *)
Record Link := mkLink {
  l_name : string;
  l_inertial : option Inertial;
  l_visuals : list Shape;
  l_collisions : list Shape
}.

(** A child of the "robot" element. *)
Inductive elem := ELink (l : Link) | EJoint (j : Joint) | EOther (s : string).

Definition joints (d : list elem) : list Joint :=
  flat_map (fun e => match e with EJoint j => [j] | _ => [] end) d.
Definition links (d : list elem) : list Link :=
  flat_map (fun e => match e with ELink l => [l] | _ => [] end) d.

Definition mem (s : string) (l : list string) : bool := existsb (String.eqb s) l.

(** The look-ups by joint name and by child link (unique indices), and of a link. *)
Definition find_joint (d : list elem) (n : string) : option Joint :=
  find (fun j => j_name j =? n) (joints d).
Definition find_child (d : list elem) (l : string) : option Joint :=
  find (fun j => j_child j =? l) (joints d).
Definition find_link (d : list elem) (n : string) : option Link :=
  find (fun l => l_name l =? n) (links d).

(** ** Index by parent link

    Keys are read in the elements (global_fun).  An element is inserted after the
    elements of the same key. *)
Definition key (d : list elem) (n : string) : option string :=
  option_map j_parent (find_joint d n).
Definition key_ltb (a b : option string) : bool :=
  match a, b with
  | Some x, Some y => String.ltb x y
  | None, Some _ => true
  | _, None => false
  end.

Fixpoint ix_insert (d : list elem) (n : string) (ix : list string) : list string :=
  match ix with
  | [] => [n]
  | m :: r => if key_ltb (key d n) (key d m) then n :: ix else m :: ix_insert d n r
  end.

(** [equal_range(link)] on this index. *)
Definition children (d : list elem) (ix : list string) (link : string) : list string :=
  filter (fun n => match key d n with Some p => p =? link | None => false end) ix.

(** [modify], after the change of the key of [n] in the document: the element stays where
    it is when it is not out of order with its two neighbours, else it is inserted again. *)
Fixpoint ix_split (n : string) (before ix : list string) : list string * list string :=
  match ix with
  | [] => (before, [])
  | m :: r => if m =? n then (before, r) else ix_split n (before ++ [m]) r
  end.
Definition ix_modify (d : list elem) (ix : list string) (n : string) : list string :=
  let '(l1, l2) := ix_split n [] ix in
  let ok_before := match rev l1 with [] => true | p :: _ => negb (key_ltb (key d n) (key d p)) end in
  let ok_after := match l2 with [] => true | q :: _ => negb (key_ltb (key d q) (key d n)) end in
  if ok_before && ok_after then ix else ix_insert d n (l1 ++ l2).

(** ** RobotTreeP *)

Record tree := mkTree { t_doc : list elem; t_ix : list string; t_root : string }.

(** src/scenegraph/urdf.cpp:394-404, [transitively_mimics]: [lhs] is given by its name.
    [fuel] bounds the depth of the recursion; running out of it is an infinite
    recursion. *)
Fixpoint transitively_mimics (fuel : nat) (js : list Joint) (lhs rhs : string) : res bool :=
  match fuel with
  | O => UB
  | Datatypes.S f =>
      (fix loop (range : list Joint) : res bool :=
         match range with
         | [] => Ok false
         | j :: r =>
             if j_name j =? lhs then Ok true
             else let! b := transitively_mimics f js (j_name j) rhs in
                  if b then Ok true else loop r
         end)
      (filter (fun j => match j_mimic j with Some m => m =? rhs | None => false end) js)
  end.

(** src/scenegraph/urdf.cpp:409-421: the links. *)
Fixpoint ctor_links (d : list elem) (names : list string) : res (list string) :=
  match d with
  | [] => Ok names
  | ELink l :: r =>
      if mem (l_name l) names then Throw else ctor_links r (names ++ [l_name l])
  | _ :: r => ctor_links r names
  end.

(** src/scenegraph/urdf.cpp:424-468: the joints. [js] are those already added, [roots] the
    set root_links. *)
Fixpoint ctor_joints (d : list elem) (names : list string) (js : list Joint) (roots : list string)
  : res (list Joint * list string) :=
  match d with
  | [] => Ok (js, roots)
  | EJoint j :: r =>
      if existsb (fun k => j_name k =? j_name j) js then Throw
      else if negb (mem (j_parent j) names) then Throw
      else if negb (mem (j_child j) names) then Throw
      else if existsb (fun k => j_child k =? j_child j) js then Throw
      else
        let! loop :=
          match j_mimic j with
          | None => Ok false
          | Some src =>
              if j_name j =? src then Ok true
              else if existsb (fun k => j_name k =? src) js then
                transitively_mimics (2 + List.length js) js src (j_name j)
              else Ok false
          end in
        if loop then Throw
        else if negb (mem (j_child j) roots) then Abort
        else
          let roots' := filter (fun l => negb (l =? j_child j)) roots in
          match roots' with
          | [] => Throw
          | _ => ctor_joints r names (js ++ [j]) roots'
          end
  | _ :: r => ctor_joints r names js roots
  end.

(** src/scenegraph/urdf.cpp:406-487, the constructor. *)
Definition ctor (d : list elem) : res tree :=
  let! names := ctor_links d [] in
  match names with
  | [] => Throw
  | _ =>
      let! jr := ctor_joints d names [] names in
      let '(js, roots) := jr in
      match roots with
      | [] => Abort
      | [root] =>
          if forallb (fun j => match j_mimic j with
                               | Some src => existsb (fun k => j_name k =? src) js
                               | None => true
                               end) js
          then Ok (mkTree d (fold_left (fun ix j => ix_insert d (j_name j) ix) js []) root)
          else Throw
      | _ => Throw
      end
  end.

(** [ptree::erase] of the element of a joint, of a link. *)
Definition rm_joint (d : list elem) (n : string) : list elem :=
  filter (fun e => match e with EJoint j => negb (j_name j =? n) | _ => true end) d.
Definition rm_link (d : list elem) (n : string) : list elem :=
  filter (fun e => match e with ELink l => negb (l_name l =? n) | _ => true end) d.

(** src/scenegraph/urdf.cpp:489-504, [rm_root_joint]. *)
Definition rm_root_joint (t : tree) : res tree :=
  match children (t_doc t) (t_ix t) (t_root t) with
  | [n] =>
      match find_joint (t_doc t) n, find_link (t_doc t) (t_root t) with
      | Some j, Some _ =>
          Ok (mkTree (rm_joint (rm_link (t_doc t) (t_root t)) n)
                     (filter (fun m => negb (m =? n)) (t_ix t)) (j_child j))
      | _, _ => UB
      end
  | _ => Throw
  end.

(** src/scenegraph/urdf.cpp:506-522, [rm_leaf_joint]. *)
Definition rm_leaf_joint (t : tree) (n : string) : res tree :=
  match find_joint (t_doc t) n with
  | None => Throw
  | Some j =>
      match children (t_doc t) (t_ix t) (j_child j) with
      | [] =>
          match find_link (t_doc t) (j_child j) with
          | Some _ =>
              Ok (mkTree (rm_link (rm_joint (t_doc t) n) (j_child j))
                         (filter (fun m => negb (m =? n)) (t_ix t)) (t_root t))
          | None => UB
          end
      | _ => Throw
      end
  end.

(** src/scenegraph/urdf.cpp:524-552, [premul]: the new "origin" child of an element. *)
Definition premul (lhs ilhs : Pose T) (origin : option (Pose T)) (noprune : bool)
  : res (option (Pose T)) :=
  if negb (pose_eqb lhs (pose_inverse ilhs)) then Abort
  else
    let rhs := pose_from origin in
    if pose_eqb rhs ilhs then Ok (if noprune then Some pose_id else None)
    else match pose_to (pose_mul lhs rhs) with
         | None => Abort
         | Some p => Ok (Some p)
         end.

Definition set_origin (j : Joint) (o : option (Pose T)) : Joint :=
  mkJoint (j_name j) (j_type j) (j_parent j) (j_child j) o (j_axis j) (j_mimic j).
Definition set_i_origin (i : Inertial) (o : option (Pose T)) : Inertial :=
  mkInertial o (i_mass i) (i_ixx i) (i_ixy i) (i_ixz i) (i_iyy i) (i_iyz i) (i_izz i).

Fixpoint mapM {A B} (f : A -> res B) (l : list A) : res (list B) :=
  match l with
  | [] => Ok []
  | a :: r => let! b := f a in let! bs := mapM f r in Ok (b :: bs)
  end.

(** The "inertial", "visual" and "collision" children of the root link. *)
Definition transport_link (ipose pose : Pose T) (l : Link) : res Link :=
  let! i := match l_inertial l with
            | None => Ok None
            | Some i => let! o := premul ipose pose (i_origin i) false in
                        Ok (Some (set_i_origin i o))
            end in
  let shape s := let! o := premul ipose pose (sh_origin s) false in
                 Ok (mkShape o (sh_geometry s)) in
  let! v := mapM shape (l_visuals l) in
  let! c := mapM shape (l_collisions l) in
  Ok (mkLink (l_name l) i v c).

(** src/scenegraph/urdf.cpp:564-580, [transport_root_link_frame].  The joints whose parent
    is the root link are those of the index; the elements are updated in document order
    (the updates are independent, and one that fails ends the program whatever the
    order). *)
Definition transport_root_link_frame (t : tree) (pose : Pose T) (noprune : string -> bool)
  : res tree :=
  let ipose := pose_inverse pose in
  let range := children (t_doc t) (t_ix t) (t_root t) in
  match find_link (t_doc t) (t_root t) with
  | None => Throw
  | Some _ =>
      let! d := mapM (fun e =>
        match e with
        | EJoint j =>
            if mem (j_name j) range then
              let! o := premul ipose pose (j_origin j) (noprune (j_name j)) in
              Ok (EJoint (set_origin j o))
            else Ok e
        | ELink l =>
            if l_name l =? t_root t then
              let! l' := transport_link ipose pose l in Ok (ELink l')
            else Ok e
        | EOther s => Ok e
        end) (t_doc t) in
      Ok (mkTree d (t_ix t) (t_root t))
  end.

(** src/scenegraph/urdf.cpp:379, 749-751, [RobotTree::transport_root_link_frame]. *)
Definition transport_frame (t : tree) (pose : Pose T) : res tree :=
  transport_root_link_frame t pose (fun _ => false).

(** Apply a function to the element of a joint. *)
Definition upd_joint (d : list elem) (n : string) (f : Joint -> Joint) : list elem :=
  map (fun e => match e with
                | EJoint j => if j_name j =? n then EJoint (f j) else e
                | _ => e
                end) d.

(** src/scenegraph/urdf.cpp:582-589, [flip_joint_links_fctor]. *)
Definition flip_joint_links (j : Joint) : Joint :=
  mkJoint (j_name j) (j_type j) (j_child j) (j_parent j) (j_origin j) (j_axis j) (j_mimic j).

(** src/scenegraph/urdf.cpp:594-613, [flip_joint_axis]; [Joint::axis] is 217-221. *)
Definition joint_axis (j : Joint) : Array3d T :=
  match j_axis j with
  | Some a => a
  | None => (s_ofZ 1, s_ofZ 0, s_ofZ 0)
  end.
Definition set_axis (j : Joint) (a : option (Array3d T)) : Joint :=
  mkJoint (j_name j) (j_type j) (j_parent j) (j_child j) (j_origin j) a (j_mimic j).
Definition flip_joint_axis (j : Joint) : res Joint :=
  match type_of (j_type j) with
  | None => Throw
  | Some fixed | Some floating => Ok j
  | Some _ =>
      let o := joint_axis j in
      let n := (s_neg (a0 o), s_neg (a1 o), s_neg (a2 o)) in
      Ok (set_axis j (if a_eqb n (s_ofZ 1, s_ofZ 0, s_ofZ 0) then None else Some n))
  end.

(** src/scenegraph/urdf.cpp:636-667, [flip_root_link_joint].  [modify] fails, and the
    assert with it, when another joint has the new child link (unique index). *)
Definition flip_root_link_joint (t : tree) (n : string) (add_prune_exception : bool) : res tree :=
  match find_joint (t_doc t) n with
  | None => Throw
  | Some j =>
      if negb (j_parent j =? t_root t) then Abort
      else
        let! t1 :=
          match j_origin j with
          | None => Ok t
          | Some o =>
              transport_root_link_frame t o (fun m => add_prune_exception && (m =? n))
          end in
        if existsb (fun k => (j_child k =? j_parent j) && negb (j_name k =? n)) (joints (t_doc t1))
        then Abort
        else
          let d := upd_joint (t_doc t1) n flip_joint_links in
          let ix := ix_modify d (t_ix t1) n in
          match find_joint d n with
          | None => UB
          | Some k =>
              let! k' := flip_joint_axis k in
              Ok (mkTree (upd_joint d n (fun _ => k')) ix (j_parent k))
          end
  end.

(** src/scenegraph/urdf.cpp:669-681: the joints from a link up to the root. [fuel] bounds
    the number of iterations; running out of it is an infinite loop. *)
Fixpoint path_to_root (fuel : nat) (t : tree) (cur : string) : res (list string) :=
  if cur =? t_root t then Ok []
  else
    match fuel with
    | O => UB
    | Datatypes.S f =>
        match find_child (t_doc t) cur with
        | None => Throw
        | Some j =>
            match type_of (j_type j) with
            | None | Some floating | Some planar => Throw
            | Some _ => let! p := path_to_root f t (j_parent j) in Ok (j_name j :: p)
            end
        end
    end.

(** src/scenegraph/urdf.cpp:682-685: the flips, from the root down. *)
Fixpoint flip_all (t : tree) (names : list string) : res tree :=
  match names with
  | [] => Ok t
  | n :: r =>
      let! t' := flip_root_link_joint t n (match r with [] => false | _ => true end) in
      flip_all t' r
  end.

(** src/scenegraph/urdf.cpp:669-686, [define_as_root_link]. *)
Definition define_as_root_link (t : tree) (link : string) : res tree :=
  let! p := path_to_root (Datatypes.S (List.length (joints (t_doc t)))) t link in
  flip_all t (rev p).

(** ** Traversal

    src/scenegraph/urdf.cpp:688-706, the two [walk_joint].  The visitor has a state of type
    [V]; the document it may modify is [doc] of its state (it does not rename a joint while
    it is visited: a name stands for an iterator).  [fuel] bounds the depth of the
    recursion; running out of it is an infinite recursion. *)
Section Walk.
Variable V : Type.
Variable doc : V -> list elem.
Variable discover : V -> Joint -> res (V * bool).
Variable finish : V -> Joint -> res V.

Fixpoint walk_joint (fuel : nat) (ix : list string) (link : string) (v : V) : res V :=
  match fuel with
  | O => UB
  | Datatypes.S f =>
      (fix loop (range : list string) (v : V) : res V :=
         match range with
         | [] => Ok v
         | n :: r =>
             match find_joint (doc v) n with
             | None => UB
             | Some j =>
                 let! vb := discover v j in
                 let '(v, b) := vb in
                 let! v :=
                   if b then
                     match find_joint (doc v) n with
                     | None => UB
                     | Some j => walk_joint f ix (j_child j) v
                     end
                   else Ok v in
                 match find_joint (doc v) n with
                 | None => UB
                 | Some j => let! v := finish v j in loop r v
                 end
             end
         end)
      (children (doc v) ix link) v
  end.
End Walk.

(** src/scenegraph/urdf.cpp:757-763, [traverse_joints]: the recursion cannot be deeper than
    the number of joints in a tree. *)
Definition traverse_joints {V} (t : tree) (doc : V -> list elem)
  (discover : V -> Joint -> res (V * bool)) (finish : V -> Joint -> res V) (v : V) : res V :=
  walk_joint doc discover finish (Datatypes.S (List.length (joints (t_doc t)))) (t_ix t) (t_root t) v.

(** src/scenegraph/urdf.cpp:708-720, [is_mimic_tree_flat]. *)
Definition is_mimic_tree_flat (t : tree) : res bool :=
  (fix loop (js : list Joint) : res bool :=
     match js with
     | [] => Ok true
     | j :: r =>
         match j_mimic j with
         | None => loop r
         | Some m =>
             match find_joint (t_doc t) m with
             | None => Abort
             | Some k => match j_mimic k with Some _ => Ok false | None => loop r end
             end
         end
     end) (joints (t_doc t)).

(** src/scenegraph/urdf.cpp:780-787, 789-793: [makeJointFixed], [makeJointFloating]. *)
Definition set_type (j : Joint) (s : string) : Joint :=
  mkJoint (j_name j) s (j_parent j) (j_child j) (j_origin j) None (j_mimic j).
Definition makeJointFixed (t : tree) (n : string) : res tree :=
  match find_joint (t_doc t) n with
  | None => Throw
  | Some _ => Ok (mkTree (upd_joint (t_doc t) n (fun j => set_type j "fixed")) (t_ix t) (t_root t))
  end.
Definition makeJointFloating (t : tree) (n : string) : res tree :=
  match find_joint (t_doc t) n with
  | None => Throw
  | Some _ => Ok (mkTree (upd_joint (t_doc t) n (fun j => set_type j "floating")) (t_ix t) (t_root t))
  end.

(** src/scenegraph/urdf.cpp:796-813, [makeContinuousJointsFixed]. *)
Definition mcf_discover (v : list elem * list string) (j : Joint)
  : res (list elem * list string * bool) :=
  match type_of (j_type j) with
  | None => Throw
  | Some continuous =>
      Ok (upd_joint (fst v) (j_name j) (fun k => set_type k "fixed"), snd v ++ [j_name j], true)
  | Some _ => Ok (v, true)
  end.
Definition makeContinuousJointsFixed (t : tree) : res (tree * list string) :=
  let! v := traverse_joints t fst mcf_discover (fun v _ => Ok v) (t_doc t, []) in
  Ok (mkTree (fst v) (t_ix t) (t_root t), snd v).

(** src/scenegraph/urdf.cpp:928-953, [ListJointsToRemoveVisitor]. *)
Definition lj_discover (pred : Joint -> bool) (v : Z * list string) (j : Joint)
  : res (Z * list string * bool) :=
  let level := if pred j then (fst v + 1)%Z else fst v in
  Ok (level, if (0 <? level)%Z then snd v ++ [j_name j] else snd v, true).
Definition lj_finish (pred : Joint -> bool) (v : Z * list string) (j : Joint)
  : res (Z * list string) :=
  let level := if pred j then (fst v - 1)%Z else fst v in
  if (0 <=? level)%Z then Ok (level, snd v) else Abort.

Fixpoint rm_leaves (t : tree) (names : list string) : res tree :=
  match names with
  | [] => Ok t
  | n :: r => let! t' := rm_leaf_joint t n in rm_leaves t' r
  end.

(** src/scenegraph/urdf.cpp:955-965, [removeSubTreeIfJoint]; [pred] is a pure function. *)
Definition removeSubTreeIfJoint (t : tree) (pred : Joint -> bool) : res (tree * list string) :=
  let! v := traverse_joints t (fun _ => t_doc t) (lj_discover pred) (lj_finish pred) (0%Z, []) in
  let! t' := rm_leaves t (rev (snd v)) in
  Ok (t', snd v).

End Urdf.
Arguments Joint T : clear implicits.
Arguments Inertial T : clear implicits.
Arguments Shape T : clear implicits.
Arguments Link T : clear implicits.
Arguments elem T : clear implicits.
Arguments tree T : clear implicits.
