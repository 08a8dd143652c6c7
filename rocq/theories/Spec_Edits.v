(** * Specification of the histories of edits of a robot

    The edits a user can make to a RobotTree, one after the other. *)

From Coq Require Import String List Reals.
Import ListNotations.
From Verif Require Import Scalar RInst Model_Pose Model_Urdf Model_Squash Spec_Urdf.

Inductive edit :=
| RmRootJoint
| RmLeafJoint (joint : string)
| DefineAsRoot (link : string)
| TransportRoot (pose : Pose R)
| MakeFixed (joint : string)
| MakeFloating (joint : string)
| MakeContinuousFixed
| RemoveSubTree (pred : Joint R -> bool)
| SquashMass (joint : string)
| SquashFixed
| MakeMasslessFixed.

Definition apply (e : edit) (t : tree R) : res (tree R) :=
  match e with
  | RmRootJoint => rm_root_joint t
  | RmLeafJoint n => rm_leaf_joint t n
  | DefineAsRoot l => define_as_root_link t l
  | TransportRoot o => transport_frame t o
  | MakeFixed n => makeJointFixed t n
  | MakeFloating n => makeJointFloating t n
  | MakeContinuousFixed => rmap fst (makeContinuousJointsFixed t)
  | RemoveSubTree p => rmap fst (removeSubTreeIfJoint t p)
  | SquashMass n => squashJointMass t n
  | SquashFixed => squashFixedJointsMass t
  | MakeMasslessFixed => rmap fst (makeMasslessJointsFixed t)
  end.

(** The edits that throw, when they do, before any change to the document. The others walk
    the tree, and throw at a joint of unknown type. *)
Definition atomic (e : edit) : Prop :=
  match e with MakeContinuousFixed | SquashFixed | MakeMasslessFixed => False | _ => True end.

(** [edited t es t']: the edits of [es], made one after the other, lead from [t] to [t'];
    the caller may catch the exceptions of those that throw before any change. *)
Inductive edited (t : tree R) : list edit -> tree R -> Prop :=
| edited_nil : edited t [] t
| edited_ok : forall es e t1 t2, edited t es t1 -> apply e t1 = Ok t2 -> edited t (es ++ [e]) t2
| edited_throw : forall es e t1, edited t es t1 -> atomic e -> apply e t1 = Throw -> edited t (es ++ [e]) t1.

(** The second document is the first, less some links and joints: in the same order, the
    same links and joints under the same names, each joint between the same two links in
    one direction or the other and mimicking the same joint, and all the rest. *)
Inductive kept : list (elem R) -> list (elem R) -> Prop :=
| kept_nil : kept [] []
| kept_joint : forall j j' d d', kept d d' ->
    j_name j = j_name j' -> j_mimic j = j_mimic j' ->
    (j_parent j = j_parent j' /\ j_child j = j_child j' \/ j_parent j = j_child j' /\ j_child j = j_parent j') ->
    kept (EJoint j :: d) (EJoint j' :: d')
| kept_link : forall l l' d d', kept d d' -> l_name l = l_name l' -> kept (ELink l :: d) (ELink l' :: d')
| kept_other : forall s d d', kept d d' -> kept (EOther s :: d) (EOther s :: d')
| drop_joint : forall j d d', kept d d' -> kept (EJoint j :: d) d'
| drop_link : forall l d d', kept d d' -> kept (ELink l :: d) d'.

(** Every link is below the root. *)
Definition connected (d : list (elem R)) (root : string) : Prop :=
  forall l, In l (link_names d) -> exists p, path d root p l.
