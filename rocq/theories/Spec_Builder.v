(** * Specification: what a list of calls to a builder describes *)

From Coq Require Import List String.
Import ListNotations.
From Verif Require Import Model_Builder.

Section Spec.
Context {T V M P : Type}.
Notation call := (call T V M P).

(** The frame added by a call, the frame it is attached to, and the name of the joint or
    static transform between them. *)
Definition new_frame (c : call) : string := match c with AddLink l => l_body l | AddStaticFrame f => f_frame f end.
Definition parent_of (c : call) : string := match c with AddLink l => l_parent l | AddStaticFrame f => f_parent f end.
Definition edge_name (c : call) : string := match c with AddLink l => l_joint l | AddStaticFrame f => f_transform f end.
Definition is_link (c : call) : Prop := match c with AddLink _ => True | AddStaticFrame _ => False end.

(** [path root cs f p]: following the parents from the frame [f] one goes through the frames
    of [p], the last of which is [root]. *)
Inductive path (root : string) (cs : list call) : string -> list string -> Prop :=
| path_root : path root cs root []
| path_step : forall c p, In c cs -> path root cs (parent_of c) p ->
    path root cs (new_frame c) (parent_of c :: p).

(** The calls describe a tree of frames rooted at [root]: every frame has one and only one
    path to the root, names of frames are unique and not the root's, names of joints and
    static transforms are unique, and a body is attached to the root or to a body. *)
Definition is_tree (root : string) (cs : list call) : Prop :=
  NoDup (root :: map new_frame cs) /\
  NoDup (map edge_name cs) /\
  (forall c, In c cs -> exists p, path root cs (new_frame c) p) /\
  (forall f p q, path root cs f p -> path root cs f q -> p = q) /\
  (forall l, In (AddLink l) cs -> l_parent l = root \/ exists l', In (AddLink l') cs /\ l_body l' = l_parent l).

(** Whether a call may be added to the calls [cs] already accepted. *)
Definition admissible (root : string) (cs : list call) (c : call) : Prop :=
  ~ In (new_frame c) (root :: map new_frame cs) /\
  ~ In (edge_name c) (map edge_name cs) /\
  match c with
  | AddLink l => l_parent l = root \/ exists l', In (AddLink l') cs /\ l_body l' = l_parent l
  | AddStaticFrame f => In (f_parent f) (root :: map new_frame cs)
  end.

(** The calls of a run that returned. *)
Definition accepted (cs : list call) (rs : list bool) : list call :=
  map fst (filter snd (combine cs rs)).

End Spec.
