(** * Specification: what is read in an element of a document *)
From Coq Require Import String Ascii.
From Coq Require Import List ZArith Bool.
From Flocq Require Import Core.Core IEEE754.BinarySingleNaN.
Import ListNotations.
From Verif Require Import Scalar Model_Pose Model_Urdf Model_Text Model_UrdfText.
From Verif Require Import Model_Anim.
Local Open Scope string_scope.

(** ** Attributes *)

(** The element has no child, or one child, with this key. *)
Definition no_child (k : string) (pt : ptree) : Prop := ~ In k (map fst (pt_kids pt)).
Definition one_child (k : string) (pt c : ptree) : Prop :=
  exists l1 l2, pt_kids pt = (l1 ++ (k, c) :: l2)%list /\ ~ In k (map fst l1) /\ ~ In k (map fst l2).

(** There is nothing, or there is [r], at a path. *)
Inductive at_path : list string -> ptree -> option ptree -> Prop :=
| at_here pt : at_path [] pt (Some pt)
| at_missing k p pt : no_child k pt -> at_path (k :: p) pt None
| at_child k p pt c r : one_child k pt c -> at_path p c r -> at_path (k :: p) pt r.

(** An attribute may be absent, or its text may be that of a value or not. *)
Inductive reading (A : Type) := Absent | Malformed | Value (a : A).
Arguments Absent {A}.
Arguments Malformed {A}.
Arguments Value {A} a.
Definition reads {A} (meaning : string -> option A) (p : list string) (pt : ptree) (r : reading A) : Prop :=
  at_path p pt None /\ r = Absent
  \/ exists c, at_path p pt (Some c)
     /\ match meaning (pt_data c) with Some a => r = Value a | None => r = Malformed end.

(** The attribute must be there; or it has a default value and must be well formed when it
    is there; or it is ignored when it is not well formed. *)
Definition mandatory {A} (r : reading A) : res A := match r with Value a => Ok a | _ => Throw end.
Definition defaulted {A} (d : A) (r : reading A) : res A :=
  match r with Value a => Ok a | Absent => Ok d | Malformed => Throw end.
Definition lenient {A} (d : A) (r : reading A) : A := match r with Value a => a | _ => d end.
Definition optional {A} (r : reading A) : option A := match r with Value a => Some a | _ => None end.

(** ** Finite values *)
Definition fin (x : f64) : Prop := is_finite x = true.
Definition fin3 (v : Array3d f64) : Prop := fin (a0 v) /\ fin (a1 v) /\ fin (a2 v).
Definition fin_pose (p : Pose f64) : Prop := fin3 (p_xyz p) /\ fin3 (p_rpy p).
Definition fin_origin (o : option (Pose f64)) : Prop := match o with Some p => fin_pose p | None => True end.
Definition fin_inertial (i : Inertial f64) : Prop :=
  fin_origin (i_origin i)
  /\ fin (i_mass i) /\ fin (i_ixx i) /\ fin (i_ixy i) /\ fin (i_ixz i) /\ fin (i_iyy i) /\ fin (i_iyz i) /\ fin (i_izz i).

Definition fin_link (l : Link f64) : Prop :=
  match l_inertial l with Some i => fin_inertial i | None => True end
  /\ forall s, In s (l_visuals l ++ l_collisions l) -> fin_origin (sh_origin s).

(** The two elements differ by their origins only. *)
Definition same_but_origin (pt pt' : ptree) : Prop := forall k, k <> "origin" -> kids_named k pt' = kids_named k pt.

(** ** Values that differ by the sign of zeros only *)
Definition eqf (x y : f64) : Prop := Beqb x y = true.
Definition eq3 (u v : Array3d f64) : Prop := eqf (a0 u) (a0 v) /\ eqf (a1 u) (a1 v) /\ eqf (a2 u) (a2 v).
Definition eq_pose (p q : Pose f64) : Prop := eq3 (p_xyz p) (p_xyz q) /\ eq3 (p_rpy p) (p_rpy q).

(** ** The names of files in a robot

    A node is designated by the list of the indices of the children to follow; [Follows]
    gives the keys met and the node. A key marked [true] has to be the first child with it. *)
Definition is_first (l : list (string * ptree)) (i : nat) (k : string) : Prop :=
  (exists c, nth_error l i = Some (k, c)) /\ forall j c, (j < i)%nat -> nth_error l j <> Some (k, c).
Inductive follows : ptree -> list nat -> list (string * bool) -> ptree -> Prop :=
| follows_here pt : follows pt [] [] pt
| follows_any pt i pos k c ks r : nth_error (pt_kids pt) i = Some (k, c) -> follows c pos ks r ->
    follows pt (i :: pos) ((k, false) :: ks) r
| follows_first pt i pos k c ks r : nth_error (pt_kids pt) i = Some (k, c) -> is_first (pt_kids pt) i k ->
    follows c pos ks r -> follows pt (i :: pos) ((k, true) :: ks) r.
(** The names of the files of the meshes and textures of the visuals and of the textures of
    the materials of the robot. *)
Definition filename_paths : list (list (string * bool)) :=
  [ [("material", false); ("texture", true); ("<xmlattr>", true); ("filename", true)];
    [("link", false); ("visual", false); ("geometry", true); ("mesh", false); ("<xmlattr>", true); ("filename", true)];
    [("link", false); ("visual", false); ("material", false); ("texture", true); ("<xmlattr>", true); ("filename", true)] ].
Definition is_filename (robot : ptree) (pos : list nat) : Prop :=
  exists ks c, In ks filename_paths /\ follows robot pos ks c.

(** The tree [t'] is [t] where the texts of some nodes are changed: those of [P] become
    [op] of what they were, and no other one. *)
Fixpoint node_at (pt : ptree) (pos : list nat) : option ptree :=
  match pos with
  | [] => Some pt
  | i :: pos' => match nth_error (pt_kids pt) i with Some (_, c) => node_at c pos' | None => None end
  end.
Definition shape_eq (t t' : ptree) : Prop :=
  forall pos, option_map (fun c => map fst (pt_kids c)) (node_at t pos)
            = option_map (fun c => map fst (pt_kids c)) (node_at t' pos).
Definition text_at (pt : ptree) (pos : list nat) : option string := option_map pt_data (node_at pt pos).
