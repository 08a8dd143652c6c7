(** * What is expected of printed trees and of retyped joints *)

From Coq Require Import String List Bool.
Import ListNotations.
From Verif Require Import Model_Urdf Spec_Urdf.

Set Implicit Arguments.
Local Open Scope string_scope.

Section Spec.
Context {T : Type}.

(** [depth_first all js l]: [l] has the joints of [js] in turn, each followed by the joints
    below it, those of a same link in the order of [all]. *)
Inductive depth_first (all : list (Joint T)) : list (Joint T) -> list (Joint T) -> Prop :=
| df_nil : depth_first all [] []
| df_cons : forall j js l1 l2,
    depth_first all (filter (fun k => j_parent k =? j_child j) all) l1 ->
    depth_first all js l2 ->
    depth_first all (j :: js) (j :: l1 ++ l2)%list.

(** An edge of the graph, as the dot language has it, on a line. *)
Definition dot_edge (j : Joint T) : string :=
  j_parent j ++ " -> " ++ j_child j ++ " [label=" ++ j_name j ++ "];" ++ String (Ascii.ascii_of_nat 10) "".
Fixpoint dot_edges (l : list (Joint T)) : string :=
  match l with [] => "" | j :: r => dot_edge j ++ dot_edges r end.

(** The graph of the robot: edges with names. *)
Definition edge (j : Joint T) : string * string * string := (j_parent j, j_child j, j_name j).

Definition without_char (c : Ascii.ascii) (s : string) : Prop := forall a b, s <> a ++ String c b.
Definition space : Ascii.ascii := Ascii.ascii_of_nat 32.
Definition line_feed : Ascii.ascii := Ascii.ascii_of_nat 10.

(** Links without spaces in their names, joints without ends of lines. *)
Definition plain_names (d : list (elem T)) : Prop :=
  forall j, In j (joints d) ->
    without_char space (j_parent j) /\ without_char space (j_child j) /\ without_char line_feed (j_name j).

(** The document where the joints of [names] are of the type [ty], without axis. *)
Definition retyped (d : list (elem T)) (names : list string) (ty : string) : list (elem T) :=
  map (fun e => match e with
                | EJoint j => if mem (j_name j) names
                              then EJoint (mkJoint (j_name j) ty (j_parent j) (j_child j) (j_origin j) None (j_mimic j))
                              else e
                | _ => e
                end) d.

(** The types URDF has. *)
Definition known_type (s : string) : Prop :=
  In s ["revolute"; "continuous"; "prismatic"; "fixed"; "floating"; "planar"].

(** The joint can be reached from the root. *)
Definition reached (t : tree T) (j : Joint T) : Prop :=
  exists p, path (t_doc t) (t_root t) (p ++ [j])%list (j_child j).

End Spec.
