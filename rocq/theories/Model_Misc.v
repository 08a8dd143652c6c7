(** * The dot printer of URDF trees, pairs of values

    Source: /repo/src/scenegraph/urdf.cpp, /repo/src/types/alpositionandvelocity.cpp,
    /repo/src/types/altransformandvelocity6d.cpp. *)

From Coq Require Import String List Bool ZArith.
Import ListNotations.
From Verif Require Import Scalar Model_Base Model_Vec Model_Rigid Model_Urdf Model_Text.

Set Implicit Arguments.

(** ** UrdfDotPrinterVisitor *)
Section Dot.
Context {T : Type}.
Local Open Scope string_scope.

(** almath/scenegraph/urdf.h:480-492: the visitor holds a tabulation, a depth and the flag
    do_indent, which no function sets; what was written on the stream is a string. *)
Record dot_printer := mkDot { dot_depth : Z; dot_indent : bool; dot_os : string }.

(** src/scenegraph/urdf.cpp:766-767: the constructor, on a stream where [os] is written. *)
Definition dot_new (os : string) : dot_printer := mkDot 1 false os.

Definition newline : string := String (Ascii.ascii_of_nat 10) EmptyString.
Definition tabs (n : Z) : string :=
  fold_right append "" (repeat (String (Ascii.ascii_of_nat 9) EmptyString) (Z.to_nat n)).

(** src/scenegraph/urdf.cpp:769-775, [discover]. *)
Definition dot_discover (v : dot_printer) (j : Joint T) : res (dot_printer * bool) :=
  Ok (mkDot (dot_depth v + 1) (dot_indent v)
        (dot_os v ++ ((if dot_indent v then tabs (dot_depth v) else "") ++ j_parent j
           ++ " -> " ++ j_child j ++ " [label=" ++ j_name j ++ "];" ++ newline)), true).

(** src/scenegraph/urdf.cpp:777, [finish]. *)
Definition dot_finish (v : dot_printer) (j : Joint T) : res dot_printer :=
  Ok (mkDot (dot_depth v - 1) (dot_indent v) (dot_os v)).

(** [traverse_joints] (src/scenegraph/urdf.cpp:757-759) with a new printer. *)
Definition dot_print (t : tree T) (os : string) : res dot_printer :=
  traverse_joints t (fun _ => t_doc t) dot_discover dot_finish (dot_new os).

End Dot.

(** ** Pairs *)
Section Pairs.
Context {T : Type} {S : Scalar T}.
Local Open Scope sc_scope.

(** src/types/alpositionandvelocity.cpp:19-25 *)
Definition pv_isNear (a b : PositionAndVelocity T) (eps : T) : bool :=
  (s_abs (pv_q a - pv_q b) <=? eps) && (s_abs (pv_dq a - pv_dq b) <=? eps).

(** src/types/alpositionandvelocity.cpp:27-39: the vector is resized, then both elements
    are written. *)
Definition pv_toVector (a : PositionAndVelocity T) : list T := [pv_q a; pv_dq a].

(** src/types/altransformandvelocity6d.cpp:13 *)
Definition tv_new : TransformAndVelocity6D T := mkTransformAndVelocity6D t_id (mkVelocity6D #0 #0 #0 #0 #0 #0).

(** src/types/altransformandvelocity6d.cpp:19-25 *)
Definition tv_isNear (a b : TransformAndVelocity6D T) (eps : T) : bool :=
  t_isNear (tv_T a) (tv_T b) eps && v6_isNear (tv_V a) (tv_V b) eps.

End Pairs.
