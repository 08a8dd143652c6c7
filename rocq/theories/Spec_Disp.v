(** * Displacements of floats, and the motions they stand for *)

From Coq Require Import Reals List.
Import ListNotations.
From Flocq Require Import Core.Core IEEE754.BinarySingleNaN.
From Verif Require Import Scalar Model_Base Model_Vec Model_Rigid F32 Spec_Geom Spec_Average Spec_Round Spec_QFloat.
Local Open Scope R_scope.

(** The motion of a unit quaternion and a vector: rotate, then translate. *)
Definition move (m : Quaternion R * vec3) (w : vec3) : vec3 := vadd (mapply (qmat (fst m)) w) (snd m).

(** Several motions, the last one applied first, as in a product. *)
Definition moves (l : list (Quaternion R * vec3)) (w : vec3) : vec3 := fold_right move w l.

(** A displacement of finite floats whose quaternion is within [d] of that of the motion, and
    whose position is its translation. *)
Definition stands_for (d : R) (a : Displacement f32) (m : Quaternion R * vec3) : Prop :=
  near_unit d (d_Q a) (fst m) /\ finite_p (d_P a) /\ pval (d_P a) = snd m.

(** d1 * d2 * ... * dn, multiplied from the left. *)
Definition dproduct {T} {S : Scalar T} (l : list (Displacement T)) : Displacement T := fold_left d_mul l d_default.
