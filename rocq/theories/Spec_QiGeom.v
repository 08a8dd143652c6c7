(** * Specification for transforms made of a quaternion and a vector *)

From Coq Require Import Reals.
From Verif Require Import Scalar RInst Model_Base Model_Vec Model_Rigid Model_QiGeom Spec_Geom Spec_Average.
Local Open Scope R_scope.

(** Where a transform sends a point: for a unit quaternion [qmat] is its rotation. *)
Definition qi_motion (t : QiTransform R) (v : vec3) : vec3 :=
  vadd (mapply (qmat (qi_rot t)) v) (p3v (qi_pos t)).

(** The transforms the comments of the header ask for... *)
Definition qi_unit (t : QiTransform R) : Prop := unitq (qi_rot t).

(** ... and those its assertions let through. *)
Definition qi_accepted (t : QiTransform R) : Prop :=
  Rabs (sqrt (qnorm2 (qi_rot t)) - 1) < 1/100000.

Definition qi_id : QiTransform R := mkQi (mkQuaternion 1 0 0 0) (mkPosition3D 0 0 0).

(** The same motion with the opposite quaternion. *)
Definition qi_opposite (t : QiTransform R) : QiTransform R := mkQi (qneg (qi_rot t)) (qi_pos t).

(** What a singular value decomposition of [m] is: orthonormal U and V, non-negative
    singular values s, and m = U diag(s) V^T. *)
Definition mdiag (s : R * R * R) : mat3 :=
  of_rows (fst (fst s)) 0 0 0 (snd (fst s)) 0 0 0 (snd s).
Definition decomposes (m : Rotation R) (d : Rotation R * (R * R * R) * Rotation R) : Prop :=
  let '(u, s, v) := d in
  orthonormal (rmat u) /\ orthonormal (rmat v) /\
  0 <= fst (fst s) /\ 0 <= snd (fst s) /\ 0 <= snd s /\
  meq (rmat m) (mmul (mmul (rmat u) (mdiag s)) (mtrans (rmat v))).
Definition is_svd (svd : Rotation R -> Rotation R * (R * R * R) * Rotation R) : Prop :=
  forall m, decomposes m (svd m).

(** The squared distance between the matrices of two rotations and between two points. *)
Definition mdist2 (A B : mat3) : R :=
  sum3 (fun i => sum3 (fun j => (A i j - B i j) * (A i j - B i j))).
Definition vdist2 (u v : vec3) : R := vdot (vsub u v) (vsub u v).
