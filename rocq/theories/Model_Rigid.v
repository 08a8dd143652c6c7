(** * Transform, Rotation, Quaternion, Displacement

    Sources: /repo/src/types/altransform.cpp, alrotation.cpp, alquaternion.cpp,
    aldisplacement.cpp and the headers in /repo/almath/types. *)

From Coq Require Import List Bool ZArith.
Import ListNotations.
From Verif Require Import Scalar Model_Base Model_Vec.

Set Implicit Arguments.

(** almath/types/altransform.h:26-28; the setters are the assignments [pT.ri_cj = v]. *)
Record Transform (T : Type) := mkTransform { t_r1c1 : T; t_r1c2 : T; t_r1c3 : T; t_r1c4 : T; t_r2c1 : T; t_r2c2 : T; t_r2c3 : T; t_r2c4 : T; t_r3c1 : T; t_r3c2 : T; t_r3c3 : T; t_r3c4 : T }.
Arguments t_r1c1 {T} _.
Arguments t_r1c2 {T} _.
Arguments t_r1c3 {T} _.
Arguments t_r1c4 {T} _.
Arguments t_r2c1 {T} _.
Arguments t_r2c2 {T} _.
Arguments t_r2c3 {T} _.
Arguments t_r2c4 {T} _.
Arguments t_r3c1 {T} _.
Arguments t_r3c2 {T} _.
Arguments t_r3c3 {T} _.
Arguments t_r3c4 {T} _.
Arguments mkTransform {T}.

Definition set_t_r1c1 {T} (v : T) (a : Transform T) : Transform T := mkTransform v (t_r1c2 a) (t_r1c3 a) (t_r1c4 a) (t_r2c1 a) (t_r2c2 a) (t_r2c3 a) (t_r2c4 a) (t_r3c1 a) (t_r3c2 a) (t_r3c3 a) (t_r3c4 a).
Definition set_t_r1c2 {T} (v : T) (a : Transform T) : Transform T := mkTransform (t_r1c1 a) v (t_r1c3 a) (t_r1c4 a) (t_r2c1 a) (t_r2c2 a) (t_r2c3 a) (t_r2c4 a) (t_r3c1 a) (t_r3c2 a) (t_r3c3 a) (t_r3c4 a).
Definition set_t_r1c3 {T} (v : T) (a : Transform T) : Transform T := mkTransform (t_r1c1 a) (t_r1c2 a) v (t_r1c4 a) (t_r2c1 a) (t_r2c2 a) (t_r2c3 a) (t_r2c4 a) (t_r3c1 a) (t_r3c2 a) (t_r3c3 a) (t_r3c4 a).
Definition set_t_r1c4 {T} (v : T) (a : Transform T) : Transform T := mkTransform (t_r1c1 a) (t_r1c2 a) (t_r1c3 a) v (t_r2c1 a) (t_r2c2 a) (t_r2c3 a) (t_r2c4 a) (t_r3c1 a) (t_r3c2 a) (t_r3c3 a) (t_r3c4 a).
Definition set_t_r2c1 {T} (v : T) (a : Transform T) : Transform T := mkTransform (t_r1c1 a) (t_r1c2 a) (t_r1c3 a) (t_r1c4 a) v (t_r2c2 a) (t_r2c3 a) (t_r2c4 a) (t_r3c1 a) (t_r3c2 a) (t_r3c3 a) (t_r3c4 a).
Definition set_t_r2c2 {T} (v : T) (a : Transform T) : Transform T := mkTransform (t_r1c1 a) (t_r1c2 a) (t_r1c3 a) (t_r1c4 a) (t_r2c1 a) v (t_r2c3 a) (t_r2c4 a) (t_r3c1 a) (t_r3c2 a) (t_r3c3 a) (t_r3c4 a).
Definition set_t_r2c3 {T} (v : T) (a : Transform T) : Transform T := mkTransform (t_r1c1 a) (t_r1c2 a) (t_r1c3 a) (t_r1c4 a) (t_r2c1 a) (t_r2c2 a) v (t_r2c4 a) (t_r3c1 a) (t_r3c2 a) (t_r3c3 a) (t_r3c4 a).
Definition set_t_r2c4 {T} (v : T) (a : Transform T) : Transform T := mkTransform (t_r1c1 a) (t_r1c2 a) (t_r1c3 a) (t_r1c4 a) (t_r2c1 a) (t_r2c2 a) (t_r2c3 a) v (t_r3c1 a) (t_r3c2 a) (t_r3c3 a) (t_r3c4 a).
Definition set_t_r3c1 {T} (v : T) (a : Transform T) : Transform T := mkTransform (t_r1c1 a) (t_r1c2 a) (t_r1c3 a) (t_r1c4 a) (t_r2c1 a) (t_r2c2 a) (t_r2c3 a) (t_r2c4 a) v (t_r3c2 a) (t_r3c3 a) (t_r3c4 a).
Definition set_t_r3c2 {T} (v : T) (a : Transform T) : Transform T := mkTransform (t_r1c1 a) (t_r1c2 a) (t_r1c3 a) (t_r1c4 a) (t_r2c1 a) (t_r2c2 a) (t_r2c3 a) (t_r2c4 a) (t_r3c1 a) v (t_r3c3 a) (t_r3c4 a).
Definition set_t_r3c3 {T} (v : T) (a : Transform T) : Transform T := mkTransform (t_r1c1 a) (t_r1c2 a) (t_r1c3 a) (t_r1c4 a) (t_r2c1 a) (t_r2c2 a) (t_r2c3 a) (t_r2c4 a) (t_r3c1 a) (t_r3c2 a) v (t_r3c4 a).
Definition set_t_r3c4 {T} (v : T) (a : Transform T) : Transform T := mkTransform (t_r1c1 a) (t_r1c2 a) (t_r1c3 a) (t_r1c4 a) (t_r2c1 a) (t_r2c2 a) (t_r2c3 a) (t_r2c4 a) (t_r3c1 a) (t_r3c2 a) (t_r3c3 a) v.

(** almath/types/alrotation.h:36-44, the nine coefficients. *)
Record Rotation (T : Type) := mkRotation { m_r1c1 : T; m_r1c2 : T; m_r1c3 : T; m_r2c1 : T; m_r2c2 : T; m_r2c3 : T; m_r3c1 : T; m_r3c2 : T; m_r3c3 : T }.
Arguments m_r1c1 {T} _.
Arguments m_r1c2 {T} _.
Arguments m_r1c3 {T} _.
Arguments m_r2c1 {T} _.
Arguments m_r2c2 {T} _.
Arguments m_r2c3 {T} _.
Arguments m_r3c1 {T} _.
Arguments m_r3c2 {T} _.
Arguments m_r3c3 {T} _.
Arguments mkRotation {T}.

Definition set_m_r1c1 {T} (v : T) (a : Rotation T) : Rotation T := mkRotation v (m_r1c2 a) (m_r1c3 a) (m_r2c1 a) (m_r2c2 a) (m_r2c3 a) (m_r3c1 a) (m_r3c2 a) (m_r3c3 a).
Definition set_m_r1c2 {T} (v : T) (a : Rotation T) : Rotation T := mkRotation (m_r1c1 a) v (m_r1c3 a) (m_r2c1 a) (m_r2c2 a) (m_r2c3 a) (m_r3c1 a) (m_r3c2 a) (m_r3c3 a).
Definition set_m_r1c3 {T} (v : T) (a : Rotation T) : Rotation T := mkRotation (m_r1c1 a) (m_r1c2 a) v (m_r2c1 a) (m_r2c2 a) (m_r2c3 a) (m_r3c1 a) (m_r3c2 a) (m_r3c3 a).
Definition set_m_r2c1 {T} (v : T) (a : Rotation T) : Rotation T := mkRotation (m_r1c1 a) (m_r1c2 a) (m_r1c3 a) v (m_r2c2 a) (m_r2c3 a) (m_r3c1 a) (m_r3c2 a) (m_r3c3 a).
Definition set_m_r2c2 {T} (v : T) (a : Rotation T) : Rotation T := mkRotation (m_r1c1 a) (m_r1c2 a) (m_r1c3 a) (m_r2c1 a) v (m_r2c3 a) (m_r3c1 a) (m_r3c2 a) (m_r3c3 a).
Definition set_m_r2c3 {T} (v : T) (a : Rotation T) : Rotation T := mkRotation (m_r1c1 a) (m_r1c2 a) (m_r1c3 a) (m_r2c1 a) (m_r2c2 a) v (m_r3c1 a) (m_r3c2 a) (m_r3c3 a).
Definition set_m_r3c1 {T} (v : T) (a : Rotation T) : Rotation T := mkRotation (m_r1c1 a) (m_r1c2 a) (m_r1c3 a) (m_r2c1 a) (m_r2c2 a) (m_r2c3 a) v (m_r3c2 a) (m_r3c3 a).
Definition set_m_r3c2 {T} (v : T) (a : Rotation T) : Rotation T := mkRotation (m_r1c1 a) (m_r1c2 a) (m_r1c3 a) (m_r2c1 a) (m_r2c2 a) (m_r2c3 a) (m_r3c1 a) v (m_r3c3 a).
Definition set_m_r3c3 {T} (v : T) (a : Rotation T) : Rotation T := mkRotation (m_r1c1 a) (m_r1c2 a) (m_r1c3 a) (m_r2c1 a) (m_r2c2 a) (m_r2c3 a) (m_r3c1 a) (m_r3c2 a) v.

(** almath/types/alquaternion.h:26-29 *)
Record Quaternion (T : Type) := mkQuaternion { q_w : T; q_x : T; q_y : T; q_z : T }.
Arguments q_w {T} _.
Arguments q_x {T} _.
Arguments q_y {T} _.
Arguments q_z {T} _.
Arguments mkQuaternion {T}.

Definition set_q_w {T} (v : T) (a : Quaternion T) : Quaternion T := mkQuaternion v (q_x a) (q_y a) (q_z a).
Definition set_q_x {T} (v : T) (a : Quaternion T) : Quaternion T := mkQuaternion (q_w a) v (q_y a) (q_z a).
Definition set_q_y {T} (v : T) (a : Quaternion T) : Quaternion T := mkQuaternion (q_w a) (q_x a) v (q_z a).
Definition set_q_z {T} (v : T) (a : Quaternion T) : Quaternion T := mkQuaternion (q_w a) (q_x a) (q_y a) v.

(** almath/types/aldisplacement.h:25-27 *)
Record Displacement (T : Type) := mkDisplacement { d_P : Position3D T; d_Q : Quaternion T }.
Arguments d_P {T} _.
Arguments d_Q {T} _.
Arguments mkDisplacement {T}.

Section Model.
Context {T : Type} {S : Scalar T}.
Local Open Scope sc_scope.

(** ** Transform *)

(** src/types/altransform.cpp:14-17 *)
Definition t_id : Transform T :=
  mkTransform #1 #0 #0 #0 #0 #1 #0 #0 #0 #0 #1 #0.

(** src/types/altransform.cpp:78-98 *)
Definition t_ofXYZ (x y z : T) : Transform T :=
  mkTransform #1 #0 #0 x #0 #1 #0 y #0 #0 #1 z.

(** src/types/altransform.cpp:526-534 *)
Definition t_determinant (a : Transform T) : T :=
  t_r1c1 a * t_r2c2 a * t_r3c3 a + t_r1c2 a * t_r2c3 a * t_r3c1 a
  + t_r1c3 a * t_r2c1 a * t_r3c2 a - t_r1c1 a * t_r2c3 a * t_r3c2 a
  - t_r1c2 a * t_r2c1 a * t_r3c3 a - t_r1c3 a * t_r2c2 a * t_r3c1 a.

(** src/types/altransform.cpp:536-554; the list lookups are in range. *)
Definition vec_determinant (v : list T) : T :=
  if negb (Nat.eqb (length v) 12) && negb (Nat.eqb (length v) 16) then #0
  else
    let f i := nth i v #0 in
    f 0%nat * f 5%nat * f 10%nat + f 1%nat * f 6%nat * f 8%nat
    + f 2%nat * f 4%nat * f 9%nat - f 0%nat * f 6%nat * f 9%nat
    - f 1%nat * f 4%nat * f 10%nat - f 2%nat * f 5%nat * f 8%nat.

(** src/types/altransform.cpp:194-243 *)
Definition t_isTransform (a : Transform T) (eps : T) : bool :=
  if s_abs (t_r1c2 a * t_r1c1 a + t_r2c2 a * t_r2c1 a + t_r3c2 a * t_r3c1 a) >? eps then false
  else if s_abs (t_r1c3 a * t_r1c1 a + t_r2c3 a * t_r2c1 a + t_r3c3 a * t_r3c1 a) >? eps then false
  else if s_abs (t_r1c3 a * t_r1c2 a + t_r2c3 a * t_r2c2 a + t_r3c3 a * t_r3c2 a) >? eps then false
  else if s_abs (t_r1c1 a * t_r1c1 a + t_r1c2 a * t_r1c2 a + t_r1c3 a * t_r1c3 a - #1) >? eps then false
  else if s_abs (t_r2c1 a * t_r2c1 a + t_r2c2 a * t_r2c2 a + t_r2c3 a * t_r2c3 a - #1) >? eps then false
  else if s_abs (t_r3c1 a * t_r3c1 a + t_r3c2 a * t_r3c2 a + t_r3c3 a * t_r3c3 a - #1) >? eps then false
  else if s_abs (t_determinant a - #1) >? eps then false
  else true.

(** almath/types/altransform.h:151-152: the default of [pEpsilon] in isTransform. *)
Definition t_isTransform_default_eps : T := ##1//10000.

(** altransform.cpp:427-437, 461-471: the rotation part set to identity. *)
Definition t_setRotationIdentity (a : Transform T) : Transform T :=
  mkTransform #1 #0 #0 (t_r1c4 a) #0 #1 #0 (t_r2c4 a) #0 #0 #1 (t_r3c4 a).

(** src/types/altransform.cpp:412-483 *)
Definition t_normalize (a : Transform T) : Transform T :=
  let lEpsilon := ##1//10000 in
  let lNorm := s_wide (WSqrt (WAdd (WAdd (WPow2 (t_r1c3 a)) (WPow2 (t_r2c3 a))) (WPow2 (t_r3c3 a)))) in
  if lNorm <? lEpsilon then t_setRotationIdentity a
  else
    let a := set_t_r1c3 (t_r1c3 a / lNorm) a in
    let a := set_t_r2c3 (t_r2c3 a / lNorm) a in
    let a := set_t_r3c3 (t_r3c3 a / lNorm) a in
    let x1 := t_r2c2 a * t_r3c3 a - t_r3c2 a * t_r2c3 a in
    let x2 := t_r3c2 a * t_r1c3 a - t_r1c2 a * t_r3c3 a in
    let x3 := t_r1c2 a * t_r2c3 a - t_r2c2 a * t_r1c3 a in
    let lNorm := s_wide (WSqrt (WAdd (WAdd (WPow2 x1) (WPow2 x2)) (WPow2 x3))) in
    if lNorm <? lEpsilon then t_setRotationIdentity a
    else
      let a := set_t_r1c1 (x1 / lNorm) a in
      let a := set_t_r2c1 (x2 / lNorm) a in
      let a := set_t_r3c1 (x3 / lNorm) a in
      let a := set_t_r1c2 (t_r2c3 a * t_r3c1 a - t_r3c3 a * t_r2c1 a) a in
      let a := set_t_r2c2 (t_r3c3 a * t_r1c1 a - t_r1c3 a * t_r3c1 a) a in
      let a := set_t_r3c2 (t_r1c3 a * t_r2c1 a - t_r2c3 a * t_r1c1 a) a in
      a.

(** src/types/altransform.cpp:19-76 (lines 44-51 only print) *)
Definition t_ofVector (v : list T) : Transform T :=
  if Nat.eqb (length v) 12 || Nat.eqb (length v) 16 then
    let f i := nth i v #0 in
    let a := mkTransform (f 0%nat) (f 1%nat) (f 2%nat) (f 3%nat)
                         (f 4%nat) (f 5%nat) (f 6%nat) (f 7%nat)
                         (f 8%nat) (f 9%nat) (f 10%nat) (f 11%nat) in
    if negb (t_isTransform a t_isTransform_default_eps) then t_normalize a else a
  else t_id.

(** src/types/altransform.cpp:133-151 *)
Definition t_mul (a b : Transform T) : Transform T :=
  mkTransform
    ((t_r1c1 a * t_r1c1 b) + (t_r1c2 a * t_r2c1 b) + (t_r1c3 a * t_r3c1 b))
    ((t_r1c1 a * t_r1c2 b) + (t_r1c2 a * t_r2c2 b) + (t_r1c3 a * t_r3c2 b))
    ((t_r1c1 a * t_r1c3 b) + (t_r1c2 a * t_r2c3 b) + (t_r1c3 a * t_r3c3 b))
    ((t_r1c1 a * t_r1c4 b) + (t_r1c2 a * t_r2c4 b) + (t_r1c3 a * t_r3c4 b) + t_r1c4 a)
    ((t_r2c1 a * t_r1c1 b) + (t_r2c2 a * t_r2c1 b) + (t_r2c3 a * t_r3c1 b))
    ((t_r2c1 a * t_r1c2 b) + (t_r2c2 a * t_r2c2 b) + (t_r2c3 a * t_r3c2 b))
    ((t_r2c1 a * t_r1c3 b) + (t_r2c2 a * t_r2c3 b) + (t_r2c3 a * t_r3c3 b))
    ((t_r2c1 a * t_r1c4 b) + (t_r2c2 a * t_r2c4 b) + (t_r2c3 a * t_r3c4 b) + t_r2c4 a)
    ((t_r3c1 a * t_r1c1 b) + (t_r3c2 a * t_r2c1 b) + (t_r3c3 a * t_r3c1 b))
    ((t_r3c1 a * t_r1c2 b) + (t_r3c2 a * t_r2c2 b) + (t_r3c3 a * t_r3c2 b))
    ((t_r3c1 a * t_r1c3 b) + (t_r3c2 a * t_r2c3 b) + (t_r3c3 a * t_r3c3 b))
    ((t_r3c1 a * t_r1c4 b) + (t_r3c2 a * t_r2c4 b) + (t_r3c3 a * t_r3c4 b) + t_r3c4 a).

(** src/types/altransform.cpp:108-130: the statements of [operator*=] after the
    self test, [this] at address [o], the argument at [q]. *)
Definition t_mulIn_body (m : mem (Transform T)) (o q : nat) : mem (Transform T) :=
  let c1 := t_r1c1 (m o) in
  let c2 := t_r1c2 (m o) in
  let c3 := t_r1c3 (m o) in
  do m := mupd m o (set_t_r1c1 ((c1 * t_r1c1 (m q)) + (c2 * t_r2c1 (m q)) + (c3 * t_r3c1 (m q))) (m o)) in
  do m := mupd m o (set_t_r1c2 ((c1 * t_r1c2 (m q)) + (c2 * t_r2c2 (m q)) + (c3 * t_r3c2 (m q))) (m o)) in
  do m := mupd m o (set_t_r1c3 ((c1 * t_r1c3 (m q)) + (c2 * t_r2c3 (m q)) + (c3 * t_r3c3 (m q))) (m o)) in
  do m := mupd m o (set_t_r1c4 ((c1 * t_r1c4 (m q)) + (c2 * t_r2c4 (m q)) + (c3 * t_r3c4 (m q)) + t_r1c4 (m o)) (m o)) in
  let c1 := t_r2c1 (m o) in
  let c2 := t_r2c2 (m o) in
  let c3 := t_r2c3 (m o) in
  do m := mupd m o (set_t_r2c1 ((c1 * t_r1c1 (m q)) + (c2 * t_r2c1 (m q)) + (c3 * t_r3c1 (m q))) (m o)) in
  do m := mupd m o (set_t_r2c2 ((c1 * t_r1c2 (m q)) + (c2 * t_r2c2 (m q)) + (c3 * t_r3c2 (m q))) (m o)) in
  do m := mupd m o (set_t_r2c3 ((c1 * t_r1c3 (m q)) + (c2 * t_r2c3 (m q)) + (c3 * t_r3c3 (m q))) (m o)) in
  do m := mupd m o (set_t_r2c4 ((c1 * t_r1c4 (m q)) + (c2 * t_r2c4 (m q)) + (c3 * t_r3c4 (m q)) + t_r2c4 (m o)) (m o)) in
  let c1 := t_r3c1 (m o) in
  let c2 := t_r3c2 (m o) in
  let c3 := t_r3c3 (m o) in
  do m := mupd m o (set_t_r3c1 ((c1 * t_r1c1 (m q)) + (c2 * t_r2c1 (m q)) + (c3 * t_r3c1 (m q))) (m o)) in
  do m := mupd m o (set_t_r3c2 ((c1 * t_r1c2 (m q)) + (c2 * t_r2c2 (m q)) + (c3 * t_r3c2 (m q))) (m o)) in
  do m := mupd m o (set_t_r3c3 ((c1 * t_r1c3 (m q)) + (c2 * t_r2c3 (m q)) + (c3 * t_r3c3 (m q))) (m o)) in
  do m := mupd m o (set_t_r3c4 ((c1 * t_r1c4 (m q)) + (c2 * t_r2c4 (m q)) + (c3 * t_r3c4 (m q)) + t_r3c4 (m o)) (m o)) in
  m.

(** src/types/altransform.cpp:100-131: with [this == &pT2] the call is repeated on a
    copy; the copy lives at an address [fresh] different from [o]. *)
Definition t_mulIn (m : mem (Transform T)) (o q : nat) : mem (Transform T) :=
  if Nat.eqb o q then
    let fresh := Datatypes.S o in
    let saved := m fresh in
    do m := mupd m fresh (m q) in
    do m := t_mulIn_body m o fresh in
    mupd m fresh saved
  else t_mulIn_body m o q.

(** The value left in [a] by [a *= b] for distinct objects. *)
Definition t_mulAssign (a b : Transform T) : Transform T :=
  t_mulIn (fun o => match o with O => a | _ => b end) 0 1 0.

(** src/types/altransform.cpp:153-167 *)
Definition t_eqb (a b : Transform T) : bool :=
  (t_r1c1 a =? t_r1c1 b) && (t_r1c2 a =? t_r1c2 b) && (t_r1c3 a =? t_r1c3 b) && (t_r1c4 a =? t_r1c4 b) && (t_r2c1 a =? t_r2c1 b) && (t_r2c2 a =? t_r2c2 b) && (t_r2c3 a =? t_r2c3 b) && (t_r2c4 a =? t_r2c4 b) && (t_r3c1 a =? t_r3c1 b) && (t_r3c2 a =? t_r3c2 b) && (t_r3c3 a =? t_r3c3 b) && (t_r3c4 a =? t_r3c4 b).

(** src/types/altransform.cpp:175-191 *)
Definition t_isNear (a b : Transform T) (eps : T) : bool :=
  (s_abs (t_r1c1 a - t_r1c1 b) <=? eps)
  && (s_abs (t_r1c2 a - t_r1c2 b) <=? eps)
  && (s_abs (t_r1c3 a - t_r1c3 b) <=? eps)
  && (s_abs (t_r2c1 a - t_r2c1 b) <=? eps)
  && (s_abs (t_r2c2 a - t_r2c2 b) <=? eps)
  && (s_abs (t_r2c3 a - t_r2c3 b) <=? eps)
  && (s_abs (t_r3c1 a - t_r3c1 b) <=? eps)
  && (s_abs (t_r3c2 a - t_r3c2 b) <=? eps)
  && (s_abs (t_r3c3 a - t_r3c3 b) <=? eps)
  && (s_abs (t_r1c4 a - t_r1c4 b) <=? eps)
  && (s_abs (t_r2c4 a - t_r2c4 b) <=? eps)
  && (s_abs (t_r3c4 a - t_r3c4 b) <=? eps).

(** The sixteen values of src/types/altransform.cpp:331-349. *)
Definition t_list (a : Transform T) : list T :=
  [t_r1c1 a; t_r1c2 a; t_r1c3 a; t_r1c4 a; t_r2c1 a; t_r2c2 a; t_r2c3 a; t_r2c4 a; t_r3c1 a; t_r3c2 a; t_r3c3 a; t_r3c4 a; #0; #0; #0; #1].

(** src/types/altransform.cpp:327-350 *)
Definition t_toVectorInto (a : Transform T) (out : list T) : res (list T) :=
  vset_from (vresize #0 16 out) 0 (t_list a).

(** src/types/altransform.cpp:352-357 *)
Definition t_toVector (a : Transform T) : res (list T) := t_toVectorInto a (repeat #0 16).

(** src/types/altransform.cpp:359-380 *)
Definition t_writeToVector (a : Transform T) (v : list T) (it : nat) : res (list T * nat) :=
  vwrite v it (t_list a).

(** src/types/altransform.cpp:494-524 (deprecated, twelve values) *)
Definition t_toFloatVector (a : Transform T) (out : list T) : res (list T) :=
  vset_from (vresize #0 12 out) 0 [t_r1c1 a; t_r1c2 a; t_r1c3 a; t_r1c4 a; t_r2c1 a; t_r2c2 a; t_r2c3 a; t_r2c4 a; t_r3c1 a; t_r3c2 a; t_r3c3 a; t_r3c4 a].

(** src/types/altransform.cpp:382-409: statement by statement, [i] the address of
    [pT], [o] of [pTOut]. *)
Definition t_preMultiply (m : mem (Transform T)) (i o : nat) : mem (Transform T) :=
  let r1 := t_r1c1 (m o) in
  let r2 := t_r2c1 (m o) in
  do m := mupd m o (set_t_r1c1 ((t_r1c1 (m i) * r1) + (t_r1c2 (m i) * r2) + (t_r1c3 (m i) * t_r3c1 (m o))) (m o)) in
  do m := mupd m o (set_t_r2c1 ((t_r2c1 (m i) * r1) + (t_r2c2 (m i) * r2) + (t_r2c3 (m i) * t_r3c1 (m o))) (m o)) in
  do m := mupd m o (set_t_r3c1 ((t_r3c1 (m i) * r1) + (t_r3c2 (m i) * r2) + (t_r3c3 (m i) * t_r3c1 (m o))) (m o)) in
  let r1 := t_r1c2 (m o) in
  let r2 := t_r2c2 (m o) in
  do m := mupd m o (set_t_r1c2 ((t_r1c1 (m i) * r1) + (t_r1c2 (m i) * r2) + (t_r1c3 (m i) * t_r3c2 (m o))) (m o)) in
  do m := mupd m o (set_t_r2c2 ((t_r2c1 (m i) * r1) + (t_r2c2 (m i) * r2) + (t_r2c3 (m i) * t_r3c2 (m o))) (m o)) in
  do m := mupd m o (set_t_r3c2 ((t_r3c1 (m i) * r1) + (t_r3c2 (m i) * r2) + (t_r3c3 (m i) * t_r3c2 (m o))) (m o)) in
  let r1 := t_r1c3 (m o) in
  let r2 := t_r2c3 (m o) in
  do m := mupd m o (set_t_r1c3 ((t_r1c1 (m i) * r1) + (t_r1c2 (m i) * r2) + (t_r1c3 (m i) * t_r3c3 (m o))) (m o)) in
  do m := mupd m o (set_t_r2c3 ((t_r2c1 (m i) * r1) + (t_r2c2 (m i) * r2) + (t_r2c3 (m i) * t_r3c3 (m o))) (m o)) in
  do m := mupd m o (set_t_r3c3 ((t_r3c1 (m i) * r1) + (t_r3c2 (m i) * r2) + (t_r3c3 (m i) * t_r3c3 (m o))) (m o)) in
  let r1 := t_r1c4 (m o) in
  let r2 := t_r2c4 (m o) in
  do m := mupd m o (set_t_r1c4 ((t_r1c1 (m i) * r1) + (t_r1c2 (m i) * r2) + (t_r1c3 (m i) * t_r3c4 (m o)) + t_r1c4 (m i)) (m o)) in
  do m := mupd m o (set_t_r2c4 ((t_r2c1 (m i) * r1) + (t_r2c2 (m i) * r2) + (t_r2c3 (m i) * t_r3c4 (m o)) + t_r2c4 (m i)) (m o)) in
  do m := mupd m o (set_t_r3c4 ((t_r3c1 (m i) * r1) + (t_r3c2 (m i) * r2) + (t_r3c3 (m i) * t_r3c4 (m o)) + t_r3c4 (m i)) (m o)) in
  m.

(** src/types/altransform.cpp:485-491 *)
Definition t_norm (a : Transform T) : T :=
  s_sqrt (t_r1c4 a * t_r1c4 a + t_r2c4 a * t_r2c4 a + t_r3c4 a * t_r3c4 a).

(** src/types/altransform.cpp:557-576: statement by statement, [i] the address of
    [pT], [o] of [pTOut]. *)
Definition t_inverseOut (m : mem (Transform T)) (i o : nat) : mem (Transform T) :=
  do m := mupd m o (set_t_r1c1 (t_r1c1 (m i)) (m o)) in
  do m := mupd m o (set_t_r1c2 (t_r2c1 (m i)) (m o)) in
  do m := mupd m o (set_t_r1c3 (t_r3c1 (m i)) (m o)) in
  do m := mupd m o (set_t_r2c1 (t_r1c2 (m i)) (m o)) in
  do m := mupd m o (set_t_r2c2 (t_r2c2 (m i)) (m o)) in
  do m := mupd m o (set_t_r2c3 (t_r3c2 (m i)) (m o)) in
  do m := mupd m o (set_t_r3c1 (t_r1c3 (m i)) (m o)) in
  do m := mupd m o (set_t_r3c2 (t_r2c3 (m i)) (m o)) in
  do m := mupd m o (set_t_r3c3 (t_r3c3 (m i)) (m o)) in
  do m := mupd m o (set_t_r1c4 (- (t_r1c1 (m i) * t_r1c4 (m i) + t_r2c1 (m i) * t_r2c4 (m i) + t_r3c1 (m i) * t_r3c4 (m i))) (m o)) in
  do m := mupd m o (set_t_r2c4 (- (t_r1c2 (m i) * t_r1c4 (m i) + t_r2c2 (m i) * t_r2c4 (m i) + t_r3c2 (m i) * t_r3c4 (m i))) (m o)) in
  do m := mupd m o (set_t_r3c4 (- (t_r1c3 (m i) * t_r1c4 (m i) + t_r2c3 (m i) * t_r2c4 (m i) + t_r3c3 (m i) * t_r3c4 (m i))) (m o)) in
  m.

(** src/types/altransform.cpp:579-584 and 262-265 (Transform::inverse) *)
Definition t_inverse (a : Transform T) : Transform T :=
  t_inverseOut (fun o => match o with O => a | _ => t_id end) 0 1 1.

(** src/types/altransform.cpp:587-597 *)
Definition t_fromRotX (x : T) : Transform T :=
  let c := s_cos x in let s := s_sin x in
  mkTransform #1 #0 #0 #0 #0 c (- s) #0 #0 s c #0.

(** src/types/altransform.cpp:600-610 *)
Definition t_fromRotY (x : T) : Transform T :=
  let c := s_cos x in let s := s_sin x in
  mkTransform c #0 s #0 #0 #1 #0 #0 (- s) #0 c #0.

(** src/types/altransform.cpp:613-623 *)
Definition t_fromRotZ (x : T) : Transform T :=
  let c := s_cos x in let s := s_sin x in
  mkTransform c (- s) #0 #0 s c #0 #0 #0 #0 #1 #0.

(** src/types/altransform.cpp:626-635 *)
Definition t_from3DRotation (wx wy wz : T) : Transform T :=
  let a := t_fromRotZ wz in
  let a := t_mulAssign a (t_fromRotY wy) in
  let a := t_mulAssign a (t_fromRotX wx) in
  a.

(** src/types/altransform.cpp:638-648 *)
Definition t_fromPosition (x y z : T) : Transform T :=
  let a := t_id in
  let a := set_t_r1c4 x a in
  let a := set_t_r2c4 y a in
  set_t_r3c4 z a.

(** src/types/altransform.cpp:651-665 *)
Definition t_fromPosition6 (x y z wx wy wz : T) : Transform T :=
  let a := t_from3DRotation wx wy wz in
  let a := set_t_r1c4 x a in
  let a := set_t_r2c4 y a in
  set_t_r3c4 z a.

(** src/types/altransform.cpp:667-686 *)
Definition t_invertInPlace (a : Transform T) : Transform T :=
  let tmp0 := t_r1c2 a in
  let a := set_t_r1c2 (t_r2c1 a) a in
  let a := set_t_r2c1 tmp0 a in
  let tmp0 := t_r1c3 a in
  let a := set_t_r1c3 (t_r3c1 a) a in
  let a := set_t_r3c1 tmp0 a in
  let tmp0 := t_r2c3 a in
  let a := set_t_r2c3 (t_r3c2 a) a in
  let a := set_t_r3c2 tmp0 a in
  let tmp0 := - (t_r1c1 a * t_r1c4 a + t_r1c2 a * t_r2c4 a + t_r1c3 a * t_r3c4 a) in
  let tmp1 := - (t_r2c1 a * t_r1c4 a + t_r2c2 a * t_r2c4 a + t_r2c3 a * t_r3c4 a) in
  let a := set_t_r3c4 (- (t_r3c1 a * t_r1c4 a + t_r3c2 a * t_r2c4 a + t_r3c3 a * t_r3c4 a)) a in
  let a := set_t_r2c4 tmp1 a in
  let a := set_t_r1c4 tmp0 a in
  a.

(** src/types/altransform.cpp:688-693 *)
Definition t_pinv (a : Transform T) : Transform T := t_invertInPlace a.

(** src/types/altransform.cpp:696-705 *)
Definition t_diff (a b : Transform T) : Transform T :=
  t_mulAssign (t_invertInPlace a) b.

(** src/types/altransform.cpp:707-718 *)
Definition t_distanceSquared (a b : Transform T) : T :=
  let tmp := t_r1c4 a - t_r1c4 b in
  let tot := tmp * tmp in
  let tmp := t_r2c4 a - t_r2c4 b in
  let tot := tot + tmp * tmp in
  let tmp := t_r3c4 a - t_r3c4 b in
  tot + tmp * tmp.

(** src/types/altransform.cpp:721-726 *)
Definition t_distance (a b : Transform T) : T := s_sqrt (t_distanceSquared a b).

(** ** Rotation *)

(** src/types/alrotation.cpp:16-19 *)
Definition m_id : Rotation T := mkRotation #1 #0 #0 #0 #1 #0 #0 #0 #1.

(** src/types/alrotation.cpp:21-69 *)
Definition m_ofVector (v : list T) : Rotation T :=
  let f i := nth i v #0 in
  if Nat.eqb (length v) 9 then
    mkRotation (f 0%nat) (f 1%nat) (f 2%nat) (f 3%nat) (f 4%nat) (f 5%nat) (f 6%nat) (f 7%nat) (f 8%nat)
  else if Nat.eqb (length v) 12 || Nat.eqb (length v) 16 then
    mkRotation (f 0%nat) (f 1%nat) (f 2%nat) (f 4%nat) (f 5%nat) (f 6%nat) (f 8%nat) (f 9%nat) (f 10%nat)
  else m_id.

(** src/types/alrotation.cpp:84-104: the statements of [operator*=] after the self
    test (the reads of lines 74-76 are the same before or after it). *)
Definition m_mulIn_body (m : mem (Rotation T)) (o q : nat) : mem (Rotation T) :=
  let c1 := m_r1c1 (m o) in
  let c2 := m_r1c2 (m o) in
  let c3 := m_r1c3 (m o) in
  do m := mupd m o (set_m_r1c1 ((c1 * m_r1c1 (m q)) + (c2 * m_r2c1 (m q)) + (c3 * m_r3c1 (m q))) (m o)) in
  do m := mupd m o (set_m_r1c2 ((c1 * m_r1c2 (m q)) + (c2 * m_r2c2 (m q)) + (c3 * m_r3c2 (m q))) (m o)) in
  do m := mupd m o (set_m_r1c3 ((c1 * m_r1c3 (m q)) + (c2 * m_r2c3 (m q)) + (c3 * m_r3c3 (m q))) (m o)) in
  let c1 := m_r2c1 (m o) in
  let c2 := m_r2c2 (m o) in
  let c3 := m_r2c3 (m o) in
  do m := mupd m o (set_m_r2c1 ((c1 * m_r1c1 (m q)) + (c2 * m_r2c1 (m q)) + (c3 * m_r3c1 (m q))) (m o)) in
  do m := mupd m o (set_m_r2c2 ((c1 * m_r1c2 (m q)) + (c2 * m_r2c2 (m q)) + (c3 * m_r3c2 (m q))) (m o)) in
  do m := mupd m o (set_m_r2c3 ((c1 * m_r1c3 (m q)) + (c2 * m_r2c3 (m q)) + (c3 * m_r3c3 (m q))) (m o)) in
  let c1 := m_r3c1 (m o) in
  let c2 := m_r3c2 (m o) in
  let c3 := m_r3c3 (m o) in
  do m := mupd m o (set_m_r3c1 ((c1 * m_r1c1 (m q)) + (c2 * m_r2c1 (m q)) + (c3 * m_r3c1 (m q))) (m o)) in
  do m := mupd m o (set_m_r3c2 ((c1 * m_r1c2 (m q)) + (c2 * m_r2c2 (m q)) + (c3 * m_r3c2 (m q))) (m o)) in
  do m := mupd m o (set_m_r3c3 ((c1 * m_r1c3 (m q)) + (c2 * m_r2c3 (m q)) + (c3 * m_r3c3 (m q))) (m o)) in
  m.

(** src/types/alrotation.cpp:72-105 *)
Definition m_mulIn (m : mem (Rotation T)) (o q : nat) : mem (Rotation T) :=
  if Nat.eqb o q then
    let fresh := Datatypes.S o in
    let saved := m fresh in
    do m := mupd m fresh (m q) in
    do m := m_mulIn_body m o fresh in
    mupd m fresh saved
  else m_mulIn_body m o q.

(** The value left in [a] by [a *= b] for distinct objects. *)
Definition m_mulAssign (a b : Rotation T) : Rotation T :=
  m_mulIn (fun o => match o with O => a | _ => b end) 0 1 0.

(** src/types/alrotation.cpp:108-113: a copy, then [*=]. *)
Definition m_mul (a b : Rotation T) : Rotation T := m_mulAssign a b.

(** src/types/alrotation.cpp:116-127 *)
Definition m_eqb (a b : Rotation T) : bool :=
  (m_r1c1 a =? m_r1c1 b) && (m_r1c2 a =? m_r1c2 b) && (m_r1c3 a =? m_r1c3 b) && (m_r2c1 a =? m_r2c1 b) && (m_r2c2 a =? m_r2c2 b) && (m_r2c3 a =? m_r2c3 b) && (m_r3c1 a =? m_r3c1 b) && (m_r3c2 a =? m_r3c2 b) && (m_r3c3 a =? m_r3c3 b).

(** src/types/alrotation.cpp:135-148 *)
Definition m_isNear (a b : Rotation T) (eps : T) : bool :=
  (s_abs (m_r1c1 a - m_r1c1 b) <=? eps)
  && (s_abs (m_r1c2 a - m_r1c2 b) <=? eps)
  && (s_abs (m_r1c3 a - m_r1c3 b) <=? eps)
  && (s_abs (m_r2c1 a - m_r2c1 b) <=? eps)
  && (s_abs (m_r2c2 a - m_r2c2 b) <=? eps)
  && (s_abs (m_r2c3 a - m_r2c3 b) <=? eps)
  && (s_abs (m_r3c1 a - m_r3c1 b) <=? eps)
  && (s_abs (m_r3c2 a - m_r3c2 b) <=? eps)
  && (s_abs (m_r3c3 a - m_r3c3 b) <=? eps).

(** src/types/alrotation.cpp:304-312 *)
Definition m_determinant (a : Rotation T) : T :=
  m_r1c1 a * m_r2c2 a * m_r3c3 a + m_r1c2 a * m_r2c3 a * m_r3c1 a
  + m_r1c3 a * m_r2c1 a * m_r3c2 a - m_r1c1 a * m_r2c3 a * m_r3c2 a
  - m_r1c2 a * m_r2c1 a * m_r3c3 a - m_r1c3 a * m_r2c2 a * m_r3c1 a.

(** src/types/alrotation.cpp:151-200 *)
Definition m_isRotation (a : Rotation T) (eps : T) : bool :=
  if s_abs (m_r1c2 a * m_r1c1 a + m_r2c2 a * m_r2c1 a + m_r3c2 a * m_r3c1 a) >? eps then false
  else if s_abs (m_r1c3 a * m_r1c1 a + m_r2c3 a * m_r2c1 a + m_r3c3 a * m_r3c1 a) >? eps then false
  else if s_abs (m_r1c3 a * m_r1c2 a + m_r2c3 a * m_r2c2 a + m_r3c3 a * m_r3c2 a) >? eps then false
  else if s_abs (m_r1c1 a * m_r1c1 a + m_r1c2 a * m_r1c2 a + m_r1c3 a * m_r1c3 a - #1) >? eps then false
  else if s_abs (m_r2c1 a * m_r2c1 a + m_r2c2 a * m_r2c2 a + m_r2c3 a * m_r2c3 a - #1) >? eps then false
  else if s_abs (m_r3c1 a * m_r3c1 a + m_r3c2 a * m_r3c2 a + m_r3c3 a * m_r3c3 a - #1) >? eps then false
  else if s_abs (m_determinant a - #1) >? eps then false
  else true.

(** src/types/alrotation.cpp:260-274, 276-281 *)
Definition m_list (a : Rotation T) : list T := [m_r1c1 a; m_r1c2 a; m_r1c3 a; m_r2c1 a; m_r2c2 a; m_r2c3 a; m_r3c1 a; m_r3c2 a; m_r3c3 a].

(** src/types/alrotation.cpp:260-274 *)
Definition m_toVectorInto (a : Rotation T) (out : list T) : res (list T) :=
  vset_from (vresize #0 9 out) 0 (m_list a).

(** src/types/alrotation.cpp:276-281 *)
Definition m_toVector (a : Rotation T) : res (list T) := m_toVectorInto a (repeat #0 9).

(** src/types/alrotation.cpp:284-301 *)
Definition m_transpose (a : Rotation T) : Rotation T :=
  mkRotation (m_r1c1 a) (m_r2c1 a) (m_r3c1 a)
             (m_r1c2 a) (m_r2c2 a) (m_r3c2 a)
             (m_r1c3 a) (m_r2c3 a) (m_r3c3 a).

(** src/types/alrotation.cpp:315-341 *)
Definition m_fromQuaternion4 (pA pB pC pD : T) : Rotation T :=
  let t2 := pA * pB in
  let t3 := pA * pC in
  let t4 := pA * pD in
  let t5 := (- pB) * pB in
  let t6 := pB * pC in
  let t7 := pB * pD in
  let t8 := (- pC) * pC in
  let t9 := pC * pD in
  let t10 := (- pD) * pD in
  mkRotation (#2 * (t8 + t10) + #1) (#2 * (t6 - t4)) (#2 * (t7 + t3))
             (#2 * (t6 + t4)) (#2 * (t5 + t10) + #1) (#2 * (t9 - t2))
             (#2 * (t7 - t3)) (#2 * (t9 + t2)) (#2 * (t5 + t8) + #1).

(** src/types/alrotation.cpp:343-382 *)
Definition m_fromAngleDirection (angle pX pY pZ : T) : res (Rotation T) :=
  let norm := pX * pX + pY * pY + pZ * pZ in
  if (norm >? ##100001//100000) || (norm <? ##99999//100000) then Throw
  else
    let t1 := s_cos angle in
    let t2 := #1 - t1 in
    let t3 := pX * pX in
    let t6 := t2 * pX in
    let t7 := t6 * pY in
    let t8 := s_sin angle in
    let t9 := t8 * pZ in
    let t11 := t6 * pZ in
    let t12 := t8 * pY in
    let t15 := pY * pY in
    let t19 := t2 * pY * pZ in
    let t20 := t8 * pX in
    let t24 := pZ * pZ in
    Ok (mkRotation (t1 + t2 * t3) (t7 - t9) (t11 + t12)
                   (t7 + t9) (t1 + t2 * t15) (t19 - t20)
                   (t11 - t12) (t19 + t20) (t1 + t2 * t24)).

(** src/types/alrotation.cpp:385-397 (the three float references distinct) *)
Definition m_apply (a : Rotation T) (x y z : T) : T * T * T :=
  (x * m_r1c1 a + y * m_r1c2 a + z * m_r1c3 a,
   x * m_r2c1 a + y * m_r2c2 a + z * m_r2c3 a,
   x * m_r3c1 a + y * m_r3c2 a + z * m_r3c3 a).

(** src/types/alrotation.cpp:400-410 *)
Definition m_fromRotX (x : T) : Rotation T :=
  let c := s_cos x in let s := s_sin x in
  mkRotation #1 #0 #0 #0 c (- s) #0 s c.

(** src/types/alrotation.cpp:413-423 *)
Definition m_fromRotY (x : T) : Rotation T :=
  let c := s_cos x in let s := s_sin x in
  mkRotation c #0 s #0 #1 #0 (- s) #0 c.

(** src/types/alrotation.cpp:426-436 *)
Definition m_fromRotZ (x : T) : Rotation T :=
  let c := s_cos x in let s := s_sin x in
  mkRotation c (- s) #0 s c #0 #0 #0 #1.

(** almath/types/alrotation.h:251-256 *)
Definition m_fromRotXPi : Rotation T := set_m_r3c3 (- #1) (set_m_r2c2 (- #1) m_id).

(** almath/types/alrotation.h:271-276 *)
Definition m_fromRotYPi : Rotation T := set_m_r3c3 (- #1) (set_m_r1c1 (- #1) m_id).

(** almath/types/alrotation.h:294-299 *)
Definition m_fromRotZPi : Rotation T := set_m_r2c2 (- #1) (set_m_r1c1 (- #1) m_id).

(** almath/types/alrotation.h:304-311 *)
Definition m_fromRotZHalfPi : Rotation T :=
  set_m_r2c2 #0 (set_m_r2c1 #1 (set_m_r1c2 (- #1) (set_m_r1c1 #0 m_id))).

(** src/types/alrotation.cpp:439-449 *)
Definition m_from3DRotation (wx wy wz : T) : Rotation T :=
  let a := m_fromRotZ wz in
  let a := m_mulAssign a (m_fromRotY wy) in
  let a := m_mulAssign a (m_fromRotX wx) in
  a.

(** src/types/alrotation.cpp:451-523 *)
Definition m_normalize (a : Rotation T) : Rotation T :=
  let lEpsilon := ##1//10000 in
  let lNorm := s_wide (WSqrt (WAdd (WAdd (WPow2 (m_r1c3 a)) (WPow2 (m_r2c3 a))) (WPow2 (m_r3c3 a)))) in
  if lNorm <? lEpsilon then m_id
  else
    let a := set_m_r1c3 (m_r1c3 a / lNorm) a in
    let a := set_m_r2c3 (m_r2c3 a / lNorm) a in
    let a := set_m_r3c3 (m_r3c3 a / lNorm) a in
    let x1 := m_r2c2 a * m_r3c3 a - m_r3c2 a * m_r2c3 a in
    let x2 := m_r3c2 a * m_r1c3 a - m_r1c2 a * m_r3c3 a in
    let x3 := m_r1c2 a * m_r2c3 a - m_r2c2 a * m_r1c3 a in
    let lNorm := s_wide (WSqrt (WAdd (WAdd (WPow2 x1) (WPow2 x2)) (WPow2 x3))) in
    if lNorm <? lEpsilon then m_id
    else
      let a := set_m_r1c1 (x1 / lNorm) a in
      let a := set_m_r2c1 (x2 / lNorm) a in
      let a := set_m_r3c1 (x3 / lNorm) a in
      let a := set_m_r1c2 (m_r2c3 a * m_r3c1 a - m_r3c3 a * m_r2c1 a) a in
      let a := set_m_r2c2 (m_r3c3 a * m_r1c1 a - m_r1c3 a * m_r3c1 a) a in
      let a := set_m_r3c2 (m_r1c3 a * m_r2c1 a - m_r2c3 a * m_r1c1 a) a in
      a.

(** ** Quaternion *)

(** src/types/alquaternion.cpp:16 *)
Definition q_id : Quaternion T := mkQuaternion #1 #0 #0 #0.

(** src/types/alquaternion.cpp:28-49 *)
Definition q_ofVector (v : list T) : Quaternion T :=
  match v with
  | [w; x; y; z] => mkQuaternion w x y z
  | _ => mkQuaternion #0 #0 #0 #0
  end.

(** almath/types/alquaternion.h:116-123 *)
Definition q_mul (a b : Quaternion T) : Quaternion T :=
  mkQuaternion
    (q_w a * q_w b - q_x a * q_x b - q_y a * q_y b - q_z a * q_z b)
    (q_w a * q_x b + q_w b * q_x a + q_y a * q_z b - q_z a * q_y b)
    (q_w a * q_y b + q_w b * q_y a + q_z a * q_x b - q_x a * q_z b)
    (q_w a * q_z b + q_w b * q_z a + q_x a * q_y b - q_y a * q_x b).

(** src/types/alquaternion.cpp:53-56, 64-68: the body of [operator*=] after the
    self test. *)
Definition q_mulIn_body (m : mem (Quaternion T)) (o q : nat) : mem (Quaternion T) :=
  let w1 := q_w (m o) in
  let x1 := q_x (m o) in
  let y1 := q_y (m o) in
  let z1 := q_z (m o) in
  do m := mupd m o (set_q_w (w1 * q_w (m q) - x1 * q_x (m q) - y1 * q_y (m q) - z1 * q_z (m q)) (m o)) in
  do m := mupd m o (set_q_x (w1 * q_x (m q) + q_w (m q) * x1 + y1 * q_z (m q) - z1 * q_y (m q)) (m o)) in
  do m := mupd m o (set_q_y (w1 * q_y (m q) + q_w (m q) * y1 + z1 * q_x (m q) - x1 * q_z (m q)) (m o)) in
  do m := mupd m o (set_q_z (w1 * q_z (m q) + q_w (m q) * z1 + x1 * q_y (m q) - y1 * q_x (m q)) (m o)) in
  m.

(** src/types/alquaternion.cpp:51-69 *)
Definition q_mulIn (m : mem (Quaternion T)) (o q : nat) : mem (Quaternion T) :=
  if Nat.eqb o q then
    let fresh := Datatypes.S o in
    let saved := m fresh in
    do m := mupd m fresh (m q) in
    do m := q_mulIn_body m o fresh in
    mupd m fresh saved
  else q_mulIn_body m o q.

(** src/types/alquaternion.cpp:71-85 *)
Definition q_isNear (a b : Quaternion T) (eps : T) : bool :=
  ((s_abs (q_w a - q_w b) <? eps) && (s_abs (q_x a - q_x b) <? eps)
   && (s_abs (q_y a - q_y b) <? eps) && (s_abs (q_z a - q_z b) <? eps))
  || ((s_abs (q_w a + q_w b) <? eps) && (s_abs (q_x a + q_x b) <? eps)
   && (s_abs (q_y a + q_y b) <? eps) && (s_abs (q_z a + q_z b) <? eps)).

(** almath/types/alquaternion.h:141-144 *)
Definition q_scale (a : Quaternion T) (v : T) : Quaternion T :=
  mkQuaternion (q_w a * v) (q_x a * v) (q_y a * v) (q_z a * v).

(** src/types/alquaternion.cpp:88-95 *)
Definition q_scaleIn (a : Quaternion T) (v : T) : Quaternion T :=
  mkQuaternion (q_w a * v) (q_x a * v) (q_y a * v) (q_z a * v).

(** src/types/alquaternion.cpp:98-107: outcome and what [*this] holds afterwards. *)
Definition q_divIn (a : Quaternion T) (v : T) : res unit * Quaternion T :=
  if v =? #0 then (Throw, a) else (Ok tt, q_scaleIn a (#1 / v)).

(** src/types/alquaternion.cpp:109-117 *)
Definition q_div (a : Quaternion T) (v : T) : res (Quaternion T) :=
  if v =? #0 then Throw else Ok (q_scale a (#1 / v)).

(** src/types/alquaternion.cpp:119-125 *)
Definition q_eqb (a b : Quaternion T) : bool :=
  (q_w a =? q_w b) && (q_x a =? q_x b) && (q_y a =? q_y b) && (q_z a =? q_z b).

(** src/types/alquaternion.cpp:168-175 *)
Definition q_list (a : Quaternion T) : list T := [q_w a; q_x a; q_y a; q_z a].

(** src/types/alquaternion.cpp:168-175 *)
Definition q_toVectorInto (a : Quaternion T) (out : list T) : res (list T) :=
  vset_from (vresize #0 4 out) 0 (q_list a).

(** src/types/alquaternion.cpp:177-182 *)
Definition q_toVector (a : Quaternion T) : res (list T) := q_toVectorInto a (repeat #0 4).

(** src/types/alquaternion.cpp:194-200 *)
Definition q_norm (a : Quaternion T) : T :=
  s_wide (WSqrt (WAdd (WAdd (WAdd (WPow2 (q_w a)) (WPow2 (q_x a))) (WPow2 (q_y a))) (WPow2 (q_z a)))).

(** src/types/alquaternion.cpp:202-211 *)
Definition q_normalize (a : Quaternion T) : res (Quaternion T) :=
  let tmpNorm := q_norm a in
  if tmpNorm =? #0 then Throw else q_div a tmpNorm.

(** src/types/alquaternion.cpp:219-227: statement by statement, addresses [i], [o]. *)
Definition q_inverseOut (m : mem (Quaternion T)) (i o : nat) : mem (Quaternion T) :=
  do m := mupd m o (set_q_w (q_w (m i)) (m o)) in
  do m := mupd m o (set_q_x (- q_x (m i)) (m o)) in
  do m := mupd m o (set_q_y (- q_y (m i)) (m o)) in
  do m := mupd m o (set_q_z (- q_z (m i)) (m o)) in
  m.

(** src/types/alquaternion.cpp:230-235, 213-216 *)
Definition q_inverse (a : Quaternion T) : Quaternion T :=
  q_inverseOut (fun o => match o with O => a | _ => q_id end) 0 1 1.

(** src/types/alquaternion.cpp:133-151: the result of [qua.normalize()] on line 149
    is discarded, but the call can throw. *)
Definition q_fromAngleAndAxis (angle ax ay az : T) : res (Quaternion T) :=
  let sin_a := s_sin (##1//2 * angle) in
  let cos_a := s_cos (##1//2 * angle) in
  let qua := mkQuaternion cos_a (ax * sin_a) (ay * sin_a) (az * sin_a) in
  rbind (q_normalize qua) (fun _ => Ok qua).

(** src/types/alquaternion.cpp:238-270: the result of [copy.normalize()] on line 246
    is discarded. Returns (angle, x, y, z). *)
Definition q_angleAndAxis (a : Quaternion T) : res (T * T * T * T) :=
  rbind (q_normalize a) (fun _ =>
  let angle := #2 * s_acos (q_w a) in
  let sin_angle := s_wide (WSqrt (WSub (WVal #1) (WPow2 (q_w a)))) in
  let sin_angle := if s_abs sin_angle <? ##5//10000 then #1 else sin_angle in
  let ax := q_x a / sin_angle in
  let ay := q_y a / sin_angle in
  let az := q_z a / sin_angle in
  let normAxe := s_wide (WSqrt (WAdd (WAdd (WPow2 ax) (WPow2 ay)) (WPow2 az))) in
  if normAxe <? ##1//10000 then Ok (angle, #1, #0, #0)
  else Ok (angle, ax, ay, az)).

(** src/tools/almath.cpp:164-184: Quaternion times Position3D. *)
Definition q_apply (a : Quaternion T) (p : Position3D T) : Position3D T :=
  let w := q_w a in let x := q_x a in let y := q_y a in let z := q_z a in
  let px := p3_x p in let py := p3_y p in let pz := p3_z p in
  let rx := w * w * px + #2 * y * w * pz in
  let rx := rx + ((- #2) * z * w * py + x * x * px) in
  let rx := rx + (#2 * y * x * py + #2 * z * x * pz) in
  let rx := rx + ((- z) * z * px - y * y * px) in
  let ry := #2 * x * y * px + y * y * py in
  let ry := ry + (#2 * z * y * pz + #2 * w * z * px) in
  let ry := ry + ((- z) * z * py + w * w * py) in
  let ry := ry + ((- #2) * x * w * pz - x * x * py) in
  let rz := #2 * x * z * px + #2 * y * z * py in
  let rz := rz + (z * z * pz - #2 * w * y * px) in
  let rz := rz + ((- y) * y * pz + #2 * w * x * py) in
  let rz := rz + ((- x) * x * pz + w * w * pz) in
  mkPosition3D rx ry rz.

(** ** Displacement *)

(** src/types/aldisplacement.cpp:12 *)
Definition d_default : Displacement T := mkDisplacement p3_default q_id.

(** src/types/aldisplacement.cpp:19-24: [P += Q * pDisp.P; Q *= pDisp.Q], addresses
    of the two displacements; the members of one displacement share its address. *)
Definition d_mulIn (m : mem (Displacement T)) (o q : nat) : mem (Displacement T) :=
  let tmp := q_apply (d_Q (m o)) (d_P (m q)) in
  do m := mupd m o (mkDisplacement (p3_add (d_P (m o)) tmp) (d_Q (m o))) in
  let mq := q_mulIn (fun x => d_Q (m x)) o q in
  mupd m o (mkDisplacement (d_P (m o)) (mq o)).

(** src/types/aldisplacement.cpp:34-39 *)
Definition d_mul (a b : Displacement T) : Displacement T :=
  d_mulIn (fun o => match o with O => a | _ => b end) 0 1 0.

(** src/types/aldisplacement.cpp:26-32 *)
Definition d_isNear (a b : Displacement T) (eps : T) : bool :=
  p3_isNear (d_P a) (d_P b) eps && q_isNear (d_Q a) (d_Q b) eps.

End Model.
