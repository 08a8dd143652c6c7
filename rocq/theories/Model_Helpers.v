(** * src/tools/altransformhelpers.cpp *)

From Coq Require Import List Bool ZArith.
Import ListNotations.
From Verif Require Import Scalar Model_Base Model_Vec Model_Rigid Model_Almath.

Set Implicit Arguments.

(** Field assignments used by the functions below that write through references. *)
Definition set_v6 {T} (i : nat) (x : T) (v : Velocity6D T) : Velocity6D T :=
  match v with
  | mkVelocity6D a b c d e f =>
      match i with
      | 0 => mkVelocity6D x b c d e f | 1 => mkVelocity6D a x c d e f
      | 2 => mkVelocity6D a b x d e f | 3 => mkVelocity6D a b c x e f
      | 4 => mkVelocity6D a b c d x f | _ => mkVelocity6D a b c d e x
      end
  end.
Definition set_p6 {T} (i : nat) (x : T) (v : Position6D T) : Position6D T :=
  match v with
  | mkPosition6D a b c d e f =>
      match i with
      | 0 => mkPosition6D x b c d e f | 1 => mkPosition6D a x c d e f
      | 2 => mkPosition6D a b x d e f | 3 => mkPosition6D a b c x e f
      | 4 => mkPosition6D a b c d x f | _ => mkPosition6D a b c d e x
      end
  end.
Definition set_p3 {T} (i : nat) (x : T) (v : Position3D T) : Position3D T :=
  match v with
  | mkPosition3D a b c =>
      match i with
      | 0 => mkPosition3D x b c | 1 => mkPosition3D a x c | _ => mkPosition3D a b x
      end
  end.

Section Model.
Context {T : Type} {S : Scalar T}.
Local Open Scope sc_scope.

(** src/tools/altransformhelpers.cpp:18-43 *)
Definition transformFromRotationXYZ (r : Rotation T) (x y z : T) : Transform T :=
  mkTransform (m_r1c1 r) (m_r1c2 r) (m_r1c3 r) x
              (m_r2c1 r) (m_r2c2 r) (m_r2c3 r) y
              (m_r3c1 r) (m_r3c2 r) (m_r3c3 r) z.

(** src/tools/altransformhelpers.cpp:45-68 *)
Definition transformFromRotationPosition3D (r : Rotation T) (p : Position3D T) : Transform T :=
  mkTransform (m_r1c1 r) (m_r1c2 r) (m_r1c3 r) (p3_x p)
              (m_r2c1 r) (m_r2c2 r) (m_r2c3 r) (p3_y p)
              (m_r3c1 r) (m_r3c2 r) (m_r3c3 r) (p3_z p).

(** src/tools/altransformhelpers.cpp:78-81: twice the sine and cosine of the angle, halved. *)
Definition log_si (h : Transform T) : T :=
  ##1//2*s_sqrt (((t_r3c2 h) - (t_r2c3 h))*((t_r3c2 h) - (t_r2c3 h)) + ((t_r1c3 h) - (t_r3c1 h))*((t_r1c3 h) - (t_r3c1 h)) + ((t_r2c1 h) - (t_r1c2 h))*((t_r2c1 h) - (t_r1c2 h)) ).
Definition log_co (h : Transform T) : T :=
  ##1//2*((t_r1c1 h) + (t_r2c2 h) + (t_r3c3 h) - #1).

(** src/tools/altransformhelpers.cpp:164-186: the linear part, given [coeff] and
    [lambda]; [w] is the angular part already stored in [pVOut]. *)
Definition log_linear (h : Transform T) (coeff lambda : T) (w : T * T * T) : Velocity6D T :=
  let coeff_2 := s_pow2 coeff in
  mkVelocity6D
    ((t_r2c4 h)*( coeff_2*( (t_r1c3 h) - (t_r3c1 h) )*( (t_r3c2 h) - (t_r2c3 h) )*lambda - ##1//2*coeff*( (t_r1c2 h) - (t_r2c1 h) )) + (t_r3c4 h)*( coeff_2*( (t_r1c2 h) - (t_r2c1 h) )*( (t_r2c3 h) - (t_r3c2 h) )*lambda - ##1//2*coeff*( (t_r1c3 h) - (t_r3c1 h) )) + (t_r1c4 h)*( coeff_2*(( (t_r1c3 h) - (t_r3c1 h) )*( (t_r3c1 h) - (t_r1c3 h)) + ( (t_r1c2 h) - (t_r2c1 h) )*( (t_r2c1 h) - (t_r1c2 h) ))*lambda + #1 ))
    ((t_r2c4 h)*( coeff_2*(( (t_r2c3 h) - (t_r3c2 h) )*( (t_r3c2 h) - (t_r2c3 h) ) + ( (t_r1c2 h) - (t_r2c1 h) )*( (t_r2c1 h) - (t_r1c2 h) ))*lambda + #1) + (t_r1c4 h)*( coeff_2*( (t_r3c1 h) - (t_r1c3 h) )*( (t_r2c3 h) - (t_r3c2 h) )*lambda - ##1//2*coeff*( (t_r2c1 h) - (t_r1c2 h) )) + (t_r3c4 h)*( coeff_2*( (t_r2c1 h) - (t_r1c2 h) )*( (t_r1c3 h) - (t_r3c1 h) )*lambda - ##1//2*coeff*( (t_r2c3 h) - (t_r3c2 h) )))
    ((t_r3c4 h)*( coeff_2*(( (t_r2c3 h) - (t_r3c2 h) )*( (t_r3c2 h) - (t_r2c3 h) ) + ( (t_r1c3 h) - (t_r3c1 h) )*( (t_r3c1 h) - (t_r1c3 h) ))*lambda + #1 ) + (t_r1c4 h)*( coeff_2*( (t_r2c1 h) - (t_r1c2 h) )*( (t_r3c2 h) - (t_r2c3 h) )*lambda - ##1//2*coeff*( (t_r3c1 h) - (t_r1c3 h) )) + (t_r2c4 h)*( coeff_2*( (t_r1c2 h) - (t_r2c1 h) )*( (t_r3c1 h) - (t_r1c3 h) )*lambda - ##1//2*coeff*( (t_r3c2 h) - (t_r2c3 h) )))
    (fst (fst w)) (snd (fst w)) (snd w).

(** src/tools/altransformhelpers.cpp:71-188.  [w0] is the angular part [pVOut] holds
    on entry: lines 131-139 leave it as it was. *)
Definition transformLogarithmInPlace (h : Transform T) (w0 : T * T * T) : Velocity6D T :=
  let epsilon := ##1//1000 in
  let si := log_si h in
  let co := log_co h in
  let angle := s_atan2 si co in
  let finish (coeff : T) (w : T * T * T) :=
    let lambda :=
      if angle <? epsilon then #1 / #12
      else if (angle >? s_pi - epsilon) || (angle <? - s_pi + epsilon) then ##101//1000
      else ##1//2 * (#2 * si - angle * (#1 + co)) / (angle * angle * si) in
    log_linear h coeff lambda w in
  let direction (coeff : T) :=
    (coeff * (t_r3c2 h - t_r2c3 h), coeff * (t_r1c3 h - t_r3c1 h), coeff * (t_r2c1 h - t_r1c2 h)) in
  if si <? epsilon then
    if co >? #1 - epsilon then
      let coeff := angle / (#2 * si + epsilon) in
      finish coeff (direction coeff)
    else if co <? - #1 + epsilon then
      let lambda := #1 / (s_pi * s_pi) in
      if t_r1c1 h >? #1 - epsilon then
        mkVelocity6D ((t_r1c4 h))
                     ((#1-lambda*angle*angle)*(t_r2c4 h) + ##1//2*angle*(t_r3c4 h))
                     (-##1//2*angle*(t_r2c4 h) + (#1-lambda*angle*angle)*(t_r3c4 h))
                     angle #0 #0
      else if t_r2c2 h >? #1 - epsilon then
        mkVelocity6D ((#1-lambda*angle*angle)*(t_r1c4 h) - ##1//2*angle*(t_r3c4 h))
                     ((t_r2c4 h))
                     (##1//2*angle*(t_r1c4 h) + (#1-lambda*angle*angle)*(t_r3c4 h))
                     #0 angle #0
      else if t_r3c3 h >? #1 - epsilon then
        mkVelocity6D ((#1-lambda*angle*angle)*(t_r1c4 h) + ##1//2*angle*(t_r2c4 h))
                     (-##1//2*angle*(t_r1c4 h) + (#1-lambda*angle*angle)*(t_r2c4 h))
                     ((t_r3c4 h))
                     #0 #0 angle
      else finish #0 w0
    else finish #0 w0
  else
    let coeff := angle / (#2 * si) in
    finish coeff (direction coeff).

(** src/tools/altransformhelpers.cpp:191-196 *)
Definition transformLogarithm (h : Transform T) : Velocity6D T :=
  transformLogarithmInPlace h (#0, #0, #0).

(** src/tools/altransformhelpers.cpp:205 *)
Definition exp_t (v : Velocity6D T) : T :=
  s_sqrt (v6_wxd v * v6_wxd v + v6_wyd v * v6_wyd v + v6_wzd v * v6_wzd v).

(** src/tools/altransformhelpers.cpp:223-243: the matrix, given the coefficients. *)
Definition exp_matrix (v : Velocity6D T) (CC SC dSC : T) : Transform T :=
  mkTransform
    (#1 - CC*((v6_wzd v)*(v6_wzd v) + (v6_wyd v)*(v6_wyd v)))
    (- SC*(v6_wzd v) + CC*(v6_wxd v)*(v6_wyd v))
    (SC*(v6_wyd v) + CC*(v6_wxd v)*(v6_wzd v))
    ((SC + dSC*(v6_wxd v)*(v6_wxd v))*(v6_xd v) + (-CC*(v6_wzd v) + dSC*(v6_wxd v)*(v6_wyd v))*(v6_yd v) + (CC*(v6_wyd v) + dSC*(v6_wxd v)*(v6_wzd v))*(v6_zd v))
    (SC*(v6_wzd v) + CC*(v6_wxd v)*(v6_wyd v))
    (#1 - CC*((v6_wxd v)*(v6_wxd v) + (v6_wzd v)*(v6_wzd v)))
    (- SC*(v6_wxd v) + CC*(v6_wyd v)*(v6_wzd v))
    ((CC*(v6_wzd v) + dSC*(v6_wyd v)*(v6_wxd v))*(v6_xd v) + (SC + dSC*(v6_wyd v)*(v6_wyd v))*(v6_yd v) + (-CC*(v6_wxd v) + dSC*(v6_wyd v)*(v6_wzd v))*(v6_zd v))
    (- SC*(v6_wyd v) + CC*(v6_wxd v)*(v6_wzd v))
    (SC*(v6_wxd v) + CC*(v6_wyd v)*(v6_wzd v))
    (#1 - CC*((v6_wxd v)*(v6_wxd v) + (v6_wyd v)*(v6_wyd v)))
    ((-CC*(v6_wyd v) + dSC*(v6_wzd v)*(v6_wxd v))*(v6_xd v) + (CC*(v6_wxd v) + dSC*(v6_wzd v)*(v6_wyd v))*(v6_yd v) + (SC + dSC*(v6_wzd v)*(v6_wzd v))*(v6_zd v)).

(** src/tools/altransformhelpers.cpp:199-252. *)
Definition velocityExponential (v : Velocity6D T) : Transform T :=
  let t := exp_t v in
  if t >=? ##1//1000 then
    exp_matrix v ((#1 - s_cos t) / (t * t)) (s_sin t / t) (s_wide (WDiv (WVal (t - s_sin t)) (WPow3 t)))
  else
    exp_matrix v (##1//2) (#1 - t * t / #6) (##166666667//1000000000).

(** src/tools/altransformhelpers.cpp:255-266: statement by statement, [i] the address of
    the input, [o] of the output. *)
Definition changeReferenceVelocity6D (h : Transform T) (m : mem (Velocity6D T)) (i o : nat) : mem (Velocity6D T) :=
  do m := mupd m o (set_v6 0 ((t_r1c1 h) * (v6_xd (m i)) + (t_r1c2 h) * (v6_yd (m i)) + (t_r1c3 h) * (v6_zd (m i))) (m o)) in
  do m := mupd m o (set_v6 1 ((t_r2c1 h) * (v6_xd (m i)) + (t_r2c2 h) * (v6_yd (m i)) + (t_r2c3 h) * (v6_zd (m i))) (m o)) in
  do m := mupd m o (set_v6 2 ((t_r3c1 h) * (v6_xd (m i)) + (t_r3c2 h) * (v6_yd (m i)) + (t_r3c3 h) * (v6_zd (m i))) (m o)) in
  do m := mupd m o (set_v6 3 ((t_r1c1 h) * (v6_wxd (m i)) + (t_r1c2 h) * (v6_wyd (m i)) + (t_r1c3 h) * (v6_wzd (m i))) (m o)) in
  do m := mupd m o (set_v6 4 ((t_r2c1 h) * (v6_wxd (m i)) + (t_r2c2 h) * (v6_wyd (m i)) + (t_r2c3 h) * (v6_wzd (m i))) (m o)) in
  do m := mupd m o (set_v6 5 ((t_r3c1 h) * (v6_wxd (m i)) + (t_r3c2 h) * (v6_wyd (m i)) + (t_r3c3 h) * (v6_wzd (m i))) (m o)) in
  m.

(** src/tools/altransformhelpers.cpp:269-280: statement by statement, [i] the address of
    the input, [o] of the output. *)
Definition changeReferencePosition6D (h : Transform T) (m : mem (Position6D T)) (i o : nat) : mem (Position6D T) :=
  do m := mupd m o (set_p6 0 ((t_r1c1 h) * (p6_x (m i)) + (t_r1c2 h) * (p6_y (m i)) + (t_r1c3 h) * (p6_z (m i))) (m o)) in
  do m := mupd m o (set_p6 1 ((t_r2c1 h) * (p6_x (m i)) + (t_r2c2 h) * (p6_y (m i)) + (t_r2c3 h) * (p6_z (m i))) (m o)) in
  do m := mupd m o (set_p6 2 ((t_r3c1 h) * (p6_x (m i)) + (t_r3c2 h) * (p6_y (m i)) + (t_r3c3 h) * (p6_z (m i))) (m o)) in
  do m := mupd m o (set_p6 3 ((t_r1c1 h) * (p6_wx (m i)) + (t_r1c2 h) * (p6_wy (m i)) + (t_r1c3 h) * (p6_wz (m i))) (m o)) in
  do m := mupd m o (set_p6 4 ((t_r2c1 h) * (p6_wx (m i)) + (t_r2c2 h) * (p6_wy (m i)) + (t_r2c3 h) * (p6_wz (m i))) (m o)) in
  do m := mupd m o (set_p6 5 ((t_r3c1 h) * (p6_wx (m i)) + (t_r3c2 h) * (p6_wy (m i)) + (t_r3c3 h) * (p6_wz (m i))) (m o)) in
  m.

(** src/tools/altransformhelpers.cpp:313-321: statement by statement, [i] the address of
    the input, [o] of the output. *)
Definition changeReferencePosition3D (h : Transform T) (m : mem (Position3D T)) (i o : nat) : mem (Position3D T) :=
  do m := mupd m o (set_p3 0 ((t_r1c1 h) * (p3_x (m i)) + (t_r1c2 h) * (p3_y (m i)) + (t_r1c3 h) * (p3_z (m i))) (m o)) in
  do m := mupd m o (set_p3 1 ((t_r2c1 h) * (p3_x (m i)) + (t_r2c2 h) * (p3_y (m i)) + (t_r2c3 h) * (p3_z (m i))) (m o)) in
  do m := mupd m o (set_p3 2 ((t_r3c1 h) * (p3_x (m i)) + (t_r3c2 h) * (p3_y (m i)) + (t_r3c3 h) * (p3_z (m i))) (m o)) in
  m.

(** src/tools/altransformhelpers.cpp:324-332: statement by statement, [i] the address of
    the input, [o] of the output. *)
Definition changeReferenceTransposePosition3D (h : Transform T) (m : mem (Position3D T)) (i o : nat) : mem (Position3D T) :=
  do m := mupd m o (set_p3 0 ((t_r1c1 h) * (p3_x (m i)) + (t_r2c1 h) * (p3_y (m i)) + (t_r3c1 h) * (p3_z (m i))) (m o)) in
  do m := mupd m o (set_p3 1 ((t_r1c2 h) * (p3_x (m i)) + (t_r2c2 h) * (p3_y (m i)) + (t_r3c2 h) * (p3_z (m i))) (m o)) in
  do m := mupd m o (set_p3 2 ((t_r1c3 h) * (p3_x (m i)) + (t_r2c3 h) * (p3_y (m i)) + (t_r3c3 h) * (p3_z (m i))) (m o)) in
  m.

(** src/tools/altransformhelpers.cpp:379-390: statement by statement, [i] the address of
    the input, [o] of the output. *)
Definition changeReferenceTransposeVelocity6D (h : Transform T) (m : mem (Velocity6D T)) (i o : nat) : mem (Velocity6D T) :=
  do m := mupd m o (set_v6 0 ((t_r1c1 h) * (v6_xd (m i)) + (t_r2c1 h) * (v6_yd (m i)) + (t_r3c1 h) * (v6_zd (m i))) (m o)) in
  do m := mupd m o (set_v6 1 ((t_r1c2 h) * (v6_xd (m i)) + (t_r2c2 h) * (v6_yd (m i)) + (t_r3c2 h) * (v6_zd (m i))) (m o)) in
  do m := mupd m o (set_v6 2 ((t_r1c3 h) * (v6_xd (m i)) + (t_r2c3 h) * (v6_yd (m i)) + (t_r3c3 h) * (v6_zd (m i))) (m o)) in
  do m := mupd m o (set_v6 3 ((t_r1c1 h) * (v6_wxd (m i)) + (t_r2c1 h) * (v6_wyd (m i)) + (t_r3c1 h) * (v6_wzd (m i))) (m o)) in
  do m := mupd m o (set_v6 4 ((t_r1c2 h) * (v6_wxd (m i)) + (t_r2c2 h) * (v6_wyd (m i)) + (t_r3c2 h) * (v6_wzd (m i))) (m o)) in
  do m := mupd m o (set_v6 5 ((t_r1c3 h) * (v6_wxd (m i)) + (t_r2c3 h) * (v6_wyd (m i)) + (t_r3c3 h) * (v6_wzd (m i))) (m o)) in
  m.

(** src/tools/altransformhelpers.cpp:393-404: statement by statement, [i] the address of
    the input, [o] of the output. *)
Definition changeReferenceTransposePosition6D (h : Transform T) (m : mem (Position6D T)) (i o : nat) : mem (Position6D T) :=
  do m := mupd m o (set_p6 0 ((t_r1c1 h) * (p6_x (m i)) + (t_r2c1 h) * (p6_y (m i)) + (t_r3c1 h) * (p6_z (m i))) (m o)) in
  do m := mupd m o (set_p6 1 ((t_r1c2 h) * (p6_x (m i)) + (t_r2c2 h) * (p6_y (m i)) + (t_r3c2 h) * (p6_z (m i))) (m o)) in
  do m := mupd m o (set_p6 2 ((t_r1c3 h) * (p6_x (m i)) + (t_r2c3 h) * (p6_y (m i)) + (t_r3c3 h) * (p6_z (m i))) (m o)) in
  do m := mupd m o (set_p6 3 ((t_r1c1 h) * (p6_wx (m i)) + (t_r2c1 h) * (p6_wy (m i)) + (t_r3c1 h) * (p6_wz (m i))) (m o)) in
  do m := mupd m o (set_p6 4 ((t_r1c2 h) * (p6_wx (m i)) + (t_r2c2 h) * (p6_wy (m i)) + (t_r3c2 h) * (p6_wz (m i))) (m o)) in
  do m := mupd m o (set_p6 5 ((t_r1c3 h) * (p6_wx (m i)) + (t_r2c3 h) * (p6_wy (m i)) + (t_r3c3 h) * (p6_wz (m i))) (m o)) in
  m.

(** src/tools/altransformhelpers.cpp:283-295 *)
Definition changeReferencePosition3DInPlace (h : Transform T) (p : Position3D T) : Position3D T :=
  let x := p3_x p in let y := p3_y p in let z := p3_z p in
  mkPosition3D
    ((t_r1c1 h) * x + (t_r1c2 h) * y + (t_r1c3 h) * z)
    ((t_r2c1 h) * x + (t_r2c2 h) * y + (t_r2c3 h) * z)
    ((t_r3c1 h) * x + (t_r3c2 h) * y + (t_r3c3 h) * z).

(** src/tools/altransformhelpers.cpp:298-310 *)
Definition changeReferenceTransposePosition3DInPlace (h : Transform T) (p : Position3D T) : Position3D T :=
  let x := p3_x p in let y := p3_y p in let z := p3_z p in
  mkPosition3D
    ((t_r1c1 h) * x + (t_r2c1 h) * y + (t_r3c1 h) * z)
    ((t_r1c2 h) * x + (t_r2c2 h) * y + (t_r3c2 h) * z)
    ((t_r1c3 h) * x + (t_r2c3 h) * y + (t_r3c3 h) * z).

(** src/tools/altransformhelpers.cpp:335-354: statement by statement; [h], [i] the addresses
    of the inputs, [o] of the output. *)
Definition changeReferenceTransform (m : mem (Transform T)) (h i o : nat) : mem (Transform T) :=
  do m := mupd m o (set_t_r1c1 (((t_r1c1 (m h)) * (t_r1c1 (m i))) + ((t_r1c2 (m h)) * (t_r2c1 (m i))) + ((t_r1c3 (m h)) * (t_r3c1 (m i)))) (m o)) in
  do m := mupd m o (set_t_r1c2 (((t_r1c1 (m h)) * (t_r1c2 (m i))) + ((t_r1c2 (m h)) * (t_r2c2 (m i))) + ((t_r1c3 (m h)) * (t_r3c2 (m i)))) (m o)) in
  do m := mupd m o (set_t_r1c3 (((t_r1c1 (m h)) * (t_r1c3 (m i))) + ((t_r1c2 (m h)) * (t_r2c3 (m i))) + ((t_r1c3 (m h)) * (t_r3c3 (m i)))) (m o)) in
  do m := mupd m o (set_t_r1c4 (((t_r1c1 (m h)) * (t_r1c4 (m i))) + ((t_r1c2 (m h)) * (t_r2c4 (m i))) + ((t_r1c3 (m h)) * (t_r3c4 (m i)))) (m o)) in
  do m := mupd m o (set_t_r2c1 (((t_r2c1 (m h)) * (t_r1c1 (m i))) + ((t_r2c2 (m h)) * (t_r2c1 (m i))) + ((t_r2c3 (m h)) * (t_r3c1 (m i)))) (m o)) in
  do m := mupd m o (set_t_r2c2 (((t_r2c1 (m h)) * (t_r1c2 (m i))) + ((t_r2c2 (m h)) * (t_r2c2 (m i))) + ((t_r2c3 (m h)) * (t_r3c2 (m i)))) (m o)) in
  do m := mupd m o (set_t_r2c3 (((t_r2c1 (m h)) * (t_r1c3 (m i))) + ((t_r2c2 (m h)) * (t_r2c3 (m i))) + ((t_r2c3 (m h)) * (t_r3c3 (m i)))) (m o)) in
  do m := mupd m o (set_t_r2c4 (((t_r2c1 (m h)) * (t_r1c4 (m i))) + ((t_r2c2 (m h)) * (t_r2c4 (m i))) + ((t_r2c3 (m h)) * (t_r3c4 (m i)))) (m o)) in
  do m := mupd m o (set_t_r3c1 (((t_r3c1 (m h)) * (t_r1c1 (m i))) + ((t_r3c2 (m h)) * (t_r2c1 (m i))) + ((t_r3c3 (m h)) * (t_r3c1 (m i)))) (m o)) in
  do m := mupd m o (set_t_r3c2 (((t_r3c1 (m h)) * (t_r1c2 (m i))) + ((t_r3c2 (m h)) * (t_r2c2 (m i))) + ((t_r3c3 (m h)) * (t_r3c2 (m i)))) (m o)) in
  do m := mupd m o (set_t_r3c3 (((t_r3c1 (m h)) * (t_r1c3 (m i))) + ((t_r3c2 (m h)) * (t_r2c3 (m i))) + ((t_r3c3 (m h)) * (t_r3c3 (m i)))) (m o)) in
  do m := mupd m o (set_t_r3c4 (((t_r3c1 (m h)) * (t_r1c4 (m i))) + ((t_r3c2 (m h)) * (t_r2c4 (m i))) + ((t_r3c3 (m h)) * (t_r3c4 (m i)))) (m o)) in
  m.

(** src/tools/altransformhelpers.cpp:357-376: statement by statement; [h], [i] the addresses
    of the inputs, [o] of the output. *)
Definition changeReferenceTransposeTransform (m : mem (Transform T)) (h i o : nat) : mem (Transform T) :=
  do m := mupd m o (set_t_r1c1 (((t_r1c1 (m h)) * (t_r1c1 (m i))) + ((t_r2c1 (m h)) * (t_r2c1 (m i))) + ((t_r3c1 (m h)) * (t_r3c1 (m i)))) (m o)) in
  do m := mupd m o (set_t_r1c2 (((t_r1c1 (m h)) * (t_r1c2 (m i))) + ((t_r2c1 (m h)) * (t_r2c2 (m i))) + ((t_r3c1 (m h)) * (t_r3c2 (m i)))) (m o)) in
  do m := mupd m o (set_t_r1c3 (((t_r1c1 (m h)) * (t_r1c3 (m i))) + ((t_r2c1 (m h)) * (t_r2c3 (m i))) + ((t_r3c1 (m h)) * (t_r3c3 (m i)))) (m o)) in
  do m := mupd m o (set_t_r1c4 (((t_r1c1 (m h)) * (t_r1c4 (m i))) + ((t_r2c1 (m h)) * (t_r2c4 (m i))) + ((t_r3c1 (m h)) * (t_r3c4 (m i)))) (m o)) in
  do m := mupd m o (set_t_r2c1 (((t_r1c2 (m h)) * (t_r1c1 (m i))) + ((t_r2c2 (m h)) * (t_r2c1 (m i))) + ((t_r3c2 (m h)) * (t_r3c1 (m i)))) (m o)) in
  do m := mupd m o (set_t_r2c2 (((t_r1c2 (m h)) * (t_r1c2 (m i))) + ((t_r2c2 (m h)) * (t_r2c2 (m i))) + ((t_r3c2 (m h)) * (t_r3c2 (m i)))) (m o)) in
  do m := mupd m o (set_t_r2c3 (((t_r1c2 (m h)) * (t_r1c3 (m i))) + ((t_r2c2 (m h)) * (t_r2c3 (m i))) + ((t_r3c2 (m h)) * (t_r3c3 (m i)))) (m o)) in
  do m := mupd m o (set_t_r2c4 (((t_r1c2 (m h)) * (t_r1c4 (m i))) + ((t_r2c2 (m h)) * (t_r2c4 (m i))) + ((t_r3c2 (m h)) * (t_r3c4 (m i)))) (m o)) in
  do m := mupd m o (set_t_r3c1 (((t_r1c3 (m h)) * (t_r1c1 (m i))) + ((t_r2c3 (m h)) * (t_r2c1 (m i))) + ((t_r3c3 (m h)) * (t_r3c1 (m i)))) (m o)) in
  do m := mupd m o (set_t_r3c2 (((t_r1c3 (m h)) * (t_r1c2 (m i))) + ((t_r2c3 (m h)) * (t_r2c2 (m i))) + ((t_r3c3 (m h)) * (t_r3c2 (m i)))) (m o)) in
  do m := mupd m o (set_t_r3c3 (((t_r1c3 (m h)) * (t_r1c3 (m i))) + ((t_r2c3 (m h)) * (t_r2c3 (m i))) + ((t_r3c3 (m h)) * (t_r3c3 (m i)))) (m o)) in
  do m := mupd m o (set_t_r3c4 (((t_r1c3 (m h)) * (t_r1c4 (m i))) + ((t_r2c3 (m h)) * (t_r2c4 (m i))) + ((t_r3c3 (m h)) * (t_r3c4 (m i)))) (m o)) in
  m.

(** src/tools/altransformhelpers.cpp:407-426: [i1], [i2], [o] the addresses of
    [pHIn1], [pHIn2], [pHOut]. The locals do not alias. *)
Definition transformMeanInPlace (m : mem (Transform T)) (i1 i2 : nat) (dist : T) (o : nat)
  : res (mem (Transform T)) :=
  if (dist >? #1) || (dist <? #0) then Throw
  else
    let pHIn1i := t_inverse (m i1) in
    let pV := transformLogarithm (t_mul pHIn1i (m i2)) in
    do m := mupd m o (velocityExponential (v6_lscale dist pV)) in
    do m := mupd m o (t_mul (m i1) (m o)) in
    Ok m.

(** src/tools/altransformhelpers.cpp:429-437 *)
Definition transformMean (a b : Transform T) (dist : T) : res (Transform T) :=
  rmap (fun m => m 2%nat)
    (transformMeanInPlace (fun o => match o with 0 => a | 1 => b | _ => t_id end)%nat 0 1 dist 2).

(** src/tools/altransformhelpers.cpp:440-447 *)
Definition transformFromPosition3DInPlace (p : Position3D T) (t : Transform T) : Transform T :=
  set_t_r3c4 (p3_z p) (set_t_r2c4 (p3_y p) (set_t_r1c4 (p3_x p) t)).

(** src/tools/altransformhelpers.cpp:450-455 *)
Definition transformFromPosition3D (p : Position3D T) : Transform T :=
  transformFromPosition3DInPlace p t_id.

(** src/tools/altransformhelpers.cpp:458-473 *)
Definition transformFromRotationInPlace (r : Rotation T) (t : Transform T) : Transform T :=
  mkTransform (m_r1c1 r) (m_r1c2 r) (m_r1c3 r) (t_r1c4 t)
              (m_r2c1 r) (m_r2c2 r) (m_r2c3 r) (t_r2c4 t)
              (m_r3c1 r) (m_r3c2 r) (m_r3c3 r) (t_r3c4 t).

(** src/tools/altransformhelpers.cpp:476-481 *)
Definition transformFromRotation (r : Rotation T) : Transform T :=
  transformFromRotationInPlace r t_id.

(** src/tools/altransformhelpers.cpp:484-507 *)
Definition rotationFromTransform (t : Transform T) : Rotation T :=
  mkRotation (t_r1c1 t) (t_r1c2 t) (t_r1c3 t)
             (t_r2c1 t) (t_r2c2 t) (t_r2c3 t)
             (t_r3c1 t) (t_r3c2 t) (t_r3c3 t).

(** src/tools/altransformhelpers.cpp:510-530 *)
Definition position6DFromTransform (t : Transform T) : Position6D T :=
  let wz := s_atan2 (t_r2c1 t) (t_r1c1 t) in
  let sy := s_sin wz in
  let cy := s_cos wz in
  let wy := s_atan2 (- t_r3c1 t) (cy * t_r1c1 t + sy * t_r2c1 t) in
  let wx := s_atan2 (sy * t_r1c3 t - cy * t_r2c3 t) (cy * t_r2c2 t - sy * t_r1c2 t) in
  mkPosition6D (t_r1c4 t) (t_r2c4 t) (t_r3c4 t) wx wy wz.

(** src/tools/altransformhelpers.cpp:533-547: [Transform(x, y, 0)] then [*=]. *)
Definition transformFromPose2D (p : Pose2D T) : Transform T :=
  t_mulAssign (t_ofXYZ (pose_x p) (pose_y p) #0) (t_fromRotZ (pose_theta p)).

(** src/tools/altransformhelpers.cpp:550-563 *)
Definition position2DFromTransform (t : Transform T) : Position2D T :=
  mkPosition2D (t_r1c4 t) (t_r2c4 t).

(** src/tools/altransformhelpers.cpp:565-580 *)
Definition pose2DFromTransform (t : Transform T) : Pose2D T :=
  mkPose2D (t_r1c4 t) (t_r2c4 t) (s_atan2 (t_r2c1 t) (t_r1c1 t)).

(** src/tools/altransformhelpers.cpp:583-589 *)
Definition transformFromRotation3D (r : Rotation3D T) : Transform T :=
  t_from3DRotation (e3_wx r) (e3_wy r) (e3_wz r).

(** src/tools/altransformhelpers.cpp:592-601 *)
Definition transformFromPosition6D (p : Position6D T) : Transform T :=
  t_fromPosition6 (p6_x p) (p6_y p) (p6_z p) (p6_wx p) (p6_wy p) (p6_wz p).

(** src/tools/altransformhelpers.cpp:604-633 *)
Definition position6DFromTransformDiff (a b : Transform T) : Position6D T :=
  mkPosition6D
    ((t_r1c4 b) - (t_r1c4 a))
    ((t_r2c4 b) - (t_r2c4 a))
    ((t_r3c4 b) - (t_r3c4 a))
    (##1//2 * ( (((t_r2c1 a) * (t_r3c1 b)) - ((t_r3c1 a) * (t_r2c1 b))) + (((t_r2c2 a) * (t_r3c2 b)) - ((t_r3c2 a) * (t_r2c2 b))) + (((t_r2c3 a) * (t_r3c3 b)) - ((t_r3c3 a) * (t_r2c3 b))) ))
    (##1//2 * ( (((t_r3c1 a) * (t_r1c1 b)) - ((t_r1c1 a) * (t_r3c1 b))) + (((t_r3c2 a) * (t_r1c2 b)) - ((t_r1c2 a) * (t_r3c2 b))) + (((t_r3c3 a) * (t_r1c3 b)) - ((t_r1c3 a) * (t_r3c3 b))) ))
    (##1//2 * ( (((t_r1c1 a) * (t_r2c1 b)) - ((t_r2c1 a) * (t_r1c1 b))) + (((t_r1c2 a) * (t_r2c2 b)) - ((t_r2c2 a) * (t_r1c2 b))) + (((t_r1c3 a) * (t_r2c3 b)) - ((t_r2c3 a) * (t_r1c3 b))) )).

(** src/tools/altransformhelpers.cpp:636-651 *)
Definition position3DFromTransform (t : Transform T) : Position3D T :=
  mkPosition3D (t_r1c4 t) (t_r2c4 t) (t_r3c4 t).

(** src/tools/altransformhelpers.cpp:654-663 *)
Definition rotation3DFromTransform (t : Transform T) : Rotation3D T :=
  let wz := s_atan2 (t_r2c1 t) (t_r1c1 t) in
  let sy := s_sin wz in
  let cy := s_cos wz in
  let wy := s_atan2 (- t_r3c1 t) (cy * t_r1c1 t + sy * t_r2c1 t) in
  let wx := s_atan2 (sy * t_r1c3 t - cy * t_r2c3 t) (cy * t_r2c2 t - sy * t_r1c2 t) in
  mkRotation3D wx wy wz.

(** src/tools/altransformhelpers.cpp:666-675 *)
Definition rotation3DFromRotation (r : Rotation T) : Rotation3D T :=
  let wz := s_atan2 (m_r2c1 r) (m_r1c1 r) in
  let sy := s_sin wz in
  let cy := s_cos wz in
  let wy := s_atan2 (- m_r3c1 r) (cy * m_r1c1 r + sy * m_r2c1 r) in
  let wx := s_atan2 (sy * m_r1c3 r - cy * m_r2c3 r) (cy * m_r2c2 r - sy * m_r1c2 r) in
  mkRotation3D wx wy wz.

(** The default epsilon of isUnitVector, almath/types/alposition3d.h:302. *)
Definition unit_eps : T := ##1//10000.

(** assert(cond) in a build with assertions; execution continues in a release
    build, which is the case where [cond] holds. *)
Definition assert_ {A} (c : bool) (k : res A) : res A := if c then k else Abort.

(** src/tools/altransformhelpers.cpp:710-732 *)
Definition rotationFromAxesXYZ (x y z : Position3D T) : res (Rotation T) :=
  assert_ (p3_isUnitVector x unit_eps) (
  assert_ (p3_isUnitVector y unit_eps) (
  assert_ (p3_isUnitVector z unit_eps) (
  assert_ (p3_isOrthogonal x y (##1//1000)) (
  assert_ (p3_isOrthogonal x z (##1//1000)) (
  assert_ (p3_isOrthogonal y z (##1//1000)) (
  Ok (mkRotation (p3_x x) (p3_x y) (p3_x z)
                 (p3_y x) (p3_y y) (p3_y z)
                 (p3_z x) (p3_z y) (p3_z z)))))))).

(** src/tools/altransformhelpers.cpp:677-686 *)
Definition rotationFromAxesXY (x y : Position3D T) : res (Rotation T) :=
  assert_ (p3_isUnitVector x unit_eps) (
  assert_ (p3_isUnitVector y unit_eps) (
  assert_ (p3_isOrthogonal x y (##1//1000)) (
  rotationFromAxesXYZ x y (p3_crossProduct x y)))).

(** src/tools/altransformhelpers.cpp:688-697 *)
Definition rotationFromAxesXZ (x z : Position3D T) : res (Rotation T) :=
  assert_ (p3_isUnitVector x unit_eps) (
  assert_ (p3_isUnitVector z unit_eps) (
  assert_ (p3_isOrthogonal x z (##1//1000)) (
  rotationFromAxesXYZ x (p3_crossProduct z x) z))).

(** src/tools/altransformhelpers.cpp:699-708 *)
Definition rotationFromAxesYZ (y z : Position3D T) : res (Rotation T) :=
  assert_ (p3_isUnitVector y unit_eps) (
  assert_ (p3_isUnitVector z unit_eps) (
  assert_ (p3_isOrthogonal y z (##1//1000)) (
  rotationFromAxesXYZ (p3_crossProduct y z) y z))).

(** src/tools/altransformhelpers.cpp:733-742 *)
Definition t_mul_p2 (t : Transform T) (p : Position2D T) : Position3D T :=
  mkPosition3D ((t_r1c1 t * p2_x p) + (t_r1c2 t * p2_y p) + t_r1c4 t)
               ((t_r2c1 t * p2_x p) + (t_r2c2 t * p2_y p) + t_r2c4 t)
               ((t_r3c1 t * p2_x p) + (t_r3c2 t * p2_y p) + t_r3c4 t).

(** src/tools/altransformhelpers.cpp:745-754 *)
Definition t_mul_p3 (t : Transform T) (p : Position3D T) : Position3D T :=
  mkPosition3D ((t_r1c1 t * p3_x p) + (t_r1c2 t * p3_y p) + (t_r1c3 t * p3_z p) + t_r1c4 t)
               ((t_r2c1 t * p3_x p) + (t_r2c2 t * p3_y p) + (t_r2c3 t * p3_z p) + t_r2c4 t)
               ((t_r3c1 t * p3_x p) + (t_r3c2 t * p3_y p) + (t_r3c3 t * p3_z p) + t_r3c4 t).

(** src/tools/altransformhelpers.cpp:808-821 *)
Definition axisProj_a (x y z : T) (r : Rotation T) : T :=
  x*((m_r2c3 r) - z*(x*(m_r2c1 r) + y*(m_r2c2 r) + z*(m_r2c3 r))) + y*((m_r3c1 r) - x*(x*(m_r3c1 r) + y*(m_r3c2 r) + z*(m_r3c2 r))) + z*((m_r1c2 r) - y*(x*(m_r1c1 r) + y*(m_r1c2 r) + z*(m_r1c3 r))).
Definition axisProj_b (x y z : T) (r : Rotation T) : T :=
  x*(-(m_r3c1 r)*z + (m_r3c3 r)*x) + y*( (m_r1c1 r)*y - (m_r1c2 r)*x) + z*( (m_r2c2 r)*z - (m_r2c3 r)*y).
Definition axisProj_c (x y z : T) (r : Rotation T) : T :=
  x*(z*x*(m_r2c1 r) + z*y*(m_r2c2 r) + z*z*(m_r2c3 r)) + y*(x*x*(m_r3c1 r) + x*y*(m_r3c2 r) + x*z*(m_r3c3 r)) + z*(y*x*(m_r1c1 r) + y*y*(m_r1c2 r) + y*z*(m_r1c3 r)).

(** src/tools/altransformhelpers.cpp:841-859: [trace_1] and [trace_2] are the same
    expression of [cos_i], [sin_i]. *)
Definition axisProj_trace (x y z oneMinusCos sinA : T) (r : Rotation T) : T :=
  let x_2 := s_pow2 x in let y_2 := s_pow2 y in let z_2 := s_pow2 z in
  (m_r1c1 r)*( oneMinusCos*( - z_2 - y_2 ) + #1 ) + (m_r2c2 r)*( oneMinusCos*( - z_2 - x_2 ) + #1 ) + (m_r3c2 r)*( oneMinusCos*y*z + sinA*x ) + (m_r2c3 r)*( oneMinusCos*y*z - sinA*x ) + (m_r1c3 r)*( oneMinusCos*x*z + sinA*y ) + (m_r3c1 r)*( oneMinusCos*x*z - sinA*y ) + (m_r2c1 r)*( sinA*z + oneMinusCos*x*y ) + (m_r1c2 r)*( oneMinusCos*x*y - sinA*z ) + (m_r3c3 r)*( oneMinusCos*( - y_2 - x_2 ) + #1 ).

(** src/tools/altransformhelpers.cpp:863-871, 876-884 *)
Definition axisProj_matrix (x y z oneMinusCos sinA : T) : Rotation T :=
  let x_2 := s_pow2 x in let y_2 := s_pow2 y in let z_2 := s_pow2 z in
  mkRotation
    (oneMinusCos*( - z_2 - y_2 ) + #1)
    (oneMinusCos*x*y - sinA*z)
    (oneMinusCos*x*z + sinA*y)
    (sinA*z + oneMinusCos*x*y)
    (oneMinusCos*( - z_2 - x_2 ) + #1)
    (oneMinusCos*y*z - sinA*x)
    (oneMinusCos*x*z - sinA*y)
    (oneMinusCos*y*z + sinA*x)
    (oneMinusCos*( - y_2 - x_2 ) + #1).

(** src/tools/altransformhelpers.cpp:787-887 *)
Definition axisRotationProjectionInPlace (axis : Position3D T) (r : Rotation T) : res (Rotation T) :=
  let inw := p3_norm axis in
  if inw =? #0 then Throw
  else
    let inw := #1 / inw in
    let x := inw * p3_x axis in
    let y := inw * p3_y axis in
    let z := inw * p3_z axis in
    let a := axisProj_a x y z r in
    let b := axisProj_b x y z r in
    let c := axisProj_c x y z r in
    let d2 := a * a + b * b - c * c in
    if d2 <? #0 then Throw
    else
      let alpha := s_atan2 b a in
      let beta := s_acos (c / s_sqrt (a * a + b * b)) in
      let cos_1 := #1 - s_cos (alpha + beta) in
      let cos_2 := #1 - s_cos (alpha - beta) in
      let sin_1 := s_sin (alpha + beta) in
      let sin_2 := s_sin (alpha - beta) in
      let trace_1 := axisProj_trace x y z cos_1 sin_1 r in
      let trace_2 := axisProj_trace x y z cos_2 sin_2 r in
      if trace_1 <? trace_2 then Ok (axisProj_matrix x y z cos_2 sin_2)
      else Ok (axisProj_matrix x y z cos_1 sin_1).

(** src/tools/altransformhelpers.cpp:777-784 *)
Definition axisRotationProjection (axis : Position3D T) (r : Rotation T) : res (Rotation T) :=
  axisRotationProjectionInPlace axis r.

(** src/tools/altransformhelpers.cpp:757-774 *)
Definition axisRotationProjectionT (axis : Position3D T) (t : Transform T) : res (Transform T) :=
  rmap (fun r => transformFromRotationInPlace r t)
       (axisRotationProjectionInPlace axis (rotationFromTransform t)).

(** src/tools/altransformhelpers.cpp:890-991: the same statements on a Transform,
    whose last column is not written. *)
Definition axisRotationProjectionTInPlace (axis : Position3D T) (t : Transform T) : res (Transform T) :=
  rmap (fun r => transformFromRotationInPlace r t)
       (axisRotationProjectionInPlace axis (rotationFromTransform t)).

(** src/tools/altransformhelpers.cpp:995-1048; the masks are those of
    almath/types/alaxismask.h. *)
Definition transformFromRotVec (axis : Z) (theta : T) (p : Position3D T) : Transform T :=
  let t := t_id in
  let c := s_cos theta in
  let s := s_sin theta in
  let t := set_t_r1c4 (p3_x p) t in
  let t := set_t_r2c4 (p3_y p) t in
  let t := set_t_r3c4 (p3_z p) t in
  if Z.eqb axis 1 then set_t_r3c3 c (set_t_r3c2 s (set_t_r2c3 (- s) (set_t_r2c2 c t)))
  else if Z.eqb axis 2 then set_t_r3c3 c (set_t_r3c1 (- s) (set_t_r1c3 s (set_t_r1c1 c t)))
  else if Z.eqb axis 4 then set_t_r2c2 c (set_t_r2c1 s (set_t_r1c2 (- s) (set_t_r1c1 c t)))
  else t.

(** src/tools/altransformhelpers.cpp:1051-1068 *)
Definition transformFromRotVecP (p : Position3D T) : Transform T := transformFromRotVec 8 #0 p.

(** src/tools/altransformhelpers.cpp:1071-1082 *)
Definition transformFromRotVecA (axis : Z) (rot : T) : Transform T :=
  transformFromRotVec axis rot p3_default.

(** src/tools/altransformhelpers.cpp:1085-1131: [t] is the transform passed by
    reference, whose last column is kept. *)
Definition orthogonalSpaceInto (v : Position3D T) (t : Transform T) : res (Transform T) :=
  rbind (p3_div v (p3_norm v)) (fun axis3 =>
  let coef := ##1//10000 in
  let axis :=
    if s_abs (p3_x axis3) >? coef then mkPosition3D (- p3_y axis3) (p3_x axis3) #0
    else if s_abs (p3_y axis3) >? coef then mkPosition3D #0 (- p3_z axis3) (p3_y axis3)
    else mkPosition3D (p3_z axis3) #0 #0 in
  rbind (p3_normalize axis) (fun axis1 =>
  rbind (p3_normalize (p3_crossProduct axis3 axis1)) (fun axis2 =>
  Ok (mkTransform (p3_x axis1) (p3_x axis2) (p3_x axis3) (t_r1c4 t)
                  (p3_y axis1) (p3_y axis2) (p3_y axis3) (t_r2c4 t)
                  (p3_z axis1) (p3_z axis2) (p3_z axis3) (t_r3c4 t))))).

(** src/tools/altransformhelpers.cpp:1126-1131 *)
Definition orthogonalSpace (v : Position3D T) : res (Transform T) := orthogonalSpaceInto v t_id.

(** src/tools/altransformhelpers.cpp:1133-1151 *)
Definition transformFromQuaternion (q : Quaternion T) : Transform T :=
  mkTransform
    (s_wide (WSub (WVal #1) (WMul (WVal #2) (WAdd (WPow2 (q_y q)) (WPow2 (q_z q)))))) (#2*((q_x q)*(q_y q) - (q_z q)*(q_w q)))
    (#2*((q_x q)*(q_z q) + (q_y q)*(q_w q))) #0
    (#2*((q_x q)*(q_y q) + (q_z q)*(q_w q))) (s_wide (WSub (WVal #1) (WMul (WVal #2) (WAdd (WPow2 (q_x q)) (WPow2 (q_z q))))))
    (#2*((q_y q)*(q_z q) - (q_x q)*(q_w q))) #0
    (#2*((q_x q)*(q_z q) - (q_y q)*(q_w q))) (#2*((q_y q)*(q_z q) + (q_x q)*(q_w q)))
    (s_wide (WSub (WVal #1) (WMul (WVal #2) (WAdd (WPow2 (q_x q)) (WPow2 (q_y q)))))) #0.

(** src/tools/altransformhelpers.cpp:1154-1228 *)
Definition quaternionFromTransform (t : Transform T) : Quaternion T :=
  let kx := t_r3c2 t - t_r2c3 t in
  let ky := t_r1c3 t - t_r3c1 t in
  let kz := t_r2c1 t - t_r1c2 t in
  let '(kx1, ky1, kz1, add) :=
    if (t_r1c1 t >=? t_r2c2 t) && (t_r1c1 t >=? t_r3c3 t) then
      (t_r1c1 t - t_r2c2 t - t_r3c3 t + #1, t_r2c1 t + t_r1c2 t, t_r3c1 t + t_r1c3 t, kx >=? #0)
    else if t_r2c2 t >=? t_r3c3 t then
      (t_r2c1 t + t_r1c2 t, t_r2c2 t - t_r1c1 t - t_r3c3 t + #1, t_r3c2 t + t_r2c3 t, ky >=? #0)
    else
      (t_r3c1 t + t_r1c3 t, t_r3c2 t + t_r2c3 t, t_r3c3 t - t_r1c1 t - t_r2c2 t + #1, kz >=? #0) in
  let '(kx, ky, kz) :=
    if add : bool then (kx + kx1, ky + ky1, kz + kz1) else (kx - kx1, ky - ky1, kz - kz1) in
  let nm := s_wide (WSqrt (WAdd (WAdd (WPow2 kx) (WPow2 ky)) (WPow2 kz))) in
  if nm =? #0 then q_id
  else
    let trace := t_r1c1 t + t_r2c2 t + t_r3c3 t + #1 in
    let trace := if trace <? #0 then #0 else trace in
    let qs := ##1//2 * s_sqrt trace in
    let s := s_wide (WDiv (WSqrt (WSub (WVal #1) (WPow2 qs))) (WVal nm)) in
    mkQuaternion qs (s * kx) (s * ky) (s * kz).

(** src/tools/altransformhelpers.cpp:1231-1238 *)
Definition transformFromDisplacement (d : Displacement T) : Transform T :=
  set_t_r3c4 (p3_z (d_P d)) (set_t_r2c4 (p3_y (d_P d)) (set_t_r1c4 (p3_x (d_P d))
    (transformFromQuaternion (d_Q d)))).

(** src/tools/altransformhelpers.cpp:1240-1245 *)
Definition displacementFromTransform (t : Transform T) : Displacement T :=
  mkDisplacement (position3DFromTransform t) (quaternionFromTransform t).

End Model.
