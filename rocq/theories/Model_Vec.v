(** * Vector-like value types

    Position2D, Position3D, Position6D, Velocity3D, Velocity6D, Rotation3D and
    Pose2D: constructors, operators and norms. Sources:
    /repo/almath/types/al<type>.h and /repo/src/types/al<type>.cpp. *)

From Coq Require Import List Bool ZArith.
Import ListNotations.
From Verif Require Import Scalar Model_Base.

Set Implicit Arguments.

(** Fields of Position2D (almath/types/alposition2d.h:27). *)
Record Position2D (T : Type) := mkPosition2D { p2_x : T; p2_y : T }.
Arguments p2_x {T} _.
Arguments p2_y {T} _.
Arguments mkPosition2D {T}.

(** Fields of Position3D (almath/types/alposition3d.h:26). *)
Record Position3D (T : Type) := mkPosition3D { p3_x : T; p3_y : T; p3_z : T }.
Arguments p3_x {T} _.
Arguments p3_y {T} _.
Arguments p3_z {T} _.
Arguments mkPosition3D {T}.

(** Fields of Position6D (almath/types/alposition6d.h:26). *)
Record Position6D (T : Type) := mkPosition6D { p6_x : T; p6_y : T; p6_z : T; p6_wx : T; p6_wy : T; p6_wz : T }.
Arguments p6_x {T} _.
Arguments p6_y {T} _.
Arguments p6_z {T} _.
Arguments p6_wx {T} _.
Arguments p6_wy {T} _.
Arguments p6_wz {T} _.
Arguments mkPosition6D {T}.

(** Fields of Velocity3D (almath/types/alvelocity3d.h:26). *)
Record Velocity3D (T : Type) := mkVelocity3D { v3_xd : T; v3_yd : T; v3_zd : T }.
Arguments v3_xd {T} _.
Arguments v3_yd {T} _.
Arguments v3_zd {T} _.
Arguments mkVelocity3D {T}.

(** Fields of Velocity6D (almath/types/alvelocity6d.h:27). *)
Record Velocity6D (T : Type) := mkVelocity6D { v6_xd : T; v6_yd : T; v6_zd : T; v6_wxd : T; v6_wyd : T; v6_wzd : T }.
Arguments v6_xd {T} _.
Arguments v6_yd {T} _.
Arguments v6_zd {T} _.
Arguments v6_wxd {T} _.
Arguments v6_wyd {T} _.
Arguments v6_wzd {T} _.
Arguments mkVelocity6D {T}.

(** Fields of Rotation3D (almath/types/alrotation3d.h:24). *)
Record Rotation3D (T : Type) := mkRotation3D { e3_wx : T; e3_wy : T; e3_wz : T }.
Arguments e3_wx {T} _.
Arguments e3_wy {T} _.
Arguments e3_wz {T} _.
Arguments mkRotation3D {T}.

(** Fields of Pose2D (almath/types/alpose2d.h:28). *)
Record Pose2D (T : Type) := mkPose2D { pose_x : T; pose_y : T; pose_theta : T }.
Arguments pose_x {T} _.
Arguments pose_y {T} _.
Arguments pose_theta {T} _.
Arguments mkPose2D {T}.

Section Model.
Context {T : Type} {S : Scalar T}.
Local Open Scope sc_scope.

(** ** Position2D *)

(** src/types/alposition2d.cpp:15-15 *)
Definition p2_default : Position2D T := mkPosition2D (#0) (#0).

(** src/types/alposition2d.cpp:17-17 *)
Definition p2_fill (v : T) : Position2D T := mkPosition2D (v) (v).

(** src/types/alposition2d.cpp:21-38 *)
(* the warning on std::cerr is not modelled *)
Definition p2_ofVector (v : list T) : Position2D T :=
  match v with
  | [v0; v1] => mkPosition2D v0 v1
  | _ => mkPosition2D #0 #0
  end.

(** The components in declaration order. *)
Definition p2_list (a : Position2D T) : list T := [p2_x a; p2_y a].

(** src/types/alposition2d.cpp:141-146 *)
Definition p2_toVectorInto (a : Position2D T) (out : list T) : res (list T) :=
  vset_from (vresize #0 2 out) 0 (p2_list a).

(** src/types/alposition2d.cpp:148-153 *)
Definition p2_toVector (a : Position2D T) : res (list T) :=
  p2_toVectorInto a (repeat #0 2).

(** src/types/alposition2d.cpp:155-159 *)
Definition p2_writeToVector (a : Position2D T) (v : list T) (it : nat) : res (list T * nat) :=
  vwrite v it (p2_list a).

(** almath/types/alposition2d.h:116-119 *)
Definition p2_add (a b : Position2D T) : Position2D T :=
  mkPosition2D (p2_x a + p2_x b) (p2_y a + p2_y b).

(** almath/types/alposition2d.h:125-128 *)
Definition p2_sub (a b : Position2D T) : Position2D T :=
  mkPosition2D (p2_x a - p2_x b) (p2_y a - p2_y b).

(** almath/types/alposition2d.h:141-144 *)
Definition p2_neg (a : Position2D T) : Position2D T :=
  mkPosition2D (- p2_x a) (- p2_y a).

(** src/types/alposition2d.cpp:40-45 *)
(* statement by statement, [this] at address [o], the argument at [q] *)
Definition p2_addIn (m : mem (Position2D T)) (o q : nat) : mem (Position2D T) :=
  do m := mupd m o (mkPosition2D (p2_x (m o) + p2_x (m q)) (p2_y (m o))) in
  do m := mupd m o (mkPosition2D (p2_x (m o)) (p2_y (m o) + p2_y (m q))) in
  m.

(** src/types/alposition2d.cpp:47-52 *)
(* statement by statement, [this] at address [o], the argument at [q] *)
Definition p2_subIn (m : mem (Position2D T)) (o q : nat) : mem (Position2D T) :=
  do m := mupd m o (mkPosition2D (p2_x (m o) - p2_x (m q)) (p2_y (m o))) in
  do m := mupd m o (mkPosition2D (p2_x (m o)) (p2_y (m o) - p2_y (m q))) in
  m.

(** almath/types/alposition2d.h:180-183 *)
Definition p2_scale (a : Position2D T) (v : T) : Position2D T :=
  mkPosition2D (p2_x a * v) (p2_y a * v).

(** src/types/alposition2d.cpp:69-74 *)
Definition p2_lscale (v : T) (a : Position2D T) : Position2D T := p2_scale a v.

(** src/types/alposition2d.cpp:76-84 *)
Definition p2_div (a : Position2D T) (v : T) : res (Position2D T) :=
  if v =? #0 then Throw else Ok (p2_scale a (#1 / v)).

(** src/types/alposition2d.cpp:86-91 *)
(* result left in [*this] *)
Definition p2_scaleIn (a : Position2D T) (v : T) : Position2D T :=
  mkPosition2D (p2_x a * v) (p2_y a * v).

(** src/types/alposition2d.cpp:93-102 *)
(* outcome, and what [*this] holds afterwards *)
Definition p2_divIn (a : Position2D T) (v : T) : res unit * Position2D T :=
  if v =? #0 then (Throw, a) else (Ok tt, p2_scaleIn a (#1 / v)).

(** src/types/alposition2d.cpp:135-139 *)
Definition p2_eqb (a b : Position2D T) : bool :=
  (p2_x a =? p2_x b) && (p2_y a =? p2_y b).

(** src/types/alposition2d.cpp:55-58 *)
Definition p2_neqb (a b : Position2D T) : bool := negb (p2_eqb a b).

(** src/types/alposition2d.cpp:61-67 *)
Definition p2_isNear (a b : Position2D T) (eps : T) : bool :=
  (s_abs (p2_x a - p2_x b) <=? eps)
  && (s_abs (p2_y a - p2_y b) <=? eps).

(** src/types/alposition2d.cpp:180-183 *)
Definition p2_norm (a : Position2D T) : T :=
  s_sqrt (p2_x a * p2_x a + p2_y a * p2_y a).

(** src/types/alposition2d.cpp:185-194 *)
Definition p2_normalize (a : Position2D T) : res (Position2D T) :=
  let tmpNorm := p2_norm a in
  if tmpNorm =? #0 then Throw else p2_div a tmpNorm.

(** src/types/alposition2d.cpp:166-171 *)
Definition p2_distanceSquared (a b : Position2D T) : T :=
  (p2_x a - p2_x b) * (p2_x a - p2_x b) + (p2_y a - p2_y b) * (p2_y a - p2_y b).

(** src/types/alposition2d.cpp:173-178 *)
Definition p2_distance (a b : Position2D T) : T := s_sqrt (p2_distanceSquared a b).

(** src/types/alposition2d.cpp:196-201 *)
Definition p2_dotProduct (a b : Position2D T) : T :=
  p2_x a * p2_x b + p2_y a * p2_y b.

(** src/types/alposition2d.cpp:204-218 (both overloads) *)
Definition p2_crossProduct (a b : Position2D T) : T :=
  p2_x a * p2_y b - p2_y a * p2_x b.

(** src/types/alposition2d.cpp:161-164 *)
Definition p2_getAngle (a : Position2D T) : T := s_atan2 (p2_y a) (p2_x a).

(** src/types/alposition2d.cpp:220-226 *)
Definition p2_fromPolar (r t : T) : Position2D T := mkPosition2D (r * s_cos t) (r * s_sin t).

(** ** Position3D *)

(** src/types/alposition3d.cpp:15-15 *)
Definition p3_default : Position3D T := mkPosition3D (#0) (#0) (#0).

(** src/types/alposition3d.cpp:17-17 *)
Definition p3_fill (v : T) : Position3D T := mkPosition3D (v) (v) (v).

(** src/types/alposition3d.cpp:25-44 *)
(* the warning on std::cerr is not modelled *)
Definition p3_ofVector (v : list T) : Position3D T :=
  match v with
  | [v0; v1; v2] => mkPosition3D v0 v1 v2
  | _ => mkPosition3D #0 #0 #0
  end.

(** The components in declaration order. *)
Definition p3_list (a : Position3D T) : list T := [p3_x a; p3_y a; p3_z a].

(** src/types/alposition3d.cpp:148-154 *)
Definition p3_toVectorInto (a : Position3D T) (out : list T) : res (list T) :=
  vset_from (vresize #0 3 out) 0 (p3_list a).

(** src/types/alposition3d.cpp:156-161 *)
Definition p3_toVector (a : Position3D T) : res (list T) :=
  p3_toVectorInto a (repeat #0 3).

(** src/types/alposition3d.cpp:163-168 *)
Definition p3_writeToVector (a : Position3D T) (v : list T) (it : nat) : res (list T * nat) :=
  vwrite v it (p3_list a).

(** almath/types/alposition3d.h:120-123 *)
Definition p3_add (a b : Position3D T) : Position3D T :=
  mkPosition3D (p3_x a + p3_x b) (p3_y a + p3_y b) (p3_z a + p3_z b).

(** almath/types/alposition3d.h:129-132 *)
Definition p3_sub (a b : Position3D T) : Position3D T :=
  mkPosition3D (p3_x a - p3_x b) (p3_y a - p3_y b) (p3_z a - p3_z b).

(** almath/types/alposition3d.h:145-148 *)
Definition p3_neg (a : Position3D T) : Position3D T :=
  mkPosition3D (- p3_x a) (- p3_y a) (- p3_z a).

(** src/types/alposition3d.cpp:46-52 *)
(* statement by statement, [this] at address [o], the argument at [q] *)
Definition p3_addIn (m : mem (Position3D T)) (o q : nat) : mem (Position3D T) :=
  do m := mupd m o (mkPosition3D (p3_x (m o) + p3_x (m q)) (p3_y (m o)) (p3_z (m o))) in
  do m := mupd m o (mkPosition3D (p3_x (m o)) (p3_y (m o) + p3_y (m q)) (p3_z (m o))) in
  do m := mupd m o (mkPosition3D (p3_x (m o)) (p3_y (m o)) (p3_z (m o) + p3_z (m q))) in
  m.

(** src/types/alposition3d.cpp:54-60 *)
(* statement by statement, [this] at address [o], the argument at [q] *)
Definition p3_subIn (m : mem (Position3D T)) (o q : nat) : mem (Position3D T) :=
  do m := mupd m o (mkPosition3D (p3_x (m o) - p3_x (m q)) (p3_y (m o)) (p3_z (m o))) in
  do m := mupd m o (mkPosition3D (p3_x (m o)) (p3_y (m o) - p3_y (m q)) (p3_z (m o))) in
  do m := mupd m o (mkPosition3D (p3_x (m o)) (p3_y (m o)) (p3_z (m o) - p3_z (m q))) in
  m.

(** src/types/alposition3d.cpp:72-75 *)
Definition p3_scale (a : Position3D T) (v : T) : Position3D T :=
  mkPosition3D (p3_x a * v) (p3_y a * v) (p3_z a * v).

(** src/types/alposition3d.cpp:77-85 *)
Definition p3_div (a : Position3D T) (v : T) : res (Position3D T) :=
  if v =? #0 then Throw else Ok (p3_scale a (#1 / v)).

(** src/types/alposition3d.cpp:87-93 *)
(* result left in [*this] *)
Definition p3_scaleIn (a : Position3D T) (v : T) : Position3D T :=
  mkPosition3D (p3_x a * v) (p3_y a * v) (p3_z a * v).

(** src/types/alposition3d.cpp:95-104 *)
(* outcome, and what [*this] holds afterwards *)
Definition p3_divIn (a : Position3D T) (v : T) : res unit * Position3D T :=
  if v =? #0 then (Throw, a) else (Ok tt, p3_scaleIn a (#1 / v)).

(** src/types/alposition3d.cpp:106-111 *)
Definition p3_eqb (a b : Position3D T) : bool :=
  (p3_x a =? p3_x b) && (p3_y a =? p3_y b) && (p3_z a =? p3_z b).

(** src/types/alposition3d.cpp:113-116 *)
Definition p3_neqb (a b : Position3D T) : bool := negb (p3_eqb a b).

(** src/types/alposition3d.cpp:63-70 *)
Definition p3_isNear (a b : Position3D T) (eps : T) : bool :=
  (s_abs (p3_x a - p3_x b) <=? eps)
  && (s_abs (p3_y a - p3_y b) <=? eps)
  && (s_abs (p3_z a - p3_z b) <=? eps).

(** src/types/alposition3d.cpp:197-200 *)
Definition p3_norm (a : Position3D T) : T :=
  s_sqrt (p3_x a * p3_x a + p3_y a * p3_y a + p3_z a * p3_z a).

(** src/types/alposition3d.cpp:202-212 *)
Definition p3_normalize (a : Position3D T) : res (Position3D T) :=
  let tmpNorm := p3_norm a in
  if tmpNorm =? #0 then Throw else p3_div a tmpNorm.

(** src/types/alposition3d.cpp:180-187 *)
Definition p3_distanceSquared (a b : Position3D T) : T :=
  (p3_x a - p3_x b) * (p3_x a - p3_x b) + (p3_y a - p3_y b) * (p3_y a - p3_y b) + (p3_z a - p3_z b) * (p3_z a - p3_z b).

(** src/types/alposition3d.cpp:190-195 *)
Definition p3_distance (a b : Position3D T) : T := s_sqrt (p3_distanceSquared a b).

(** src/types/alposition3d.cpp:214-219 *)
Definition p3_dotProduct (a b : Position3D T) : T :=
  p3_x a * p3_x b + p3_y a * p3_y b + p3_z a * p3_z b.

(** src/types/alposition3d.cpp:231-238: the value-returning overload. *)
Definition p3_crossProduct (a b : Position3D T) : Position3D T :=
  mkPosition3D (p3_y a * p3_z b - p3_z a * p3_y b)
               (p3_z a * p3_x b - p3_x a * p3_z b)
               (p3_x a * p3_y b - p3_y a * p3_x b).

(** src/types/alposition3d.cpp:221-229: the overload writing through [pRes],
    statement by statement; [a], [b], [o] are addresses. *)
Definition p3_crossProductOut (m : mem (Position3D T)) (a b o : nat) : mem (Position3D T) :=
  do m := mupd m o (mkPosition3D (p3_y (m a) * p3_z (m b) - p3_z (m a) * p3_y (m b)) (p3_y (m o)) (p3_z (m o))) in
  do m := mupd m o (mkPosition3D (p3_x (m o)) (p3_z (m a) * p3_x (m b) - p3_x (m a) * p3_z (m b)) (p3_z (m o))) in
  do m := mupd m o (mkPosition3D (p3_x (m o)) (p3_y (m o)) (p3_x (m a) * p3_y (m b) - p3_y (m a) * p3_x (m b))) in
  m.

(** src/types/alposition3d.cpp:240-244 *)
Definition p3_isUnitVector (a : Position3D T) (eps : T) : bool :=
  s_abs (#1 - p3_norm a) <=? eps.

(** src/types/alposition3d.cpp:246-251 *)
Definition p3_isOrthogonal (a b : Position3D T) (eps : T) : bool :=
  s_abs (p3_dotProduct a b) <=? eps.

(** ** Position6D *)

(** src/types/alposition6d.cpp:15-21 *)
Definition p6_default : Position6D T := mkPosition6D (#0) (#0) (#0) (#0) (#0) (#0).

(** src/types/alposition6d.cpp:23-29 *)
Definition p6_fill (v : T) : Position6D T := mkPosition6D (v) (v) (v) (v) (v) (v).

(** src/types/alposition6d.cpp:45-72 *)
(* the warning on std::cerr is not modelled *)
Definition p6_ofVector (v : list T) : Position6D T :=
  match v with
  | [v0; v1; v2; v3; v4; v5] => mkPosition6D v0 v1 v2 v3 v4 v5
  | _ => mkPosition6D #0 #0 #0 #0 #0 #0
  end.

(** The components in declaration order. *)
Definition p6_list (a : Position6D T) : list T := [p6_x a; p6_y a; p6_z a; p6_wx a; p6_wy a; p6_wz a].

(** src/types/alposition6d.cpp:172-181 *)
Definition p6_toVectorInto (a : Position6D T) (out : list T) : res (list T) :=
  vset_from (vresize #0 6 out) 0 (p6_list a).

(** src/types/alposition6d.cpp:183-188 *)
Definition p6_toVector (a : Position6D T) : res (list T) :=
  p6_toVectorInto a (repeat #0 6).

(** src/types/alposition6d.cpp:190-198 *)
Definition p6_writeToVector (a : Position6D T) (v : list T) (it : nat) : res (list T * nat) :=
  vwrite v it (p6_list a).

(** almath/types/alposition6d.h:156-165 *)
Definition p6_add (a b : Position6D T) : Position6D T :=
  mkPosition6D (p6_x a + p6_x b) (p6_y a + p6_y b) (p6_z a + p6_z b) (p6_wx a + p6_wx b) (p6_wy a + p6_wy b) (p6_wz a + p6_wz b).

(** almath/types/alposition6d.h:171-180 *)
Definition p6_sub (a b : Position6D T) : Position6D T :=
  mkPosition6D (p6_x a - p6_x b) (p6_y a - p6_y b) (p6_z a - p6_z b) (p6_wx a - p6_wx b) (p6_wy a - p6_wy b) (p6_wz a - p6_wz b).

(** almath/types/alposition6d.h:193-196 *)
Definition p6_neg (a : Position6D T) : Position6D T :=
  mkPosition6D (- p6_x a) (- p6_y a) (- p6_z a) (- p6_wx a) (- p6_wy a) (- p6_wz a).

(** src/types/alposition6d.cpp:74-83 *)
(* statement by statement, [this] at address [o], the argument at [q] *)
Definition p6_addIn (m : mem (Position6D T)) (o q : nat) : mem (Position6D T) :=
  do m := mupd m o (mkPosition6D (p6_x (m o) + p6_x (m q)) (p6_y (m o)) (p6_z (m o)) (p6_wx (m o)) (p6_wy (m o)) (p6_wz (m o))) in
  do m := mupd m o (mkPosition6D (p6_x (m o)) (p6_y (m o) + p6_y (m q)) (p6_z (m o)) (p6_wx (m o)) (p6_wy (m o)) (p6_wz (m o))) in
  do m := mupd m o (mkPosition6D (p6_x (m o)) (p6_y (m o)) (p6_z (m o) + p6_z (m q)) (p6_wx (m o)) (p6_wy (m o)) (p6_wz (m o))) in
  do m := mupd m o (mkPosition6D (p6_x (m o)) (p6_y (m o)) (p6_z (m o)) (p6_wx (m o) + p6_wx (m q)) (p6_wy (m o)) (p6_wz (m o))) in
  do m := mupd m o (mkPosition6D (p6_x (m o)) (p6_y (m o)) (p6_z (m o)) (p6_wx (m o)) (p6_wy (m o) + p6_wy (m q)) (p6_wz (m o))) in
  do m := mupd m o (mkPosition6D (p6_x (m o)) (p6_y (m o)) (p6_z (m o)) (p6_wx (m o)) (p6_wy (m o)) (p6_wz (m o) + p6_wz (m q))) in
  m.

(** src/types/alposition6d.cpp:86-95 *)
(* statement by statement, [this] at address [o], the argument at [q] *)
Definition p6_subIn (m : mem (Position6D T)) (o q : nat) : mem (Position6D T) :=
  do m := mupd m o (mkPosition6D (p6_x (m o) - p6_x (m q)) (p6_y (m o)) (p6_z (m o)) (p6_wx (m o)) (p6_wy (m o)) (p6_wz (m o))) in
  do m := mupd m o (mkPosition6D (p6_x (m o)) (p6_y (m o) - p6_y (m q)) (p6_z (m o)) (p6_wx (m o)) (p6_wy (m o)) (p6_wz (m o))) in
  do m := mupd m o (mkPosition6D (p6_x (m o)) (p6_y (m o)) (p6_z (m o) - p6_z (m q)) (p6_wx (m o)) (p6_wy (m o)) (p6_wz (m o))) in
  do m := mupd m o (mkPosition6D (p6_x (m o)) (p6_y (m o)) (p6_z (m o)) (p6_wx (m o) - p6_wx (m q)) (p6_wy (m o)) (p6_wz (m o))) in
  do m := mupd m o (mkPosition6D (p6_x (m o)) (p6_y (m o)) (p6_z (m o)) (p6_wx (m o)) (p6_wy (m o) - p6_wy (m q)) (p6_wz (m o))) in
  do m := mupd m o (mkPosition6D (p6_x (m o)) (p6_y (m o)) (p6_z (m o)) (p6_wx (m o)) (p6_wy (m o)) (p6_wz (m o) - p6_wz (m q))) in
  m.

(** almath/types/alposition6d.h:226-235 *)
Definition p6_scale (a : Position6D T) (v : T) : Position6D T :=
  mkPosition6D (p6_x a * v) (p6_y a * v) (p6_z a * v) (p6_wx a * v) (p6_wy a * v) (p6_wz a * v).

(** src/types/alposition6d.cpp:110-118 *)
Definition p6_div (a : Position6D T) (v : T) : res (Position6D T) :=
  if v =? #0 then Throw else Ok (p6_scale a (#1 / v)).

(** src/types/alposition6d.cpp:135-144 *)
(* result left in [*this] *)
Definition p6_scaleIn (a : Position6D T) (v : T) : Position6D T :=
  mkPosition6D (p6_x a * v) (p6_y a * v) (p6_z a * v) (p6_wx a * v) (p6_wy a * v) (p6_wz a * v).

(** src/types/alposition6d.cpp:146-155 *)
(* outcome, and what [*this] holds afterwards *)
Definition p6_divIn (a : Position6D T) (v : T) : res unit * Position6D T :=
  if v =? #0 then (Throw, a) else (Ok tt, p6_scaleIn a (#1 / v)).

(** src/types/alposition6d.cpp:120-128 *)
Definition p6_eqb (a b : Position6D T) : bool :=
  (p6_x a =? p6_x b) && (p6_y a =? p6_y b) && (p6_z a =? p6_z b) && (p6_wx a =? p6_wx b) && (p6_wy a =? p6_wy b) && (p6_wz a =? p6_wz b).

(** src/types/alposition6d.cpp:130-133 *)
Definition p6_neqb (a b : Position6D T) : bool := negb (p6_eqb a b).

(** src/types/alposition6d.cpp:98-108 *)
Definition p6_isNear (a b : Position6D T) (eps : T) : bool :=
  (s_abs (p6_x a - p6_x b) <=? eps)
  && (s_abs (p6_y a - p6_y b) <=? eps)
  && (s_abs (p6_z a - p6_z b) <=? eps)
  && (s_abs (p6_wx a - p6_wx b) <=? eps)
  && (s_abs (p6_wy a - p6_wy b) <=? eps)
  && (s_abs (p6_wz a - p6_wz b) <=? eps).

(** src/types/alposition6d.cpp:216-220 *)
Definition p6_norm (a : Position6D T) : T :=
  s_sqrt (p6_x a * p6_x a + p6_y a * p6_y a + p6_z a * p6_z a + p6_wx a * p6_wx a + p6_wy a * p6_wy a + p6_wz a * p6_wz a).

(** src/types/alposition6d.cpp:222-231 *)
Definition p6_normalize (a : Position6D T) : res (Position6D T) :=
  let tmpNorm := p6_norm a in
  if tmpNorm =? #0 then Throw else p6_div a tmpNorm.

(** src/types/alposition6d.cpp:200-207 *)
Definition p6_distanceSquared (a b : Position6D T) : T :=
  (p6_x a - p6_x b) * (p6_x a - p6_x b) + (p6_y a - p6_y b) * (p6_y a - p6_y b) + (p6_z a - p6_z b) * (p6_z a - p6_z b).

(** src/types/alposition6d.cpp:209-214 *)
Definition p6_distance (a b : Position6D T) : T := s_sqrt (p6_distanceSquared a b).

(** ** Velocity3D *)

(** src/types/alvelocity3d.cpp:15-17 *)
Definition v3_default : Velocity3D T := mkVelocity3D (#0) (#0) (#0).

(** src/types/alvelocity3d.cpp:20-22 *)
Definition v3_fill (v : T) : Velocity3D T := mkVelocity3D (v) (v) (v).

(** src/types/alvelocity3d.cpp:31-50 *)
(* the warning on std::cerr is not modelled *)
Definition v3_ofVector (v : list T) : Velocity3D T :=
  match v with
  | [v0; v1; v2] => mkVelocity3D v0 v1 v2
  | _ => mkVelocity3D #0 #0 #0
  end.

(** The components in declaration order. *)
Definition v3_list (a : Velocity3D T) : list T := [v3_xd a; v3_yd a; v3_zd a].

(** src/types/alvelocity3d.cpp:141-147 *)
Definition v3_toVectorInto (a : Velocity3D T) (out : list T) : res (list T) :=
  vset_from (vresize #0 3 out) 0 (v3_list a).

(** src/types/alvelocity3d.cpp:149-154 *)
Definition v3_toVector (a : Velocity3D T) : res (list T) :=
  v3_toVectorInto a (repeat #0 3).

(** src/types/alvelocity3d.cpp:156-161 *)
Definition v3_writeToVector (a : Velocity3D T) (v : list T) (it : nat) : res (list T * nat) :=
  vwrite v it (v3_list a).

(** almath/types/alvelocity3d.h:120-123 *)
Definition v3_add (a b : Velocity3D T) : Velocity3D T :=
  mkVelocity3D (v3_xd a + v3_xd b) (v3_yd a + v3_yd b) (v3_zd a + v3_zd b).

(** almath/types/alvelocity3d.h:129-135 *)
Definition v3_sub (a b : Velocity3D T) : Velocity3D T :=
  mkVelocity3D (v3_xd a - v3_xd b) (v3_yd a - v3_yd b) (v3_zd a - v3_zd b).

(** almath/types/alvelocity3d.h:148-151 *)
Definition v3_neg (a : Velocity3D T) : Velocity3D T :=
  mkVelocity3D (- v3_xd a) (- v3_yd a) (- v3_zd a).

(** src/types/alvelocity3d.cpp:52-58 *)
(* statement by statement, [this] at address [o], the argument at [q] *)
Definition v3_addIn (m : mem (Velocity3D T)) (o q : nat) : mem (Velocity3D T) :=
  do m := mupd m o (mkVelocity3D (v3_xd (m o) + v3_xd (m q)) (v3_yd (m o)) (v3_zd (m o))) in
  do m := mupd m o (mkVelocity3D (v3_xd (m o)) (v3_yd (m o) + v3_yd (m q)) (v3_zd (m o))) in
  do m := mupd m o (mkVelocity3D (v3_xd (m o)) (v3_yd (m o)) (v3_zd (m o) + v3_zd (m q))) in
  m.

(** src/types/alvelocity3d.cpp:60-66 *)
(* statement by statement, [this] at address [o], the argument at [q] *)
Definition v3_subIn (m : mem (Velocity3D T)) (o q : nat) : mem (Velocity3D T) :=
  do m := mupd m o (mkVelocity3D (v3_xd (m o) - v3_xd (m q)) (v3_yd (m o)) (v3_zd (m o))) in
  do m := mupd m o (mkVelocity3D (v3_xd (m o)) (v3_yd (m o) - v3_yd (m q)) (v3_zd (m o))) in
  do m := mupd m o (mkVelocity3D (v3_xd (m o)) (v3_yd (m o)) (v3_zd (m o) - v3_zd (m q))) in
  m.

(** almath/types/alvelocity3d.h:181-184 *)
Definition v3_scale (a : Velocity3D T) (v : T) : Velocity3D T :=
  mkVelocity3D (v3_xd a * v) (v3_yd a * v) (v3_zd a * v).

(** src/types/alvelocity3d.cpp:78-83 *)
Definition v3_lscale (v : T) (a : Velocity3D T) : Velocity3D T := v3_scale a v.

(** src/types/alvelocity3d.cpp:86-94 *)
Definition v3_div (a : Velocity3D T) (v : T) : res (Velocity3D T) :=
  if v =? #0 then Throw else Ok (v3_scale a (#1 / v)).

(** src/types/alvelocity3d.cpp:111-117 *)
(* result left in [*this] *)
Definition v3_scaleIn (a : Velocity3D T) (v : T) : Velocity3D T :=
  mkVelocity3D (v3_xd a * v) (v3_yd a * v) (v3_zd a * v).

(** src/types/alvelocity3d.cpp:119-128 *)
(* outcome, and what [*this] holds afterwards *)
Definition v3_divIn (a : Velocity3D T) (v : T) : res unit * Velocity3D T :=
  if v =? #0 then (Throw, a) else (Ok tt, v3_scaleIn a (#1 / v)).

(** src/types/alvelocity3d.cpp:97-102 *)
Definition v3_eqb (a b : Velocity3D T) : bool :=
  (v3_xd a =? v3_xd b) && (v3_yd a =? v3_yd b) && (v3_zd a =? v3_zd b).

(** src/types/alvelocity3d.cpp:105-108 *)
Definition v3_neqb (a b : Velocity3D T) : bool := negb (v3_eqb a b).

(** src/types/alvelocity3d.cpp:69-76 *)
Definition v3_isNear (a b : Velocity3D T) (eps : T) : bool :=
  (s_abs (v3_xd a - v3_xd b) <=? eps)
  && (s_abs (v3_yd a - v3_yd b) <=? eps)
  && (s_abs (v3_zd a - v3_zd b) <=? eps).

(** src/types/alvelocity3d.cpp:163-169 *)
Definition v3_norm (a : Velocity3D T) : T :=
  s_sqrt (v3_xd a * v3_xd a + v3_yd a * v3_yd a + v3_zd a * v3_zd a).

(** src/types/alvelocity3d.cpp:172-181 *)
Definition v3_normalize (a : Velocity3D T) : res (Velocity3D T) :=
  let tmpNorm := v3_norm a in
  if tmpNorm =? #0 then Throw else v3_div a tmpNorm.

(** ** Velocity6D *)

(** src/types/alvelocity6d.cpp:15-21 *)
Definition v6_default : Velocity6D T := mkVelocity6D (#0) (#0) (#0) (#0) (#0) (#0).

(** src/types/alvelocity6d.cpp:23-29 *)
Definition v6_fill (v : T) : Velocity6D T := mkVelocity6D (v) (v) (v) (v) (v) (v).

(** src/types/alvelocity6d.cpp:45-70 *)
(* the warning on std::cerr is not modelled *)
Definition v6_ofVector (v : list T) : Velocity6D T :=
  match v with
  | [v0; v1; v2; v3; v4; v5] => mkVelocity6D v0 v1 v2 v3 v4 v5
  | _ => mkVelocity6D #0 #0 #0 #0 #0 #0
  end.

(** The components in declaration order. *)
Definition v6_list (a : Velocity6D T) : list T := [v6_xd a; v6_yd a; v6_zd a; v6_wxd a; v6_wyd a; v6_wzd a].

(** src/types/alvelocity6d.cpp:146-157 *)
Definition v6_toVectorInto (a : Velocity6D T) (out : list T) : res (list T) :=
  vset_from (vresize #0 6 out) 0 (v6_list a).

(** src/types/alvelocity6d.cpp:159-164 *)
Definition v6_toVector (a : Velocity6D T) : res (list T) :=
  v6_toVectorInto a (repeat #0 6).

(** src/types/alvelocity6d.cpp:166-174 *)
Definition v6_writeToVector (a : Velocity6D T) (v : list T) (it : nat) : res (list T * nat) :=
  vwrite v it (v6_list a).

(** almath/types/alvelocity6d.h:158-167 *)
Definition v6_add (a b : Velocity6D T) : Velocity6D T :=
  mkVelocity6D (v6_xd a + v6_xd b) (v6_yd a + v6_yd b) (v6_zd a + v6_zd b) (v6_wxd a + v6_wxd b) (v6_wyd a + v6_wyd b) (v6_wzd a + v6_wzd b).

(** almath/types/alvelocity6d.h:173-182 *)
Definition v6_sub (a b : Velocity6D T) : Velocity6D T :=
  mkVelocity6D (v6_xd a - v6_xd b) (v6_yd a - v6_yd b) (v6_zd a - v6_zd b) (v6_wxd a - v6_wxd b) (v6_wyd a - v6_wyd b) (v6_wzd a - v6_wzd b).

(** almath/types/alvelocity6d.h:195-198 *)
Definition v6_neg (a : Velocity6D T) : Velocity6D T :=
  mkVelocity6D (- v6_xd a) (- v6_yd a) (- v6_zd a) (- v6_wxd a) (- v6_wyd a) (- v6_wzd a).

(** almath/types/alvelocity6d.h:204-213 *)
Definition v6_scale (a : Velocity6D T) (v : T) : Velocity6D T :=
  mkVelocity6D (v6_xd a * v) (v6_yd a * v) (v6_zd a * v) (v6_wxd a * v) (v6_wyd a * v) (v6_wzd a * v).

(** src/types/alvelocity6d.cpp:176-181 *)
Definition v6_lscale (v : T) (a : Velocity6D T) : Velocity6D T := v6_scale a v.

(** src/types/alvelocity6d.cpp:72-80 *)
Definition v6_div (a : Velocity6D T) (v : T) : res (Velocity6D T) :=
  if v =? #0 then Throw else Ok (v6_scale a (#1 / v)).

(** src/types/alvelocity6d.cpp:100-110 *)
(* result left in [*this] *)
Definition v6_scaleIn (a : Velocity6D T) (v : T) : Velocity6D T :=
  mkVelocity6D (v6_xd a * v) (v6_yd a * v) (v6_zd a * v) (v6_wxd a * v) (v6_wyd a * v) (v6_wzd a * v).

(** src/types/alvelocity6d.cpp:113-122 *)
(* outcome, and what [*this] holds afterwards *)
Definition v6_divIn (a : Velocity6D T) (v : T) : res unit * Velocity6D T :=
  if v =? #0 then (Throw, a) else (Ok tt, v6_scaleIn a (#1 / v)).

(** src/types/alvelocity6d.cpp:83-91 *)
Definition v6_eqb (a b : Velocity6D T) : bool :=
  (v6_xd a =? v6_xd b) && (v6_yd a =? v6_yd b) && (v6_zd a =? v6_zd b) && (v6_wxd a =? v6_wxd b) && (v6_wyd a =? v6_wyd b) && (v6_wzd a =? v6_wzd b).

(** src/types/alvelocity6d.cpp:94-97 *)
Definition v6_neqb (a b : Velocity6D T) : bool := negb (v6_eqb a b).

(** src/types/alvelocity6d.cpp:124-134 *)
Definition v6_isNear (a b : Velocity6D T) (eps : T) : bool :=
  (s_abs (v6_xd a - v6_xd b) <=? eps)
  && (s_abs (v6_yd a - v6_yd b) <=? eps)
  && (s_abs (v6_zd a - v6_zd b) <=? eps)
  && (s_abs (v6_wxd a - v6_wxd b) <=? eps)
  && (s_abs (v6_wyd a - v6_wyd b) <=? eps)
  && (s_abs (v6_wzd a - v6_wzd b) <=? eps).

(** src/types/alvelocity6d.cpp:184-193 *)
Definition v6_norm (a : Velocity6D T) : T :=
  s_sqrt (v6_xd a * v6_xd a + v6_yd a * v6_yd a + v6_zd a * v6_zd a + v6_wxd a * v6_wxd a + v6_wyd a * v6_wyd a + v6_wzd a * v6_wzd a).

(** src/types/alvelocity6d.cpp:196-205 *)
Definition v6_normalize (a : Velocity6D T) : res (Velocity6D T) :=
  let tmpNorm := v6_norm a in
  if tmpNorm =? #0 then Throw else v6_div a tmpNorm.

(** ** Rotation3D *)

(** src/types/alrotation3d.cpp:15-18 *)
Definition e3_default : Rotation3D T := mkRotation3D (#0) (#0) (#0).

(** src/types/alrotation3d.cpp:20-23 *)
Definition e3_fill (v : T) : Rotation3D T := mkRotation3D (v) (v) (v).

(** src/types/alrotation3d.cpp:33-52 *)
(* the warning on std::cerr is not modelled *)
Definition e3_ofVector (v : list T) : Rotation3D T :=
  match v with
  | [v0; v1; v2] => mkRotation3D v0 v1 v2
  | _ => mkRotation3D #0 #0 #0
  end.

(** The components in declaration order. *)
Definition e3_list (a : Rotation3D T) : list T := [e3_wx a; e3_wy a; e3_wz a].

(** src/types/alrotation3d.cpp:130-136 *)
Definition e3_toVectorInto (a : Rotation3D T) (out : list T) : res (list T) :=
  vset_from (vresize #0 3 out) 0 (e3_list a).

(** src/types/alrotation3d.cpp:138-143 *)
Definition e3_toVector (a : Rotation3D T) : res (list T) :=
  e3_toVectorInto a (repeat #0 3).

(** almath/types/alrotation3d.h:118-124 *)
Definition e3_add (a b : Rotation3D T) : Rotation3D T :=
  mkRotation3D (e3_wx a + e3_wx b) (e3_wy a + e3_wy b) (e3_wz a + e3_wz b).

(** almath/types/alrotation3d.h:130-136 *)
Definition e3_sub (a b : Rotation3D T) : Rotation3D T :=
  mkRotation3D (e3_wx a - e3_wx b) (e3_wy a - e3_wy b) (e3_wz a - e3_wz b).

(** src/types/alrotation3d.cpp:54-60 *)
(* statement by statement, [this] at address [o], the argument at [q] *)
Definition e3_addIn (m : mem (Rotation3D T)) (o q : nat) : mem (Rotation3D T) :=
  do m := mupd m o (mkRotation3D (e3_wx (m o) + e3_wx (m q)) (e3_wy (m o)) (e3_wz (m o))) in
  do m := mupd m o (mkRotation3D (e3_wx (m o)) (e3_wy (m o) + e3_wy (m q)) (e3_wz (m o))) in
  do m := mupd m o (mkRotation3D (e3_wx (m o)) (e3_wy (m o)) (e3_wz (m o) + e3_wz (m q))) in
  m.

(** src/types/alrotation3d.cpp:63-69 *)
(* statement by statement, [this] at address [o], the argument at [q] *)
Definition e3_subIn (m : mem (Rotation3D T)) (o q : nat) : mem (Rotation3D T) :=
  do m := mupd m o (mkRotation3D (e3_wx (m o) - e3_wx (m q)) (e3_wy (m o)) (e3_wz (m o))) in
  do m := mupd m o (mkRotation3D (e3_wx (m o)) (e3_wy (m o) - e3_wy (m q)) (e3_wz (m o))) in
  do m := mupd m o (mkRotation3D (e3_wx (m o)) (e3_wy (m o)) (e3_wz (m o) - e3_wz (m q))) in
  m.

(** almath/types/alrotation3d.h:166-169 *)
Definition e3_scale (a : Rotation3D T) (v : T) : Rotation3D T :=
  mkRotation3D (e3_wx a * v) (e3_wy a * v) (e3_wz a * v).

(** src/types/alrotation3d.cpp:84-92 *)
Definition e3_div (a : Rotation3D T) (v : T) : res (Rotation3D T) :=
  if v =? #0 then Throw else Ok (e3_scale a (#1 / v)).

(** src/types/alrotation3d.cpp:94-100 *)
(* result left in [*this] *)
Definition e3_scaleIn (a : Rotation3D T) (v : T) : Rotation3D T :=
  mkRotation3D (e3_wx a * v) (e3_wy a * v) (e3_wz a * v).

(** src/types/alrotation3d.cpp:102-111 *)
(* outcome, and what [*this] holds afterwards *)
Definition e3_divIn (a : Rotation3D T) (v : T) : res unit * Rotation3D T :=
  if v =? #0 then (Throw, a) else (Ok tt, e3_scaleIn a (#1 / v)).

(** src/types/alrotation3d.cpp:72-77 *)
Definition e3_eqb (a b : Rotation3D T) : bool :=
  (e3_wx a =? e3_wx b) && (e3_wy a =? e3_wy b) && (e3_wz a =? e3_wz b).

(** src/types/alrotation3d.cpp:79-82 *)
Definition e3_neqb (a b : Rotation3D T) : bool := negb (e3_eqb a b).

(** src/types/alrotation3d.cpp:114-121 *)
Definition e3_isNear (a b : Rotation3D T) (eps : T) : bool :=
  (s_abs (e3_wx a - e3_wx b) <=? eps)
  && (s_abs (e3_wy a - e3_wy b) <=? eps)
  && (s_abs (e3_wz a - e3_wz b) <=? eps).

(** src/types/alrotation3d.cpp:146-150 *)
Definition e3_norm (a : Rotation3D T) : T :=
  s_sqrt (e3_wx a * e3_wx a + e3_wy a * e3_wy a + e3_wz a * e3_wz a).

(** ** Pose2D *)

(** src/types/alpose2d.cpp:14-14 *)
Definition pose_default : Pose2D T := mkPose2D (#0) (#0) (#0).

(** src/types/alpose2d.cpp:16-16 *)
Definition pose_fill (v : T) : Pose2D T := mkPose2D (v) (v) (v).

(** src/types/alpose2d.cpp:26-45 *)
(* the warning on std::cerr is not modelled *)
Definition pose_ofVector (v : list T) : Pose2D T :=
  match v with
  | [v0; v1; v2] => mkPose2D v0 v1 v2
  | _ => mkPose2D #0 #0 #0
  end.

(** The components in declaration order. *)
Definition pose_list (a : Pose2D T) : list T := [pose_x a; pose_y a; pose_theta a].

(** src/types/alpose2d.cpp:133-139 *)
Definition pose_toVectorInto (a : Pose2D T) (out : list T) : res (list T) :=
  vset_from (vresize #0 3 out) 0 (pose_list a).

(** src/types/alpose2d.cpp:141-146 *)
Definition pose_toVector (a : Pose2D T) : res (list T) :=
  pose_toVectorInto a (repeat #0 3).

(** src/types/alpose2d.cpp:148-153 *)
Definition pose_writeToVector (a : Pose2D T) (v : list T) (it : nat) : res (list T * nat) :=
  vwrite v it (pose_list a).

(** almath/types/alpose2d.h:131-134 *)
Definition pose_add (a b : Pose2D T) : Pose2D T :=
  mkPose2D (pose_x a + pose_x b) (pose_y a + pose_y b) (pose_theta a + pose_theta b).

(** almath/types/alpose2d.h:140-143 *)
Definition pose_sub (a b : Pose2D T) : Pose2D T :=
  mkPose2D (pose_x a - pose_x b) (pose_y a - pose_y b) (pose_theta a - pose_theta b).

(** almath/types/alpose2d.h:156-159 *)
Definition pose_neg (a : Pose2D T) : Pose2D T :=
  mkPose2D (- pose_x a) (- pose_y a) (- pose_theta a).

(** src/types/alpose2d.cpp:61-67 *)
(* statement by statement, [this] at address [o], the argument at [q] *)
Definition pose_addIn (m : mem (Pose2D T)) (o q : nat) : mem (Pose2D T) :=
  do m := mupd m o (mkPose2D (pose_x (m o) + pose_x (m q)) (pose_y (m o)) (pose_theta (m o))) in
  do m := mupd m o (mkPose2D (pose_x (m o)) (pose_y (m o) + pose_y (m q)) (pose_theta (m o))) in
  do m := mupd m o (mkPose2D (pose_x (m o)) (pose_y (m o)) (pose_theta (m o) + pose_theta (m q))) in
  m.

(** src/types/alpose2d.cpp:69-75 *)
(* statement by statement, [this] at address [o], the argument at [q] *)
Definition pose_subIn (m : mem (Pose2D T)) (o q : nat) : mem (Pose2D T) :=
  do m := mupd m o (mkPose2D (pose_x (m o) - pose_x (m q)) (pose_y (m o)) (pose_theta (m o))) in
  do m := mupd m o (mkPose2D (pose_x (m o)) (pose_y (m o) - pose_y (m q)) (pose_theta (m o))) in
  do m := mupd m o (mkPose2D (pose_x (m o)) (pose_y (m o)) (pose_theta (m o) - pose_theta (m q))) in
  m.

(** almath/types/alpose2d.h:207-210 *)
Definition pose_scale (a : Pose2D T) (v : T) : Pose2D T :=
  mkPose2D (pose_x a * v) (pose_y a * v) (pose_theta a * v).

(** src/types/alpose2d.cpp:99-107 *)
Definition pose_div (a : Pose2D T) (v : T) : res (Pose2D T) :=
  if v =? #0 then Throw else Ok (pose_scale a (#1 / v)).

(** src/types/alpose2d.cpp:109-115 *)
(* result left in [*this] *)
Definition pose_scaleIn (a : Pose2D T) (v : T) : Pose2D T :=
  mkPose2D (pose_x a * v) (pose_y a * v) (pose_theta a * v).

(** src/types/alpose2d.cpp:117-126 *)
(* outcome, and what [*this] holds afterwards *)
Definition pose_divIn (a : Pose2D T) (v : T) : res unit * Pose2D T :=
  if v =? #0 then (Throw, a) else (Ok tt, pose_scaleIn a (#1 / v)).

(** src/types/alpose2d.cpp:77-82 *)
Definition pose_eqb (a b : Pose2D T) : bool :=
  (pose_x a =? pose_x b) && (pose_y a =? pose_y b) && (pose_theta a =? pose_theta b).

(** src/types/alpose2d.cpp:84-87 *)
Definition pose_neqb (a b : Pose2D T) : bool := negb (pose_eqb a b).

(** src/types/alpose2d.cpp:181-188 *)
Definition pose_isNear (a b : Pose2D T) (eps : T) : bool :=
  (s_abs (pose_x a - pose_x b) <=? eps)
  && (s_abs (pose_y a - pose_y b) <=? eps)
  && (s_abs (pose_theta a - pose_theta b) <=? eps).

(** almath/types/alpose2d.h:302-305 *)
Definition pose_norm (a : Pose2D T) : T :=
  s_sqrt (pose_x a * pose_x a + pose_y a * pose_y a).

(** src/types/alpose2d.cpp:155-164 *)
Definition pose_normalize (a : Pose2D T) : res (Pose2D T) :=
  let tmpNorm := pose_norm a in
  if s_abs tmpNorm <? ##1//10000 then Throw
  else Ok (mkPose2D (pose_x a / tmpNorm) (pose_y a / tmpNorm) (pose_theta a)).

(** src/types/alpose2d.cpp:166-171 *)
Definition pose_distanceSquared (a b : Pose2D T) : T :=
  (pose_x a - pose_x b) * (pose_x a - pose_x b) + (pose_y a - pose_y b) * (pose_y a - pose_y b).

(** src/types/alpose2d.cpp:173-178 *)
Definition pose_distance (a b : Pose2D T) : T := s_sqrt (pose_distanceSquared a b).

(** almath/types/alpose2d.h:183-189 *)
Definition pose_mul (a b : Pose2D T) : Pose2D T :=
  mkPose2D (pose_x a + s_cos (pose_theta a) * pose_x b - s_sin (pose_theta a) * pose_y b)
           (pose_y a + s_sin (pose_theta a) * pose_x b + s_cos (pose_theta a) * pose_y b)
           (pose_theta a + pose_theta b).

(** src/types/alpose2d.cpp:47-59: [operator*=], statement by statement, [this] at
    address [o], the argument at [q].  Note that it associates the sums
    differently from [operator*]. *)
Definition pose_mulIn (m : mem (Pose2D T)) (o q : nat) : mem (Pose2D T) :=
  let x0 := pose_x (m q) in
  let y0 := pose_y (m q) in
  let cs := s_cos (pose_theta (m o)) in
  let sn := s_sin (pose_theta (m o)) in
  do m := mupd m o (mkPose2D (pose_x (m o) + (cs * x0 - sn * y0)) (pose_y (m o)) (pose_theta (m o))) in
  do m := mupd m o (mkPose2D (pose_x (m o)) (pose_y (m o) + (sn * x0 + cs * y0)) (pose_theta (m o))) in
  do m := mupd m o (mkPose2D (pose_x (m o)) (pose_y (m o)) (pose_theta (m o) + pose_theta (m q))) in
  m.

(** src/types/alpose2d.cpp:203-213 *)
Definition pose_invertInPlace (a : Pose2D T) : Pose2D T :=
  let theta := - pose_theta a in
  let c := s_cos theta in
  let s := s_sin theta in
  let x := pose_x a in
  mkPose2D (- (x * c - pose_y a * s)) (- (pose_y a * c + x * s)) theta.

(** src/types/alpose2d.cpp:195-201: [pOut = pIn] then in place, [i] and [o] addresses. *)
Definition pose_inverseOut (m : mem (Pose2D T)) (i o : nat) : mem (Pose2D T) :=
  do m := mupd m o (m i) in
  mupd m o (pose_invertInPlace (m o)).

(** src/types/alpose2d.cpp:225-230 and 190-193 (Pose2D::inverse) *)
Definition pose_inverse (a : Pose2D T) : Pose2D T :=
  pose_inverseOut (fun o => match o with O => a | _ => pose_default end) 0 1 1.

(** src/types/alpose2d.cpp:232-237 *)
Definition pose_pinv (a : Pose2D T) : Pose2D T := pose_invertInPlace a.

(** src/types/alpose2d.cpp:215-223: a copy inverted, then [*=]. *)
Definition pose_diff (a b : Pose2D T) : Pose2D T :=
  pose_mulIn (fun o => match o with O => pose_invertInPlace a | _ => b end) 0 1 0.

(** almath/types/alpose2d.h:323-326 *)
Definition pose_getAngle (a : Pose2D T) : T := s_atan2 (pose_y a) (pose_x a).

(** src/types/alpose2d.cpp:239-246 *)
Definition pose_fromPolar (r t : T) : Pose2D T := mkPose2D (r * s_cos t) (r * s_sin t) t.

End Model.
