(** * Specification: vector spaces, metrics, tolerance relations
    The vocabulary of the statements of C24 - C27; nothing here mentions the model's
    functions. *)

From Coq Require Import Reals List.
Import ListNotations.
From Verif Require Import Model_Vec Model_Rigid.
Local Open Scope R_scope.

(** A real vector space, with the scalar written on the right. *)
Definition vector_space {V : Type} (zero : V) (add sub : V -> V -> V) (neg : V -> V)
    (scale : V -> R -> V) : Prop :=
  (forall a b c, add (add a b) c = add a (add b c)) /\
  (forall a b, add a b = add b a) /\
  (forall a, add zero a = a) /\
  (forall a, add a (neg a) = zero) /\
  (forall a b, sub a b = add a (neg b)) /\
  (forall a s t, scale (scale a s) t = scale a (s * t)) /\
  (forall a, scale a 1 = a) /\
  (forall a b s, scale (add a b) s = add (scale a s) (scale b s)) /\
  (forall a s t, scale a (s + t) = add (scale a s) (scale a t)).

(** Component by component: the vector operations do to each coordinate what R does. *)
Definition pointwise {V : Type} (coords : V -> list R) (add sub : V -> V -> V) (neg : V -> V)
    (scale : V -> R -> V) : Prop :=
  (forall a b, coords a = coords b -> a = b) /\
  (forall a b, coords (add a b) = map (fun p => fst p + snd p) (combine (coords a) (coords b))) /\
  (forall a b, coords (sub a b) = map (fun p => fst p - snd p) (combine (coords a) (coords b))) /\
  (forall a, coords (neg a) = map Ropp (coords a)) /\
  (forall a s, coords (scale a s) = map (fun x => x * s) (coords a)).

(** The coordinates of each type, in the order of its fields. *)
Definition cp2 {T} (a : Position2D T) : list T := [p2_x a; p2_y a].
Definition cp3 {T} (a : Position3D T) : list T := [p3_x a; p3_y a; p3_z a].
Definition cp6 {T} (a : Position6D T) : list T := [p6_x a; p6_y a; p6_z a; p6_wx a; p6_wy a; p6_wz a].
Definition cv3 {T} (a : Velocity3D T) : list T := [v3_xd a; v3_yd a; v3_zd a].
Definition cv6 {T} (a : Velocity6D T) : list T := [v6_xd a; v6_yd a; v6_zd a; v6_wxd a; v6_wyd a; v6_wzd a].
Definition ce3 {T} (a : Rotation3D T) : list T := [e3_wx a; e3_wy a; e3_wz a].
Definition cpose {T} (a : Pose2D T) : list T := [pose_x a; pose_y a; pose_theta a].
Definition cq {T} (a : Quaternion T) : list T := [q_w a; q_x a; q_y a; q_z a].
Definition cm {T} (a : Rotation T) : list T :=
  [m_r1c1 a; m_r1c2 a; m_r1c3 a; m_r2c1 a; m_r2c2 a; m_r2c3 a; m_r3c1 a; m_r3c2 a; m_r3c3 a].
Definition ct {T} (a : Transform T) : list T :=
  [t_r1c1 a; t_r1c2 a; t_r1c3 a; t_r1c4 a; t_r2c1 a; t_r2c2 a; t_r2c3 a; t_r2c4 a;
   t_r3c1 a; t_r3c2 a; t_r3c3 a; t_r3c4 a].

(** Sum of squares, Euclidean norm, scalar product and difference of lists of coordinates. *)
Fixpoint sumsq (l : list R) : R := match l with [] => 0 | x :: l' => x * x + sumsq l' end.
Definition lnorm (l : list R) : R := sqrt (sumsq l).
Fixpoint ldot (l k : list R) : R := match l, k with x :: l', y :: k' => x * y + ldot l' k' | _, _ => 0 end.
Definition ldiff (l k : list R) : list R := map (fun p => fst p - snd p) (combine l k).

(** A distance function. *)
Definition is_metric {V : Type} (d : V -> V -> R) : Prop :=
  (forall a b, 0 <= d a b) /\ (forall a b, d a b = 0 <-> a = b) /\
  (forall a b, d a b = d b a) /\ (forall a b c, d a c <= d a b + d b c).

(** A tolerance relation on the coordinates [coords]. *)
Definition is_tolerance {V : Type} (coords : V -> list R) (near : V -> V -> R -> bool) : Prop :=
  (forall a b eps, near a b eps = true <->
     Forall (fun p => Rabs (fst p - snd p) <= eps) (combine (coords a) (coords b))) /\
  (forall a eps, 0 <= eps -> near a a eps = true) /\
  (forall a b eps, near a b eps = near b a eps) /\
  (forall a b eps eps', eps <= eps' -> near a b eps = true -> near a b eps' = true) /\
  (forall a b, near a b 0 = true -> a = b).
