(** * Specification of the comparison operators and of the conversions between value types *)

From Coq Require Import Reals List Bool.
Import ListNotations.
From Flocq Require Import Core.Core IEEE754.BinarySingleNaN.
From Verif Require Import Model_Base Model_Vec Model_Rigid F32 Spec_Geom Spec_Vec.

(** Two floats C++ compares equal: neither is a NaN, and they are the same finite number (the
    two zeros are the same number) or the same infinity. *)
Definition same_number (x y : f32) : Prop :=
  (is_finite x = true /\ is_finite y = true /\ B2R x = B2R y) \/
  (exists s, x = B754_infinity s /\ y = B754_infinity s).

Definition not_a_number (x : f32) : Prop := x = B754_nan.

(** [eq] decides that the numbers of two values are pairwise in relation [rel]. *)
Definition decides {T A : Type} (rel : T -> T -> Prop) (coords : A -> list T) (eq : A -> A -> bool) : Prop :=
  forall a b, eq a b = true <-> Forall2 rel (coords a) (coords b).

(** [neq] answers the contrary of [eq]. *)
Definition opposite {A : Type} (neq eq : A -> A -> bool) : Prop := forall a b, neq a b = true <-> eq a b <> true.

(** The translation and the angular part of a Position6D. *)
Definition p6lin (p : Position6D R) : vec3 := (p6_x p, p6_y p, p6_z p).
Definition p6ang (p : Position6D R) : vec3 := (p6_wx p, p6_wy p, p6_wz p).

(** A tolerance test on the coordinates [coords], in single precision, for finite numbers: it
    accepts any values whose coordinates differ by at most eps, and nothing that differs by more
    than eps (1 + 2^-24); it is symmetric, and reflexive for eps >= 0. *)
Definition is_tolerance32 {V : Type} (coords : V -> list f32) (near : V -> V -> f32 -> bool) : Prop :=
  forall a b eps, Forall (fun x => is_finite x = true) (coords a) -> Forall (fun x => is_finite x = true) (coords b) ->
  is_finite eps = true ->
  (Forall2 (fun x y => Rabs (B2R x - B2R y) <= B2R eps)%R (coords a) (coords b) -> near a b eps = true) /\
  (near a b eps = true -> Forall2 (fun x y => Rabs (B2R x - B2R y) <= B2R eps * (1 + / 16777216))%R (coords a) (coords b)) /\
  near a b eps = near b a eps /\ (0 <= B2R eps -> near a a eps = true)%R.
