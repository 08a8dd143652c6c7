(** * Triples of floats turned by a rotation *)

From Coq Require Import Reals.
From Flocq Require Import Core.Core IEEE754.BinarySingleNaN.
From Verif Require Import Scalar Model_Base Model_Vec F32 Spec_Geom Spec_Round.
Local Open Scope R_scope.

(** Three floats: those of a Position3D, the linear or the angular part of a Velocity6D, or
    the first or last three of a Position6D. *)
Definition triple : Type := (f32 * f32 * f32)%type.
Definition triple_p3 (p : Position3D f32) : triple := (p3_x p, p3_y p, p3_z p).
Definition triple_linear (v : Velocity6D f32) : triple := (v6_xd v, v6_yd v, v6_zd v).
Definition triple_angular (v : Velocity6D f32) : triple := (v6_wxd v, v6_wyd v, v6_wzd v).
Definition triple_first (p : Position6D f32) : triple := (p6_x p, p6_y p, p6_z p).
Definition triple_last (p : Position6D f32) : triple := (p6_wx p, p6_wy p, p6_wz p).

Definition finite3 (t : triple) : Prop :=
  let '(x, y, z) := t in is_finite x = true /\ is_finite y = true /\ is_finite z = true.
Definition val3 (t : triple) : vec3 := let '(x, y, z) := t in (val x, val y, val z).

(** [w] is finite and is [v] multiplied by [M], up to e times the length of [v] (and a
    quantity below the smallest normal float), provided that [v] is finite and no longer
    than 2^50. *)
Definition turned (e : R) (M : mat3) (v w : triple) : Prop :=
  finite3 v -> vnorm (val3 v) <= bpow radix2 50 ->
  finite3 w /\ vnorm (vsub (val3 w) (mapply M (val3 v))) <= e * vnorm (val3 v) + bpow radix2 (-146).
