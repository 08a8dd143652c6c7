(** * Specification of the accuracy of merged bodies in double precision *)

From Coq Require Import List Reals.
From Flocq Require Import IEEE754.BinarySingleNaN.
Import ListNotations.
From Verif Require Import Model_Text Model_Pose Model_Urdf.
Local Open Scope R_scope.

(** The masses of the bodies of a robot, and their exact sum. *)
Definition masses (d : list (elem f64)) : list f64 :=
  flat_map (fun l => match l_inertial l with Some i => [i_mass i] | None => [] end) (links d).
Definition exact_mass (d : list (elem f64)) : R := fold_right (fun m s => B2R m + s) 0 (masses d).
Definition proper_masses (d : list (elem f64)) : Prop :=
  forall m, In m (masses d) -> is_finite m = true /\ 0 <= B2R m.

(** Half a unit in the last place of 1. *)
Definition u : R := / 2 ^ 53.
(** Equal, but for n roundings. *)
Definition after_roundings (n : nat) (exact computed : R) : Prop :=
  (1 - u) ^ n * exact <= computed <= (1 + u) ^ n * exact.

(** The centre of two masses, along an axis. *)
Definition centre (ma xa mb xb : R) : R := (ma * xa + mb * xb) / (ma + mb).
