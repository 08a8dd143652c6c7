(** * Specification of angles: congruence modulo a turn, circular mean, clamping. *)

From Coq Require Import Reals List ZArith.
Import ListNotations.
Local Open Scope R_scope.

(** The two angles differ by a whole number of turns. *)
Definition same_angle (a b : R) : Prop := exists k : Z, b = a + IZR k * (2 * PI).

(** Components of the sum of the vectors of length w and direction a, for the pairs
    (a, w) of the list. *)
Fixpoint sum_cos (l : list (R * R)) : R :=
  match l with [] => 0 | (a, w) :: l' => w * cos a + sum_cos l' end.
Fixpoint sum_sin (l : list (R * R)) : R :=
  match l with [] => 0 | (a, w) :: l' => w * sin a + sum_sin l' end.

(** Length of that sum. *)
Definition resultant (l : list (R * R)) : R := sqrt (sum_cos l * sum_cos l + sum_sin l * sum_sin l).

(** [m] is the direction of that sum, as an angle of ]-pi, pi]. *)
Definition is_circular_mean (l : list (R * R)) (m : R) : Prop :=
  - PI < m <= PI /\ 0 < resultant l /\
  resultant l * cos m = sum_cos l /\ resultant l * sin m = sum_sin l.

(** The integer [n] is nearest to [x], a half being rounded away from zero. *)
Definition nearest_away (x : R) (n : Z) : Prop :=
  Rabs (IZR n - x) <= / 2 /\ (Rabs (IZR n - x) = / 2 -> Rabs x < Rabs (IZR n)).
