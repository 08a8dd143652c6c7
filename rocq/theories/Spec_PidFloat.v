(** * Specification of the accuracy of the PID controller in single precision *)

From Coq Require Import Reals.
Local Open Scope R_scope.

(** A bound of the feedback of a controller called at most N times, with commands and measures of
    magnitude at most M: errors are at most 2 M. *)
Definition feedback_bound (kp kv ki offset period M N : R) : R :=
  offset + kp * (2 * M) + kv * (4 * M / period) + ki * (2 * M * period * N).

(** Distance to the exact law: a few units in the last place (2^-24) of each term, the integral
    losing at most N such units of its own bound, and almost nothing (2^-147) next to zero. *)
Definition feedback_error (kp kv ki offset period M N : R) : R :=
  / 2^24 * (kp * (5 * M) + kv * (21 * (M / period)) + ki * (M * period * N * (8 + 4 * N))
            + 13 * feedback_bound kp kv ki offset period M N) + / 2^147.
