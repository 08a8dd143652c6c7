(** * Specification of ROS time: a number of nanoseconds, within bounds. *)

From Coq Require Import ZArith.
From Verif Require Import Model_RosTime.
Local Open Scope Z_scope.

Definition nanoseconds (t : rosTime) : Z := 10^9 * t_sec t + t_nsec t.
(** The two fields hold unsigned 32 bits numbers. *)
Definition representable (t : rosTime) : Prop := 0 <= t_sec t < 2^32 /\ 0 <= t_nsec t < 2^32.
(** The nanoseconds are those of a second. *)
Definition normalized (t : rosTime) : Prop := representable t /\ t_nsec t < 10^9.
(** A time: ROS reserves (0, 0). *)
Definition valid (t : rosTime) : Prop := normalized t /\ 1 <= nanoseconds t.
Definition is_count (n : Z) : Prop := - 2^63 <= n < 2^63.
Definition last_ns : Z := 2^32 * 10^9 - 1.
