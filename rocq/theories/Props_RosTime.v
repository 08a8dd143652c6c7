(** * Property C53: conversions to and from ROS time *)
From Coq Require Import ZArith Lia Bool.
From Verif Require Import Scalar Model_RosTime Spec_RosTime.
Local Open Scope Z_scope.
From Verif Require Proofs_RosTime.

(** ** C53 *)

(** Any duration is converted to a valid time: its own number of nanoseconds when ROS can
    represent it, and the nearest bound otherwise. *)
Theorem C53_clamp : forall n, is_count n ->
  exists t, toValidRosTime n = Ok t /\ valid t /\
    (1 <= n <= last_ns -> nanoseconds t = n) /\ (n < 1 -> t = TIME_MIN) /\ (last_ns < n -> t = TIME_MAX).
Proof. exact @Proofs_RosTime.C53_clamp_proof. Qed.
Print Assumptions C53_clamp.

(** The two conversions are inverse of each other between the valid times and the durations of
    1 to [last_ns] nanoseconds. *)
Theorem C53_round_trip : (forall n, 1 <= n <= last_ns -> exists t, toValidRosTime n = Ok t /\ toQiDuration t = Ok n) /\
  (forall t, valid t -> exists n, toQiDuration t = Ok n /\ n = nanoseconds t /\ toValidRosTime n = Ok t).
Proof. exact @Proofs_RosTime.C53_round_trip_proof. Qed.
Print Assumptions C53_round_trip.

(** The conversion is monotone. *)
Theorem C53_monotone : forall n n' t t', n <= n' -> toValidRosTime n = Ok t -> toValidRosTime n' = Ok t' -> time_le t t' = true.
Proof. exact @Proofs_RosTime.C53_monotone_proof. Qed.
Print Assumptions C53_monotone.

Example C53_ex : toValidRosTime 1500000000123456789 = Ok (mkTime 1500000000 123456789) /\ toValidRosTime (-5) = Ok TIME_MIN
  /\ toValidRosTime (2^63 - 1) = Ok TIME_MAX /\ valid (mkTime 1500000000 123456789) /\ is_count 1500000000123456789.
Proof. unfold valid, normalized, representable, nanoseconds, is_count. cbn [t_sec t_nsec]. repeat split; lia. Qed.

(** The comment of toQiDuration says that a time not greater than TIME_MAX cannot wrap
    over. That holds of all the times with 32 bits fields (the largest is about 2^62), even
    those whose nanoseconds exceed a second, which the function accepts below TIME_MAX. *)
Theorem C53_any_time : forall t, representable t ->
  toQiDuration t = Ok (nanoseconds t) \/ (toQiDuration t = Abort /\ time_le t TIME_MAX = false).
Proof. exact @Proofs_RosTime.C53_any_time_proof. Qed.
Print Assumptions C53_any_time.

Example C53_any_time_ex : representable (mkTime 7 4000000000) /\ toQiDuration (mkTime 7 4000000000) = Ok 11000000000.
Proof. unfold representable. cbn [t_sec t_nsec]. repeat split; lia. Qed.
