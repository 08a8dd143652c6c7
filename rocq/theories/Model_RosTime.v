(** * ROS time

    Model of almath/scenegraph/qirostime.h. A qi::Duration holds a signed 64 bits number of
    nanoseconds; a ros::Time holds two unsigned 32 bits numbers. *)

From Coq Require Import ZArith Bool.
From Verif Require Import Scalar.
Local Open Scope Z_scope.

(** ros/time.h (not in the repository): struct Time { uint32_t sec, nsec; }; its fromNSec
    throws when the seconds do not fit. *)
Record rosTime := mkTime { t_sec : Z; t_nsec : Z }.
Definition fromNSec (t : Z) : res rosTime :=
  let sec64 := t / 1000000000 in
  if 2^32 - 1 <? sec64 then Throw else Ok (mkTime sec64 (t mod 1000000000)).
Definition toNSec (t : rosTime) : Z := (t_sec t * 1000000000 + t_nsec t) mod 2^64.
Definition TIME_MIN : rosTime := mkTime 0 1.
Definition TIME_MAX : rosTime := mkTime (2^32 - 1) 999999999.
(** operator<= of ros::Time: lexicographic. *)
Definition time_le (a b : rosTime) : bool :=
  if t_sec a <? t_sec b then true
  else if (t_sec a =? t_sec b) && (t_nsec a <=? t_nsec b) then true else false.

(** The conversion of an unsigned 64 bits number to a signed one. *)
Definition to_int64 (z : Z) : Z := (z + 2^63) mod 2^64 - 2^63.
(** The conversion of a signed 64 bits number to an unsigned one. *)
Definition to_uint64 (z : Z) : Z := z mod 2^64.

(** almath/scenegraph/qirostime.h:35-62 *)
Definition toValidRosTime (count : Z) : res rosTime :=
  let rosMin := 1 in
  let rosMax := 999999999 + (2^32 - 1) * 1000000000 in
  if negb (rosMin =? to_int64 (toNSec TIME_MIN)) then Abort else
  if negb (rosMax =? to_int64 (toNSec TIME_MAX)) then Abort else
  fromNSec (to_uint64 (Z.min rosMax (Z.max rosMin count))).

(** almath/scenegraph/qirostime.h:64-70 *)
Definition toQiDuration (time : rosTime) : res Z :=
  if negb (time_le time TIME_MAX) then Abort else Ok (to_int64 (toNSec time)).
