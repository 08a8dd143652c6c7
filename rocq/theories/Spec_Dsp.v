(** * Specification of the difference equation and of the PID law *)

From Coq Require Import Reals List Arith Bool.
Import ListNotations.
Local Open Scope R_scope.

(** Sum of [f 0], ..., [f (n-1)]. *)
Definition wsum (n : nat) (f : nat -> R) : R := fold_right Rplus 0 (map f (seq 0 n)).

Definition at_ (l : list R) (k : nat) : R := nth k l 0.

(** The outputs [ys] for the inputs [xs]. With n input and m output weights (the first weight
    is that of the oldest sample), the k-th output (from 0) is the k-th input as long as fewer
    than n inputs or m outputs are known, then the weighted sum of the last n inputs divided
    by the gain and of the m previous outputs. *)
Definition difference_equation (wIn wOut : list R) (gain : R) (xs ys : list R) : Prop :=
  let n := length wIn in
  let m := length wOut in
  length ys = length xs /\
  forall k, (k < length xs)%nat ->
    at_ ys k =
    if (k + 1 <? n)%nat || (k <? m)%nat then at_ xs k
    else wsum n (fun i => at_ wIn i * (at_ xs (k + 1 - n + i) / gain))
         + wsum m (fun j => at_ wOut j * at_ ys (k - m + j)).

(** ** PID *)

(** Distance beyond the threshold, with the sign of the error. *)
Definition deadband (threshold e : R) : R := Rmax (e - threshold) 0 + Rmin (e + threshold) 0.

(** What may be called between two feedbacks. *)
Inductive pid_call :=
| CallFeedback (command sensor period : R)
| CallAbsolute (err : R)
| CallSetGains (kp kv ki : R).

(** The errors seen so far, oldest first. *)
Fixpoint errors (threshold : R) (h : list pid_call) : list R :=
  match h with
  | [] => []
  | CallFeedback c s _ :: h' => deadband threshold (c - s) :: errors threshold h'
  | CallAbsolute e :: h' => Rmax (e - threshold) 0 :: errors threshold h'
  | CallSetGains _ _ _ :: h' => errors threshold h'
  end.

(** The gains in force: the last ones accepted, a negative gain being rejected. *)
Fixpoint gains (g : R * R * R) (h : list pid_call) : R * R * R :=
  match h with
  | [] => g
  | CallSetGains kp kv ki :: h' =>
      gains (if Rle_dec 0 kp then if Rle_dec 0 kv then if Rle_dec 0 ki then (kp, kv, ki) else g else g else g) h'
  | _ :: h' => gains g h'
  end.

Definition sum_list (l : list R) : R := fold_right Rplus 0 l.

(** Change of the error since the previous one, zero when there is none. *)
Definition change (past : list R) (e : R) : R :=
  match past with [] => 0 | _ => e - last past 0 end.

(** offset + Kp e + Kv de/dt + Ki (integral of e). *)
Definition pid_law (g : R * R * R) (offset period e de total : R) : R :=
  let '(kp, kv, ki) := g in offset + kp * e + kv * (de / period) + ki * (total * period).
